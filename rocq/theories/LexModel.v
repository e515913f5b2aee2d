(** bfcli: lexer.l, from the characters of a ruleset to its tokens.

    flex: at each point, of the rules that are active, the one with the longest match,
    and the first in the file among those; a start condition made with %s leaves the
    rules without a condition active.  chars are signed, as on x86-64. *)
From Coq Require Import String NArith List Bool Arith.
From Verif Require Import Bytes Types GenModel StrModel RulesTextModel.
Import ListNotations.
Local Open Scope string_scope.
Local Open Scope list_scope.
Local Open Scope N_scope.

(** *** Patterns *)
(** lexer.l:46: a class lists the ranges of its characters. *)
Definition cls := list (N * N).
(** lexer.l:46-295, the operators of patterns: classes, concatenation, |, *. *)
Inductive re := R_none | R_empty | R_cls (c : cls) | R_cat (a b : re) | R_alt (a b : re) | R_star (a : re).
(** lexer.l:46, a character and a class. *)
Definition in_cls (c : cls) (x : N) : bool := existsb (fun r => (fst r <=? x) && (x <=? snd r)) c.

(** Matching of lexer.l:46-295: whether the empty text matches. *)
Fixpoint nullable (r : re) : bool :=
  match r with
  | R_none => false | R_empty => true | R_cls _ => false
  | R_cat a b => nullable a && nullable b
  | R_alt a b => nullable a || nullable b
  | R_star _ => true
  end.
(** As above: concatenation, simplified. *)
Definition cat (a b : re) : re := match a, b with R_none, _ => R_none | _, R_none => R_none | R_empty, _ => b | _, _ => R_cat a b end.
(** As above: |, simplified. *)
Definition alt (a b : re) : re := match a, b with R_none, _ => b | _, R_none => a | _, _ => R_alt a b end.
(** Matching of lexer.l:46-295: what can follow [x] (Brzozowski). *)
Fixpoint der (x : N) (r : re) : re :=
  match r with
  | R_none | R_empty => R_none
  | R_cls c => if in_cls c x then R_empty else R_none
  | R_cat a b => if nullable a then alt (cat (der x a) b) (der x b) else cat (der x a) b
  | R_alt a b => alt (der x a) (der x b)
  | R_star a => cat (der x a) (R_star a)
  end.
(** Matching of lexer.l:46-295: the length of the longest prefix that matches. *)
Fixpoint longest (r : re) (s : cstr) : option nat :=
  let here := if nullable r then Some O else None in
  match s with
  | [] => here
  | x :: s' => match r with
               | R_none => None
               | _ => match longest (der x r) s' with Some k => Some (S k) | None => here end
               end
  end.

(** flex's notations: "abc", r+, r?. *)
Definition chr (x : N) : re := R_cls [(x, x)].
(** lexer.l:53, characters in sequence. *)
Fixpoint word_re (s : cstr) : re := match s with [] => R_empty | [x] => chr x | x :: r => R_cat (chr x) (word_re r) end.
(** lexer.l:53, a word. *)
Definition text (s : string) : re := word_re (lit s).
(** lexer.l:46 +. *)
Definition plus (r : re) : re := R_cat r (R_star r).
(** lexer.l:46 ?. *)
Definition maybe (r : re) : re := R_alt R_empty r.
Declare Scope re_scope.
Infix "&" := R_cat (at level 42, right associativity) : re_scope.
Infix "<|>" := R_alt (at level 52, right associativity) : re_scope.
Local Open Scope re_scope.

(** lexer.l:62 A-Z. *)
Definition upper : N * N := (65, 90).
(** lexer.l:46 a-z. *)
Definition lower : N * N := (97, 122).
(** lexer.l:46 0-9. *)
Definition digit : N * N := (48, 57).
(** lexer.l:47. *)
Definition dot := text ".".
(** lexer.l:46. *)
Definition alnum : re := R_cls [digit; lower; upper].
(** lexer.l:46-47. *)
Definition int_re : re := maybe (text "-" <|> text "0x") & plus alnum.
(** lexer.l:47. *)
Definition float_re : re := plus (R_cls [digit]) & maybe (dot & plus (R_cls [digit])).
(** lexer.l:293 [a-zA-Z0-9_]+ *)
Definition name_re : re := plus (R_cls [lower; upper; digit; (95, 95)]).
(** lexer.l:129 {int}|[0-9a-zA-Z-]+ *)
Definition value_re : re := int_re <|> plus (R_cls [digit; lower; upper; (45, 45)]).
(** lexer.l:111 [ \t\n\r\f\v]* *)
Definition blanks_re : re := R_star (R_cls [(32, 32); (9, 10); (13, 13); (12, 12); (11, 11)]).

(** *** Rules *)
(** lexer.l:22-43. *)
Inductive lstate :=
| L_INITIAL | L_HOOK_OPTS | L_MARK_OPTS | L_LOG_EVERY | L_REDIRECT_IFACE | L_REDIRECT_DIR | L_MATCHER_SET | L_META_IFACE | L_META_L3_PROTO
| L_META_MARK | L_META_FLOW_HASH | L_L4_PROTO | L_META_PROBA | L_IPV4_ADDR | L_IP4_NET | L_IP4_DSCP | L_IP6_ADDR | L_IP6_NET | L_IP6_DSCP
| L_PORT | L_ICMP_TYPE | L_ICMP_CODE | L_TCP_FLAGS.
Scheme Equality for lstate.

(** lexer.l:50-295, what a rule does: nothing, or BEGIN; or it returns a token, after BEGIN if there is
    one; or it returns the character. *)
Inductive lact := A_skip (next : option lstate) | A_emit (mk : cstr -> token) (next : option lstate) | A_char.
(** lexer.l:50-295, one rule. *)
Record lrule := mkLR { lr_state : option lstate; lr_re : re; lr_act : lact }.
(** lexer.l:50, a rule without a start condition. *)
Definition any_state (r : re) (a : lact) : lrule := mkLR None r a.
(** lexer.l:63, a rule inside of <STATE>{}. *)
Definition only_in (st : lstate) (r : re) (a : lact) : lrule := mkLR (Some st) r a.
(** lexer.l:53-59. *)
Definition keyword (s : string) (t : token) : lrule := any_state (text s) (A_emit (fun _ => t) None).
(** lexer.l:126. *)
Definition matcher_type (r : re) (st : lstate) : lrule := any_state r (A_emit T_MATCHER_TYPE (Some st)).
(** lexer.l:128. *)
Definition operators (st : lstate) (r : re) : lrule := only_in st r (A_emit T_MATCHER_OP None).
(** lexer.l:129-133. *)
Definition payload (st : lstate) (r : re) : lrule := only_in st r (A_emit T_PAYLOAD (Some L_INITIAL)).

(** lexer.l:50-295, in the order of the file. *)
Definition lrules : list lrule :=
  [ any_state (R_cls [(32, 32); (9, 9); (10, 10)]) (A_skip None);
    any_state (text "#" & R_star (R_cls [(0, 9); (11, 255)])) (A_skip None);
    (* 53-59 *)
    keyword "chain" T_CHAIN; keyword "rule" T_RULE; keyword "set" T_SET; keyword "not" T_NEGATE; keyword "counter" T_COUNTER;
    (* 62-70 *)
    any_state (text "BF_HOOK_" & plus (R_cls [upper; digit; (95, 95)])) (A_emit T_HOOK (Some L_HOOK_OPTS));
    only_in L_HOOK_OPTS (R_cls [(123, 123); (44, 44)]) (A_skip None);
    only_in L_HOOK_OPTS (text "}") (A_skip (Some L_INITIAL));
    only_in L_HOOK_OPTS (name_re & text "=" & plus (R_cls [lower; upper; digit; (95, 95); (45, 45); (46, 46); (47, 47)])) (A_emit T_HOOKOPT None);
    (* 72-87 *)
    any_state (text "ACCEPT" <|> text "DROP" <|> text "CONTINUE" <|> text "NEXT") (A_emit T_VERDICT None);
    any_state (text "REDIRECT") (A_emit (fun _ => T_REDIRECT) (Some L_REDIRECT_IFACE));
    only_in L_REDIRECT_IFACE (int_re <|> plus (R_cls [digit; lower; upper; (95, 95); (45, 45)])) (A_emit T_IFACE (Some L_REDIRECT_DIR));
    only_in L_REDIRECT_DIR (text "in" <|> text "out") (A_emit T_DIR (Some L_INITIAL));
    (* 90-108 *)
    any_state (text "mark") (A_emit (fun _ => T_MARK) (Some L_MARK_OPTS));
    only_in L_MARK_OPTS int_re (A_emit T_STRING (Some L_INITIAL));
    keyword "log" T_LOG;
    any_state (text "every") (A_emit (fun _ => T_EVERY) (Some L_LOG_EVERY));
    only_in L_LOG_EVERY (float_re & plus (R_cls [lower])) (A_emit T_STRING (Some L_INITIAL));
    (* 111-123 *)
    any_state (text "(" & blanks_re & (name_re & dot & name_re) & R_star (blanks_re & text "," & blanks_re & (name_re & dot & name_re)) & blanks_re & text ")")
      (A_emit T_SET_TYPE (Some L_MATCHER_SET));
    operators L_MATCHER_SET (text "in");
    only_in L_MATCHER_SET (text "{" & R_star (R_cls [(0, 124); (126, 255)]) & text "}") (A_emit T_SET_PAYLOAD (Some L_INITIAL));
    (* 126-155 *)
    matcher_type (text "meta.iface") L_META_IFACE; operators L_META_IFACE (text "eq"); payload L_META_IFACE value_re;
    matcher_type (text "meta.l3_proto") L_META_L3_PROTO; operators L_META_L3_PROTO (text "eq"); payload L_META_L3_PROTO value_re;
    matcher_type (text "meta.l4_proto") L_L4_PROTO; matcher_type (text "ip4.proto") L_L4_PROTO; matcher_type (text "ip6.nexthdr") L_L4_PROTO;
    operators L_L4_PROTO (text "eq"); payload L_L4_PROTO value_re;
    (* 157-187 *)
    matcher_type (text "meta.probability") L_META_PROBA; matcher_type (text "meta.flow_probability") L_META_PROBA;
    operators L_META_PROBA (text "eq"); payload L_META_PROBA (float_re & text "%");
    matcher_type (text "meta.mark") L_META_MARK; operators L_META_MARK (text "eq"); payload L_META_MARK int_re;
    matcher_type (text "meta.flow_hash") L_META_FLOW_HASH; operators L_META_FLOW_HASH (text "eq" <|> text "range");
    payload L_META_FLOW_HASH (int_re & maybe (text "-" & int_re));
    (* 189-219 *)
    matcher_type (text "ip4.saddr") L_IPV4_ADDR; matcher_type (text "ip4.daddr") L_IPV4_ADDR; operators L_IPV4_ADDR (text "eq");
    payload L_IPV4_ADDR (int_re & dot & int_re & dot & int_re & dot & int_re);
    matcher_type (text "ip4.snet") L_IP4_NET; matcher_type (text "ip4.dnet") L_IP4_NET; operators L_IP4_NET (text "eq");
    payload L_IP4_NET (int_re & dot & int_re & dot & int_re & dot & int_re & text "/" & int_re);
    matcher_type (text "ip4.dscp") L_IP4_DSCP; operators L_IP4_DSCP (text "eq"); payload L_IP4_DSCP value_re;
    (* 221-249 *)
    matcher_type (text "ip6." & (text "s" <|> text "d") & text "addr") L_IP6_ADDR; operators L_IP6_ADDR (text "eq");
    payload L_IP6_ADDR (plus (R_cls [lower; upper; digit; (58, 58)]));
    matcher_type (text "ip6." & (text "s" <|> text "d") & text "net") L_IP6_NET; operators L_IP6_NET (text "eq");
    payload L_IP6_NET (plus (R_cls [lower; upper; digit; (58, 58); (47, 47)]));
    matcher_type (text "ip6.dscp") L_IP6_DSCP; operators L_IP6_DSCP (text "eq"); payload L_IP6_DSCP value_re;
    (* 251-261 *)
    matcher_type (text "meta." & (text "s" <|> text "d") & text "port") L_PORT; matcher_type (text "tcp." & (text "s" <|> text "d") & text "port") L_PORT;
    matcher_type (text "udp." & (text "s" <|> text "d") & text "port") L_PORT; operators L_PORT (text "eq" <|> text "range");
    payload L_PORT (int_re & maybe (text "-" & int_re));
    (* 263-291 *)
    matcher_type (text "icmp" & maybe (text "v6") & text ".type") L_ICMP_TYPE; operators L_ICMP_TYPE (text "eq"); payload L_ICMP_TYPE value_re;
    matcher_type (text "icmp" & maybe (text "v6") & text ".code") L_ICMP_CODE; operators L_ICMP_CODE (text "eq"); payload L_ICMP_CODE int_re;
    matcher_type (text "tcp.flags") L_TCP_FLAGS; operators L_TCP_FLAGS (text "eq" <|> text "any" <|> text "all");
    payload L_TCP_FLAGS (plus (plus (R_cls [lower; upper]) & maybe (text ",")));
    (* 293-295 *)
    any_state name_re (A_emit T_STRING None);
    any_state (R_cls [(0, 9); (11, 255)]) A_char ].

(** lexer.l:22-43, %s: the rules without a condition are active in every state. *)
Definition active (st : lstate) (r : lrule) : bool := match lr_state r with None => true | Some s => lstate_beq s st end.
(** yylex on lexer.l:50-295: the longest match, and the first rule that has it. *)
Fixpoint best (st : lstate) (l : list lrule) (s : cstr) : option (nat * lact) :=
  match l with
  | [] => None
  | r :: l' =>
      match (if active st r then longest (lr_re r) s else None), best st l' s with
      | Some k, Some (k', a) => if (k' <=? k)%nat then Some (k, lr_act r) else Some (k', a)
      | Some k, None => Some (k, lr_act r)
      | None, b => b
      end
  end.

(** yylex on lexer.l:50-295, called until it returns 0 or less: bison takes that for the end of the input.  The
    last rule returns a char, which is negative from 128 on. *)
Fixpoint lex_from (fuel : nat) (st : lstate) (s : cstr) : list token :=
  match fuel with
  | O => []
  | S f =>
      match s with
      | [] => []
      | c :: _ =>
          match best st lrules s with
          | Some (k, A_skip n) => lex_from f (match n with Some st' => st' | None => st end) (skipn k s)
          | Some (k, A_emit mk n) => mk (firstn k s) :: lex_from f (match n with Some st' => st' | None => st end) (skipn k s)
          | Some (k, A_char) =>
              if (c =? 0) || (128 <=? c) then []
              else (if c =? 44 then T_COMMA else T_OTHER c) :: lex_from f st (skipn k s)
          | None => []
          end
      end
  end.
(** lexer.l:50-295 from the start of a text. *)
Definition lex (s : cstr) : list token := lex_from (length s) L_INITIAL s.

(** helper.c:38-90 bfc_parse_file, bfc_parse_str: the text is read to its end (a NUL
    ends a string, not a file). *)
Definition parse_text (ce : cli_env) (s : cstr) : Bytes.res (list (PackModel.nchain * option HookModel.hookopts)) := parse_ruleset ce (lex s).
