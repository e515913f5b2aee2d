(** How rulesets are spelled, independently of the scanner: which words a pattern
    matches, what flex does with a list of patterns, and the texts of a sentence. *)
From Coq Require Import String NArith List Bool Arith.
From Verif Require Import Bytes Types GenModel StrModel EnumModel RulesTextModel RulesTextSpec LexModel.
Import ListNotations.
Local Open Scope string_scope.
Local Open Scope list_scope.
Local Open Scope N_scope.

(** ** Patterns *)
Inductive matches : re -> cstr -> Prop :=
| Mt_empty : matches R_empty []
| Mt_cls c x : (exists r, In r c /\ fst r <= x <= snd r) -> matches (R_cls c) [x]
| Mt_cat a b s t : matches a s -> matches b t -> matches (R_cat a b) (s ++ t)
| Mt_left a b s : matches a s -> matches (R_alt a b) s
| Mt_right a b s : matches b s -> matches (R_alt a b) s
| Mt_done a : matches (R_star a) []
| Mt_more a s t : matches a s -> matches (R_star a) t -> matches (R_star a) (s ++ t).

(** ** flex *)
(** Rule number [i] can be used in state [st] on the first [k] characters of [s]. *)
Definition usable (st : lstate) (s : cstr) (i k : nat) (a : lact) : Prop :=
  exists r, nth_error lrules i = Some r /\ (lr_state r = None \/ lr_state r = Some st) /\ lr_act r = a /\
    (k <= length s)%nat /\ matches (lr_re r) (firstn k s).
(** The longest match; the first rule in the file among those of that length. *)
Definition chosen (st : lstate) (s : cstr) (k : nat) (a : lact) : Prop :=
  exists i, usable st s i k a /\ forall i' k' a', usable st s i' k' a' -> (k' < k)%nat \/ (k' = k /\ (i <= i')%nat).

Definition next_state (n : option lstate) (st : lstate) : lstate := match n with Some st' => st' | None => st end.
(** The tokens of a text: up to its end, or to a character that the parser takes for it. *)
Inductive scans : lstate -> cstr -> list token -> Prop :=
| Sc_end st : scans st [] []
| Sc_skip st s k n l : s <> [] -> chosen st s k (A_skip n) -> scans (next_state n st) (skipn k s) l -> scans st s l
| Sc_emit st s k mk n l : s <> [] -> chosen st s k (A_emit mk n) -> scans (next_state n st) (skipn k s) l ->
    scans st s (mk (firstn k s) :: l)
| Sc_comma st s k l : chosen st (44 :: s) k A_char -> scans st (skipn k (44 :: s)) l -> scans st (44 :: s) (T_COMMA :: l)
| Sc_char st c s k l : chosen st (c :: s) k A_char -> c <> 44 -> 1 <= c <= 127 -> scans st (skipn k (c :: s)) l ->
    scans st (c :: s) (T_OTHER c :: l)
| Sc_stop st c s k : chosen st (c :: s) k A_char -> c = 0 \/ 128 <= c -> scans st (c :: s) [].

(** ** Words *)
Definition letter (c : N) : Prop := 65 <= c <= 90 \/ 97 <= c <= 122.
Definition figure (c : N) : Prop := 48 <= c <= 57.
Definition word_of (p : N -> Prop) (s : cstr) : Prop := s <> [] /\ Forall p s.
Definition alnum_char (c : N) : Prop := letter c \/ figure c.
Definition name_char (c : N) : Prop := letter c \/ figure c \/ c = 95.

(** Words that mean something wherever they are. *)
Definition reserved : list cstr :=
  map lit ["chain"; "rule"; "set"; "not"; "counter"; "ACCEPT"; "DROP"; "CONTINUE"; "NEXT"; "REDIRECT"; "mark"; "log"; "every"].
Definition hook_like (s : cstr) : Prop := exists t, s = lit "BF_HOOK_" ++ t.

(** Names of chains and sets, and of the headers to log. *)
Definition name_spelled (s : cstr) : Prop := word_of name_char s /\ ~ In s reserved /\ s <> lit "in" /\ ~ hook_like s.
(** Interfaces: letters, digits, - (and _ after REDIRECT). *)
Definition value_spelled (s : cstr) : Prop := word_of (fun c => alnum_char c \/ c = 45) s /\ ~ In s reserved /\ s <> lit "eq".
Definition iface_spelled (s : cstr) : Prop := word_of (fun c => name_char c \/ c = 45) s /\ ~ In s reserved /\ ~ hook_like s.
(** Integers, in any base. *)
Definition integer (s : cstr) : Prop := exists d, word_of alnum_char d /\ (s = d \/ s = 45 :: d).
Definition integer_spelled (s : cstr) : Prop := integer s /\ ~ In s reserved /\ s <> lit "eq" /\ s <> lit "range".
Definition range_spelled (s : cstr) : Prop := integer_spelled s \/ exists a b, s = a ++ 45 :: b /\ integer a /\ integer b.
Definition ip4_spelled (s : cstr) : Prop :=
  exists a b c d, s = a ++ 46 :: b ++ 46 :: c ++ 46 :: d /\ integer a /\ integer b /\ integer c /\ integer d.
Definition ip4_net_spelled (s : cstr) : Prop := exists a n, s = a ++ 47 :: n /\ ip4_spelled a /\ integer n.
(** Numbers, with a fraction or not. *)
Definition decimal_spelled (s : cstr) : Prop :=
  exists d, word_of figure d /\ (s = d \/ exists f, s = d ++ 46 :: f /\ word_of figure f).
Definition percent_spelled (s : cstr) : Prop := exists d, s = d ++ [37] /\ decimal_spelled d.
Definition rate_spelled (s : cstr) : Prop := exists d u, s = d ++ u /\ decimal_spelled d /\ word_of (fun c => 97 <= c <= 122) u.
Definition ip6_spelled (s : cstr) : Prop := word_of (fun c => alnum_char c \/ c = 58) s /\ ~ In s reserved /\ s <> lit "eq".
Definition ip6_net_spelled (s : cstr) : Prop := word_of (fun c => alnum_char c \/ c = 58 \/ c = 47) s /\ ~ In s reserved /\ s <> lit "eq".
(** Flags: words, with commas between them and maybe one at the end. *)
Inductive flag_words : cstr -> Prop :=
| Fw_one w : word_of letter w -> flag_words w
| Fw_comma w : word_of letter w -> flag_words (w ++ [44])
| Fw_more w s : word_of letter w -> flag_words s -> flag_words (w ++ 44 :: s).
Definition flags_spelled (s : cstr) : Prop := flag_words s /\ ~ In s reserved /\ s <> lit "eq" /\ s <> lit "any" /\ s <> lit "all".

(** The payloads of each type of matcher. *)
Definition payload_spelled (t : mtype) : cstr -> Prop :=
  match t with
  | M_IFACE | M_L3_PROTO | M_L4_PROTO | M_IP4_PROTO | M_IP6_NEXTHDR | M_IP4_DSCP | M_IP6_DSCP | M_ICMP_TYPE | M_ICMPV6_TYPE => value_spelled
  | M_MARK | M_ICMP_CODE | M_ICMPV6_CODE => integer_spelled
  | M_FLOW_HASH | M_SPORT | M_DPORT | M_TCP_SPORT | M_TCP_DPORT | M_UDP_SPORT | M_UDP_DPORT => range_spelled
  | M_PROBABILITY | M_FLOW_PROBABILITY => percent_spelled
  | M_IP4_SADDR | M_IP4_DADDR => ip4_spelled
  | M_IP4_SNET | M_IP4_DNET => ip4_net_spelled
  | M_IP6_SADDR | M_IP6_DADDR => ip6_spelled
  | M_IP6_SNET | M_IP6_DNET => ip6_net_spelled
  | M_TCP_FLAGS => flags_spelled
  | M_SET => fun _ => False
  end.
Definition op_spelled (t : mtype) (o : option cstr) : Prop :=
  match o with
  | None => True
  | Some s =>
      s = lit "eq" \/ (s = lit "range" /\ In t [M_FLOW_HASH; M_SPORT; M_DPORT; M_TCP_SPORT; M_TCP_DPORT; M_UDP_SPORT; M_UDP_DPORT]) \/
      (In s [lit "any"; lit "all"] /\ t = M_TCP_FLAGS)
  end.

(** Keys "(a.b, c.d)" and elements "{...}"; blanks are part of them. *)
Definition blanks (s : cstr) : Prop := Forall (fun c => In c [32; 9; 10; 13; 12; 11]) s.
Definition component (s : cstr) : Prop := exists a b, s = a ++ 46 :: b /\ word_of name_char a /\ word_of name_char b.
Inductive components : cstr -> Prop :=
| Cm_last b s b' : blanks b -> component s -> blanks b' -> components (b ++ s ++ b')
| Cm_more b s b' r : blanks b -> component s -> blanks b' -> components r -> components (b ++ s ++ b' ++ 44 :: r).
Definition key_spelled (s : cstr) : Prop := exists l, s = 40 :: l ++ [41] /\ components l.
Definition elements_spelled (s : cstr) : Prop := exists l, s = 123 :: l ++ [125] /\ bytes l /\ ~ In 125 l.

Definition hookopt_spelled (s : cstr) : Prop :=
  exists n v, s = n ++ 61 :: v /\ word_of name_char n /\ word_of (fun c => name_char c \/ In c [45; 46; 47]) v.

(** ** Sentences *)
Definition matcher_spelled (a : a_matcher) : Prop :=
  match a with
  | A_field t _ op p => exists ty, mtype_to_str ty = Some t /\ op_spelled ty op /\ payload_spelled ty p
  | A_literal k _ p => key_spelled k /\ elements_spelled p
  | A_named k _ n => key_spelled k /\ name_spelled n
  end.
Definition option_spelled (a : a_option) : Prop :=
  match a with
  | A_log hs every => Forall name_spelled hs /\ match every with Some s => rate_spelled s | None => True end
  | A_counter => True
  | A_mark s => integer_spelled s
  end.
Definition rule_verdict_spelled (a : a_verdict) : Prop :=
  match a with
  | A_verdict s => In s (map lit ["ACCEPT"; "DROP"; "CONTINUE"; "NEXT"])
  | A_redirect i d => iface_spelled i /\ In d [lit "in"; lit "out"]
  end.
Definition rule_spelled (a : a_rule) : Prop :=
  Forall matcher_spelled (ar_matchers a) /\ Forall option_spelled (ar_options a) /\ rule_verdict_spelled (ar_verdict a).
Definition chain_spelled (a : a_chain) : Prop :=
  name_spelled (ac_name a) /\ (exists h, hook_to_str h = Some (ac_hook a)) /\ Forall hookopt_spelled (ac_opts a) /\
  In (ac_policy a) (map lit ["ACCEPT"; "DROP"; "CONTINUE"; "NEXT"]) /\
  Forall (fun s => name_spelled (as_name s) /\ key_spelled (as_key s) /\ elements_spelled (as_payload s)) (ac_sets a) /\
  Forall rule_spelled (ac_rules a).

(** The words of a sentence, and its punctuation: commas between the headers to log and
    between the options of the hook, and braces around these. *)
Inductive lexeme := Wd (w : cstr) | Pn (c : N).
Definition kw (s : string) : lexeme := Wd (lit s).
Fixpoint with_commas (l : list cstr) : list lexeme :=
  match l with [] => [] | [x] => [Wd x] | x :: r => Wd x :: Pn 44 :: with_commas r end.
Definition s_negate (b : bool) : list lexeme := if b then [kw "not"] else [].
Definition s_matcher (a : a_matcher) : list lexeme :=
  match a with
  | A_field t neg op p => Wd t :: s_negate neg ++ match op with Some o => [Wd o] | None => [] end ++ [Wd p]
  | A_literal k neg p => Wd k :: s_negate neg ++ [kw "in"; Wd p]
  | A_named k neg n => Wd k :: s_negate neg ++ [kw "in"; Wd n]
  end.
Definition s_option (a : a_option) : list lexeme :=
  match a with
  | A_log hs every => kw "log" :: with_commas hs ++ match every with Some s => [kw "every"; Wd s] | None => [] end
  | A_counter => [kw "counter"]
  | A_mark s => [kw "mark"; Wd s]
  end.
Definition s_verdict (a : a_verdict) : list lexeme :=
  match a with A_verdict s => [Wd s] | A_redirect i d => [kw "REDIRECT"; Wd i; Wd d] end.
Definition s_rule (a : a_rule) : list lexeme :=
  kw "rule" :: concat (map s_matcher (ar_matchers a)) ++ concat (map s_option (ar_options a)) ++ s_verdict (ar_verdict a).
Definition s_set (a : a_set) : list lexeme := [kw "set"; Wd (as_name a); Wd (as_key a); kw "in"; Wd (as_payload a)].
Definition s_opts (l : list cstr) : list lexeme := match l with [] => [] | _ => Pn 123 :: with_commas l ++ [Pn 125] end.
Definition s_chain (a : a_chain) : list lexeme :=
  kw "chain" :: Wd (ac_name a) :: Wd (ac_hook a) :: s_opts (ac_opts a) ++ Wd (ac_policy a) ::
  concat (map s_set (ac_sets a)) ++ concat (map s_rule (ac_rules a)).

(** Blanks, ends of lines and comments separate words; next to punctuation they can be
    left out. *)
Inductive gap : cstr -> Prop :=
| Gap_none : gap []
| Gap_blank c s : In c [32; 9; 10] -> gap s -> gap (c :: s)
| Gap_comment t s : bytes t -> ~ In 10 t -> gap s -> gap (35 :: t ++ 10 :: s).
Inductive laid_out : list lexeme -> cstr -> Prop :=
| Lo_end g : gap g -> laid_out [] g
| Lo_punct c l g t : gap g -> laid_out l t -> laid_out (Pn c :: l) (g ++ c :: t)
| Lo_word w l g t : gap g -> laid_out l t ->
    match l with Wd _ :: _ => exists c t', t = c :: t' /\ In c [32; 9; 10; 35] | _ => True end ->
    laid_out (Wd w :: l) (g ++ w ++ t).
