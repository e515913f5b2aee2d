(** bfcli: parser.y, from the tokens of a ruleset to chains and hook options.

    Bison's LALR(1) automaton is replaced with a recursive descent over the same
    grammar, which has no conflict: the semantic actions run on the same values, in the
    same order (from left to right, when a right-hand side is complete).  strdup,
    calloc and the list nodes succeed; the other allocations answer as [cli_env] says. *)
From Coq Require Import String NArith List Bool Arith.
From Verif Require Import Bytes Types GenModel ChainModel StrModel EnumModel ParseModel HashModel SetModel PackModel HookModel SetTextModel RateModel.
Import ListNotations.
Local Open Scope string_scope.
Local Open Scope list_scope.
Local Open Scope N_scope.
Local Open Scope res_scope.

(** parser.y:136-148: the tokens, with their text. *)
Inductive token :=
| T_CHAIN | T_RULE | T_SET | T_NEGATE | T_LOG | T_COUNTER | T_MARK | T_EVERY | T_REDIRECT
| T_SET_TYPE (s : cstr) | T_SET_PAYLOAD (s : cstr) | T_STRING (s : cstr) | T_HOOK (s : cstr) | T_VERDICT (s : cstr)
| T_MATCHER_TYPE (s : cstr) | T_MATCHER_OP (s : cstr) | T_HOOKOPT (s : cstr) | T_PAYLOAD (s : cstr)
| T_IFACE (s : cstr) | T_DIR (s : cstr) | T_COMMA | T_OTHER (c : N).

(** What the parsers ask from the machine: the names of the interfaces and the like,
    and the answers of the allocator to the [n]th constructor called. *)
Record cli_env := mkCE {
  ce_pe : penv;
  ce_heap : nat -> nat -> option (list N);
  ce_node : nat -> nat -> option nat;
  ce_table : N -> bool;
  ce_opt : nat -> bool
}.

(** ruleset->sets, and the number of constructors called so far. *)
Record pst := mkP { p_sets : list uset; p_calls : nat }.

(** bf_parse_err: YYABORT, which bfc_parse_file and bfc_parse_str turn into -EINVAL
    (helper.c:56-60, 79-83).  A loop without end and undefined behaviour stay what
    they are. *)
Definition abort {A} (r : res A) : res A :=
  match r with
  | Ok a => Ok a
  | Er e => if 1000 <=? e then Er e else Er EINVAL
  end.

(** parser.y:589-591. *)
Definition p_negate (l : list token) : bool * list token :=
  match l with
  | T_NEGATE :: r => (true, r)
  | _ => (false, l)
  end.

(** parser.y:598-605. *)
Definition p_op (l : list token) : res (mop * list token) :=
  match l with
  | T_MATCHER_OP s :: r => o <- abort (mop_from_str s) ; Ok (o, r)
  | _ => Ok (OP_EQ, l)
  end.

Definition is_in (o : mop) : bool := match o with OP_IN => true | _ => false end.
Definition set_from (ce : cli_env) (st : pst) (name : option cstr) (key payload : cstr) : res uset :=
  abort (set_new_from_raw (S (length payload)) (ce_pe ce) (ce_heap ce (p_calls st)) (ce_node ce (p_calls st)) (ce_table ce)
           name key payload).

(** parser.y:565-574: the first set of that name, and its index. *)
Fixpoint find_set (name : cstr) (i : N) (l : list uset) : option (N * uset) :=
  match l with
  | [] => None
  | u :: r =>
      match u_name u with
      | Some n => if streq n name then Some (i, u) else find_set name (i + 1) r
      | None => find_set name (i + 1) r
      end
  end.

Definition keys_eqb (a b : list mtype) : bool := if list_eq_dec mtype_eq_dec a b then true else false.

(** parser.y:507-588, 592-597. *)
Definition p_matcher (ce : cli_env) (st : pst) (l : list token) : res (matcher * pst * list token) :=
  match l with
  | T_MATCHER_TYPE s :: r =>
      t <- abort (mtype_from_str s) ;
      let (neg, r1) := p_negate r in
      a <- p_op r1 ;
      match snd a with
      | T_PAYLOAD p :: r3 =>
          m <- abort (matcher_new_from_raw (ce_pe ce) (ce_heap ce (p_calls st) 0) t (fst a) p neg) ;
          Ok (m, mkP (p_sets st) (S (p_calls st)), r3)
      | _ => Er EINVAL
      end
  | T_SET_TYPE k :: r =>
      let (neg, r1) := p_negate r in
      a <- p_op r1 ;
      match snd a with
      | T_SET_PAYLOAD p :: r3 =>
          if is_in (fst a) then
            u <- set_from ce st None k p ;
            Ok (mkM M_SET OP_IN neg (le_enc 4 (N.of_nat (length (p_sets st)) mod two32)), mkP (p_sets st ++ [u]) (S (p_calls st)), r3)
          else Er EINVAL
      | T_STRING name :: r3 =>
          if is_in (fst a) then
            test <- set_from ce st None k (lit "{}") ;
            match find_set name 0 (p_sets st) with
            | None => Er EINVAL
            | Some (i, u) =>
                if keys_eqb (u_key u) (u_key test)
                then Ok (mkM M_SET OP_IN neg (le_enc 4 (i mod two32)), mkP (p_sets st) (S (p_calls st)), r3)
                else Er EINVAL
            end
          else Er EINVAL
      | _ => Er EINVAL
      end
  | _ => Er EINVAL
  end.

(** Can the next token start a matcher? *)
Definition starts_matcher (l : list token) : bool :=
  match l with
  | (T_MATCHER_TYPE _ | T_SET_TYPE _) :: _ => true
  | _ => false
  end.

(** parser.y:485-506. *)
Fixpoint p_matchers (fuel : nat) (ce : cli_env) (st : pst) (l : list token) : res (list matcher * pst * list token) :=
  match fuel with
  | O => Er EINVAL
  | S f =>
      a <- p_matcher ce st l ;
      let '(m, st1, l1) := a in
      if starts_matcher l1 then
        b <- p_matchers f ce st1 l1 ;
        let '(ms, st2, l2) := b in Ok (m :: ms, st2, l2)
      else Ok ([m], st1, l1)
  end.

(** parser.y:59-73 struct bf_rule_options: a flag says whether a member is set. *)
Record ropts := mkO { o_log : option N; o_rate : option N; o_counter : bool; o_mark : option N }.

(** rule.c:37-49 bf_log_opt_from_str. *)
Definition log_opt_from_str (s : cstr) : res N := from_str streq_i log_opt_strs s.

(** parser.y:463-484. *)
Fixpoint p_headers (fuel : nat) (l : list token) : res (N * list token) :=
  match fuel with
  | O => Er EINVAL
  | S f =>
      match l with
      | T_STRING s :: r =>
          h <- abort (log_opt_from_str s) ;
          match r with
          | T_COMMA :: r1 => b <- p_headers f r1 ; Ok (N.lor (2 ^ h) (fst b), snd b)
          | _ => Ok (2 ^ h, r)
          end
      | _ => Er EINVAL
      end
  end.

(** parser.y:362-391 LOG, 419-430 log_rate. *)
Definition p_rate (l : list token) : res (option N * list token) :=
  match l with
  | T_EVERY :: T_STRING s :: r => ns <- abort (parse_log_rate s) ; Ok (Some ns, r)
  | T_EVERY :: _ => Er EINVAL
  | _ => Ok (None, l)
  end.

(** parser.y:399-417 MARK: what strtoll reads, in any base. *)
Definition mark_of (s : cstr) : res N :=
  match strtoll 0 s with
  | (neg, v, []) =>
      if neg && (0 <? v) then Er EINVAL
      else if two32 - 1 <? v then Er EINVAL
      else Ok v
  | _ => Er EINVAL
  end.

(** parser.y:362-461 rule_option and rule_options. *)
Fixpoint p_options (fuel : nat) (o : ropts) (l : list token) : res (ropts * list token) :=
  match fuel with
  | O => Er EINVAL
  | S f =>
      match l with
      | T_LOG :: r =>
          a <- match r with
               | T_STRING _ :: _ => p_headers (length r) r
               | _ => Ok (255, r)
               end ;
          b <- p_rate (snd a) ;
          match o_log o with
          | Some _ => Er EINVAL
          | None => p_options f (mkO (Some (fst a)) (fst b) (o_counter o) (o_mark o)) (snd b)
          end
      | T_COUNTER :: r => if o_counter o then Er EINVAL else p_options f (mkO (o_log o) (o_rate o) true (o_mark o)) r
      | T_MARK :: T_STRING s :: r =>
          m <- mark_of s ;
          match o_mark o with
          | Some _ => Er EINVAL
          | None => p_options f (mkO (o_log o) (o_rate o) (o_counter o) (Some m)) r
          end
      | T_MARK :: _ => Er EINVAL
      | _ => Ok (o, l)
      end
  end.

(** if.c:46-68 bf_if_index_from_str. *)
Definition if_index (pe : penv) (s : cstr) : res N :=
  let idx := pe_ifindex pe s in
  if (0 <? idx) && (idx <? two31) then Ok idx else
  match strtoul 10 s with
  | (v, [], false) => if (0 <? v) && (v <? two32) then Ok v else Er EINVAL
  | _ => Er EINVAL
  end.

(** parser.y:222-258. *)
Definition p_verdict (ce : cli_env) (l : list token) : res (verdict * option (N * rdir) * list token) :=
  match l with
  | T_VERDICT s :: r => v <- abort (verdict_from_str s) ; Ok (v, None, r)
  | T_REDIRECT :: T_IFACE i :: T_DIR d :: r =>
      x <- if_index (ce_pe ce) i ;
      y <- abort (rdir_from_str d) ;
      Ok (V_REDIRECT, Some (x, y), r)
  | _ => Er EINVAL
  end.

(** parser.y:330-360, rule.h:162-190; the members that bf_rule_new leaves are 0. *)
Definition MARK_SET : N := 0xFFFFFFFF00000000.
Definition make_rule (ms : list matcher) (o : ropts) (v : verdict) (rd : option (N * rdir)) : rule :=
  let '(i, d) := match v, rd with
                 | V_REDIRECT, Some (i, d) => (i, d)
                 | V_REDIRECT, None => (0, D_EGRESS)
                 | _, _ => (0, D_INGRESS)
                 end in
  mkR 0 ms
    (match o_log o with Some n => n | None => 0 end)
    (match o_rate o with Some n => n | None => 0 end)
    (match o_mark o with Some n => N.lor MARK_SET n | None => 0 end)
    (o_counter o) false v i d.

Definition p_rule (ce : cli_env) (st : pst) (l : list token) : res (rule * pst * list token) :=
  match l with
  | T_RULE :: r =>
      a <- p_matchers (length r) ce st r ;
      let '(ms, st1, r1) := a in
      b <- p_options (S (length r1)) (mkO None None false None) r1 ;
      c <- p_verdict ce (snd b) ;
      let '(v, rd, r3) := c in
      Ok (make_rule ms (fst b) v rd, st1, r3)
  | _ => Er EINVAL
  end.

(** parser.y:315-329. *)
Fixpoint p_rules (fuel : nat) (ce : cli_env) (st : pst) (l : list token) : res (list rule * pst * list token) :=
  match fuel with
  | O => Er EINVAL
  | S f =>
      match l with
      | T_RULE :: _ =>
          a <- p_rule ce st l ;
          let '(x, st1, l1) := a in
          b <- p_rules f ce st1 l1 ;
          let '(xs, st2, l2) := b in Ok (x :: xs, st2, l2)
      | _ => Ok ([], st, l)
      end
  end.

(** parser.y:289-314: all the sets that start the chain. *)
Fixpoint p_setlist (fuel : nat) (ce : cli_env) (st : pst) (l : list token) : res (pst * list token) :=
  match fuel with
  | O => Er EINVAL
  | S f =>
      match l with
      | T_SET :: T_STRING name :: T_SET_TYPE k :: r =>
          a <- p_op r ;
          match snd a with
          | T_SET_PAYLOAD p :: r1 =>
              if is_in (fst a) then
                u <- set_from ce st (Some name) k p ;
                p_setlist f ce (mkP (p_sets st ++ [u]) (S (p_calls st))) r1
              else Er EINVAL
          | _ => Er EINVAL
          end
      | T_SET :: _ => Er EINVAL
      | _ => Ok (st, l)
      end
  end.

(** parser.y:268-288 hookopts. *)
Fixpoint p_hookopts (fuel : nat) (ce : cli_env) (n : nat) (o : option hookopts) (l : list token)
  : res (option hookopts * nat * list token) :=
  match fuel with
  | O => Er EINVAL
  | S f =>
      match l with
      | T_HOOKOPT s :: r =>
          o' <- abort (parse_opt (ce_opt ce n) (match o with Some x => x | None => hookopts_new end) s) ;
          p_hookopts f ce (S n) (Some o') r
      | _ => Ok (o, n, l)
      end
  end.

(** parser.y:193-220, 260-266. *)
Definition p_chain (ce : cli_env) (st : pst) (l : list token) : res (nchain * option hookopts * pst * list token) :=
  match l with
  | T_CHAIN :: T_STRING name :: T_HOOK h :: r =>
      hk <- abort (hook_from_str h) ;
      a <- p_hookopts (S (length r)) ce (p_calls st) None r ;
      let '(ho, n, r1) := a in
      match r1 with
      | T_VERDICT s :: r2 =>
          v <- abort (verdict_from_str s) ;
          b <- p_setlist (S (length r2)) ce (mkP (p_sets st) n) r2 ;
          c <- p_rules (S (length (snd b))) ce (fst b) (snd b) ;
          let '(rs, st2, r4) := c in
          if valid_policy v then
            ch <- abort (nchain_new name (hook_id hk) (verdict_id v) (p_sets st2) rs) ;
            _ <- match ho with Some o => abort (validate o hk) | None => Ok tt end ;
            Ok (ch, ho, mkP [] (p_calls st2), r4)
          else Er EINVAL
      | _ => Er EINVAL
      end
  | _ => Er EINVAL
  end.

(** parser.y:189-191, up to the end of the text. *)
Fixpoint p_chains (fuel : nat) (ce : cli_env) (st : pst) (l : list token) : res (list (nchain * option hookopts)) :=
  match fuel with
  | O => Er EINVAL
  | S f =>
      a <- p_chain ce st l ;
      let '(c, ho, st1, l1) := a in
      match l1 with
      | [] => Ok [(c, ho)]
      | _ => b <- p_chains f ce st1 l1 ; Ok ((c, ho) :: b)
      end
  end.

(** helper.c:38-90 bfc_parse_file, bfc_parse_str: the two lists of the ruleset,
    element by element. *)
Definition parse_ruleset (ce : cli_env) (l : list token) : res (list (nchain * option hookopts)) :=
  p_chains (length l) ce (mkP [] 0) l.
