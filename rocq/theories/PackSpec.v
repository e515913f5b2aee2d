(** Which object trees describe which objects, independently of the readers. *)
From Coq Require Import String NArith ZArith List Bool Arith.
From Verif Require Import Bytes Types GenModel ChainModel StrModel EnumModel SetModel SetSpec PackModel.
Import ListNotations.
Local Open Scope string_scope.
Local Open Scope list_scope.
Local Open Scope N_scope.

(** [n] is a map with exactly one entry under the string [k], whose value is [v]. *)
Definition entry (n : node) (k : string) (v : node) : Prop :=
  exists a b, n = NMap (a ++ (NStr (lit k), v) :: b) /\
    (forall x, ~ In (NStr (lit k), x) a) /\ (forall x, ~ In (NStr (lit k), x) b).
Definition no_entry (n : node) (k : string) : Prop :=
  exists l, n = NMap l /\ forall x, ~ In (NStr (lit k), x) l.

(** An unsigned number below [bound]; an enumerator: a number of either sign
    representation in [0, max). *)
Definition is_uint (bound : N) (n : node) (v : N) : Prop := n = NUint v /\ v < bound.
Definition is_enum (max : N) (n : node) (v : N) : Prop := (n = NUint v \/ n = NInt (Z.of_N v)) /\ v < max.
Definition is_text (n : node) (s : list N) : Prop := n = NStr s /\ ~ In 0 s.

(** An entry, or the default if there is none. *)
Definition optional {A} (is : node -> A -> Prop) (n : node) (k : string) (default v : A) : Prop :=
  (exists c, entry n k c /\ is c v) \/ (no_entry n k /\ v = default).

(** A rule option, a matcher. *)
Record matcher_tree (n : node) (m : matcher) : Prop := mkMT {
  mt_type : exists c, entry n "type" c /\ is_enum 31 c (mtype_id (m_type m));
  mt_op : exists c, entry n "op" c /\ is_enum 5 c (mop_id (m_op m));
  mt_neg : optional (fun c b => c = NBool b) n "negate" false (m_neg m);
  mt_pay : entry n "payload" (NBin (m_pay m));
  mt_nonempty : m_pay m <> []
}.

Record rule_tree (n : node) (r : rule) : Prop := mkRT {
  rt_index : exists c, entry n "index" c /\ is_uint two32 c (r_index r);
  rt_log : exists c, entry n "log" c /\ is_uint 256 c (r_log r);
  rt_rate : optional (is_uint two64) n "log_rate_ns" 0 (r_log_rate r);
  rt_counters : entry n "has_counters" (NBool (r_counters r)) \/
                (no_entry n "has_counters" /\ entry n "counters" (NBool (r_counters r)));
  rt_mark : exists c, entry n "mark" c /\ is_uint two64 c (r_mark r);
  rt_verdict : exists c, entry n "verdict" c /\ is_enum 5 c (verdict_id (r_verdict r));
  rt_ifx : optional (is_uint two32) n "redirect_ifindex" 0 (r_rd_ifindex r);
  rt_dir : optional (is_enum 2) n "redirect_dir" 0 (rdir_id (r_rd_dir r));
  rt_matchers : exists l, entry n "matchers" (NArr l) /\ Forall2 matcher_tree l (r_matchers r);
  rt_enabled : r_disabled r = false
}.

(** A set: its name, its key, its elements in order (possibly repeated), all of the
    size the key requires. *)
Record set_tree (n : node) (name : option (list N)) (ks : list mtype) (elems : list (list N)) : Prop := mkST {
  st_name : exists c, entry n "name" c /\
              match name with Some s => is_text c s | None => c = NNil end;
  st_key : exists l, entry n "key" (NArr l) /\ Forall2 (fun c t => is_enum 31 c (mtype_id t)) l ks;
  st_good : good_key ks;
  st_elems : entry n "elements" (NArr (map NBin elems));
  st_sizes : Forall (fun e => length e = list_sum (map comp_size ks)) elems
}.

(** Each element once, at its first position. *)
Definition firsts (elems : list (list N)) : list (list N) :=
  fold_left (fun l e => if In_bytes l e then l else l ++ [e]) elems [].

(** The object built for [set_tree n name ks elems]: each element once, at its
    first position. *)
Definition set_is (u : uset) (name : option (list N)) (ks : list mtype) (elems : list (list N)) : Prop :=
  u_name u = name /\ u_key u = ks /\ u_esize u = list_sum (map comp_size ks) /\
  (u_trie u = true <-> exists t, ks = [t] /\ network t) /\
  set_read u = Ok (firsts elems).

(** Same set contents, down to the order. *)
Definition same_set (a b : uset) : Prop :=
  u_name a = u_name b /\ u_key a = u_key b /\ u_esize a = u_esize b /\ u_trie a = u_trie b /\ set_read a = set_read b.

(** The values a C struct bf_rule can hold (rule.h:56-101). *)
Definition rule_in_range (r : rule) : Prop :=
  r_log r < 256 /\ r_log_rate r < two64 /\ r_mark r < two64 /\ r_rd_ifindex r < two32 /\
  Forall (fun m => m_pay m <> []) (r_matchers r).

(** An allocator that always answers, never with the same block twice. *)
Definition generous (nd : nat -> option nat) (tb : N -> bool) : Prop :=
  (forall i, exists a, nd i = Some a) /\ (forall i j, nd i = nd j -> i = j) /\ (forall n, tb n = true).

(** The chains the API builds: bf_chain_new, then any additions. *)
Inductive chain_built : nchain -> Prop :=
| CB_new name h p sets rules c : nchain_new name h p sets rules = Ok c -> chain_built c
| CB_rule c r c' : chain_built c -> chain_add_rule (nc_chain c) r = Ok c' ->
    chain_built (mkNC (nc_name c) (nc_sets c) c')
| CB_set c u b : chain_built c -> bset_of u = Ok b ->
    chain_built (mkNC (nc_name c) (nc_sets c ++ [u]) (chain_add_set (nc_chain c) b)).

(** What C can hold: a name without a NUL byte, sets made with the API, rules made
    of C integers and of matchers that have a payload. *)
Record storable (c : nchain) : Prop := mkStorable {
  so_name : ~ In 0 (nc_name c);
  so_sets : Forall (fun u => set_reachable u /\ match u_name u with Some s => ~ In 0 s | None => True end) (nc_sets c);
  so_rules : Forall rule_in_range (c_rules (nc_chain c));
  so_count : n_rules (nc_chain c) < two32
}.

(** A chain: name, hook, policy, sets and rules in order. *)
Record chain_tree (n : node) (name : list N) (h : hook) (p : verdict)
    (sets : list (option (list N) * list mtype * list (list N))) (rules : list rule) : Prop := mkCT {
  ct_name : exists c, entry n "name" c /\ is_text c name;
  ct_hook : exists c, entry n "hook" c /\ is_enum 14 c (hook_id h);
  ct_policy : exists c, entry n "policy" c /\ is_enum 5 c (verdict_id p);
  ct_sets : exists l, entry n "sets" (NArr l) /\ Forall2 (fun x s => set_tree x (fst (fst s)) (snd (fst s)) (snd s)) l sets;
  ct_rules : exists l, entry n "rules" (NArr l) /\ Forall2 rule_tree l rules
}.

Definition same_chain (a b : nchain) : Prop :=
  nc_name a = nc_name b /\ Forall2 same_set (nc_sets a) (nc_sets b) /\ nc_chain a = nc_chain b.
