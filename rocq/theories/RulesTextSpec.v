(** What the text of a ruleset means, independently of the parser: the sentences of the
    language (chains made of sets and rules, rules made of matchers, options and a
    verdict), how they are written as tokens, and which objects they describe. *)
From Coq Require Import String NArith List Bool Arith.
From Verif Require Import Bytes Types GenModel ChainModel StrModel EnumModel ParseModel HashModel SetModel SetSpec PackSpec PackModel HookModel SetTextSpec
  RateModel RulesTextModel.
Import ListNotations.
Local Open Scope string_scope.
Local Open Scope list_scope.
Local Open Scope N_scope.

(** ** Sentences *)
Inductive a_matcher :=
| A_field (type : cstr) (neg : bool) (op : option cstr) (payload : cstr)   (** tcp.dport not eq 80 *)
| A_literal (key : cstr) (neg : bool) (payload : cstr)                     (** (tcp.dport) in {80; 81} *)
| A_named (key : cstr) (neg : bool) (name : cstr).                         (** (tcp.dport) in myset *)
Inductive a_option :=
| A_log (headers : list cstr) (every : option cstr)
| A_counter
| A_mark (value : cstr).
Inductive a_verdict := A_verdict (s : cstr) | A_redirect (iface dir : cstr).
Record a_rule := mkAR { ar_first : a_matcher; ar_more : list a_matcher; ar_options : list a_option; ar_verdict : a_verdict }.
Record a_set := mkAS { as_name : cstr; as_key : cstr; as_payload : cstr }.
Record a_chain := mkAC {
  ac_name : cstr; ac_hook : cstr; ac_opts : list cstr; ac_policy : cstr; ac_sets : list a_set; ac_rules : list a_rule }.

(** ** Tokens *)
Definition w_negate (b : bool) : list token := if b then [T_NEGATE] else [].
Definition w_op (o : option cstr) : list token := match o with Some s => [T_MATCHER_OP s] | None => [] end.
Definition w_in : list token := [T_MATCHER_OP (lit "in")].
Definition w_matcher (a : a_matcher) : list token :=
  match a with
  | A_field t neg op p => T_MATCHER_TYPE t :: w_negate neg ++ w_op op ++ [T_PAYLOAD p]
  | A_literal k neg p => T_SET_TYPE k :: w_negate neg ++ w_in ++ [T_SET_PAYLOAD p]
  | A_named k neg n => T_SET_TYPE k :: w_negate neg ++ w_in ++ [T_STRING n]
  end.
Fixpoint w_headers (l : list cstr) : list token :=
  match l with
  | [] => []
  | [h] => [T_STRING h]
  | h :: r => T_STRING h :: T_COMMA :: w_headers r
  end.
Definition w_option (a : a_option) : list token :=
  match a with
  | A_log hs every => T_LOG :: w_headers hs ++ match every with Some s => [T_EVERY; T_STRING s] | None => [] end
  | A_counter => [T_COUNTER]
  | A_mark s => [T_MARK; T_STRING s]
  end.
Definition w_verdict (a : a_verdict) : list token :=
  match a with A_verdict s => [T_VERDICT s] | A_redirect i d => [T_REDIRECT; T_IFACE i; T_DIR d] end.
Definition ar_matchers (a : a_rule) : list a_matcher := ar_first a :: ar_more a.
Definition w_rule (a : a_rule) : list token :=
  T_RULE :: concat (map w_matcher (ar_matchers a)) ++ concat (map w_option (ar_options a)) ++ w_verdict (ar_verdict a).
Definition w_set (a : a_set) : list token :=
  T_SET :: T_STRING (as_name a) :: T_SET_TYPE (as_key a) :: w_in ++ [T_SET_PAYLOAD (as_payload a)].
Definition w_chain (a : a_chain) : list token :=
  T_CHAIN :: T_STRING (ac_name a) :: T_HOOK (ac_hook a) :: map T_HOOKOPT (ac_opts a) ++ T_VERDICT (ac_policy a) ::
  concat (map w_set (ac_sets a)) ++ concat (map w_rule (ac_rules a)).

(** ** Meaning *)
(** The set [u] is the one that is written, with that name. *)
Definition set_written (pe : penv) (name : option cstr) (key payload : cstr) (u : uset) : Prop :=
  exists ks es, key_names (key_texts key) ks /\ Forall2 (element pe ks) (element_texts payload) es /\ set_is u name ks es.

Definition op_named (o : option cstr) (op : mop) : Prop :=
  match o with None => op = OP_EQ | Some s => mop_to_str op = Some s end.

(** [m] tests membership in the set of index [i]. *)
Definition in_set_number (m : matcher) (neg : bool) (i : nat) : Prop := m = mkM M_SET OP_IN neg (le_enc 4 (N.of_nat i)).

Definition matcher_written (pe : penv) (sets : list uset) (a : a_matcher) (m : matcher) : Prop :=
  match a with
  | A_field t neg op p =>
      exists ty o heap, mtype_to_str ty = Some t /\ op_named op o /\ matcher_new_from_raw pe (Some heap) ty o p neg = Ok m
  | A_literal k neg p => exists i u, nth_error sets i = Some u /\ set_written pe None k p u /\ in_set_number m neg i
  | A_named k neg n =>
      exists i u, nth_error sets i = Some u /\ u_name u = Some n /\ key_names (key_texts k) (u_key u) /\ in_set_number m neg i /\
        (forall j v, (j < i)%nat -> nth_error sets j = Some v -> u_name v <> Some n)
  end.

(** The sets of a chain: those declared, then one for each literal. *)
Definition literals (a : a_rule) : list (option cstr * cstr * cstr) :=
  flat_map (fun m => match m with A_literal k _ p => [(None, k, p)] | _ => [] end) (ar_matchers a).
Definition all_sets (a : a_chain) : list (option cstr * cstr * cstr) :=
  map (fun s => (Some (as_name s), as_key s, as_payload s)) (ac_sets a) ++ flat_map literals (ac_rules a).

(** Options: at most one of each kind. *)
Definition logs (l : list a_option) : list (list cstr * option cstr) :=
  flat_map (fun a => match a with A_log h e => [(h, e)] | _ => [] end) l.
Definition counters (l : list a_option) : nat := length (filter (fun a => match a with A_counter => true | _ => false end) l).
Definition marks (l : list a_option) : list cstr := flat_map (fun a => match a with A_mark s => [s] | _ => [] end) l.

(** The headers to log: "log" alone means all of them. *)
Definition header_named (s : cstr) (i : N) : Prop :=
  exists n, In (i, n) [(0, lit "link"); (1, lit "internet"); (2, lit "transport")] /\ map tolower s = map tolower n.
Definition headers_mean (hs : list cstr) (v : N) : Prop :=
  match hs with
  | [] => v = 255
  | _ => (forall h, In h hs -> exists i, header_named h i) /\
         forall i, N.testbit v i = true <-> exists h, In h hs /\ header_named h i
  end.
Definition log_means (l : list (list cstr * option cstr)) (log rate : N) : Prop :=
  match l with
  | [] => log = 0 /\ rate = 0
  | [(hs, e)] => headers_mean hs log /\ match e with Some s => parse_log_rate s = Ok rate | None => rate = 0 end
  | _ => False
  end.
(** A rule marks packets with a 32-bit number; bit 32 and above: "there is a mark". *)
Definition mark_means (l : list cstr) (r : rule) : Prop :=
  match l with
  | [] => mark_is_set r = false
  | [s] => exists v, mark_of s = Ok v /\ v < two32 /\ mark_is_set r = true /\ mark_get r = v
  | _ => False
  end.
Definition verdict_means (pe : penv) (a : a_verdict) (r : rule) : Prop :=
  match a with
  | A_verdict s => verdict_to_str (r_verdict r) = Some s
  | A_redirect i d => r_verdict r = V_REDIRECT /\ if_index pe i = Ok (r_rd_ifindex r) /\ rdir_to_str (r_rd_dir r) = Some d
  end.

Definition rule_written (pe : penv) (sets : list uset) (a : a_rule) (r : rule) : Prop :=
  Forall2 (matcher_written pe sets) (ar_matchers a) (r_matchers r) /\
  log_means (logs (ar_options a)) (r_log r) (r_log_rate r) /\
  (counters (ar_options a) <= 1)%nat /\ r_counters r = (counters (ar_options a) =? 1)%nat /\
  mark_means (marks (ar_options a)) r /\ verdict_means pe (ar_verdict a) r /\ r_disabled r = false.

(** No option text, no options; otherwise those that the texts set, one after the other. *)
Definition opts_written (l : list cstr) (o : option hookopts) : Prop :=
  match l with
  | [] => o = None
  | _ => exists mem h, o = Some h /\ parse_opts mem 0 hookopts_new l = Ok h
  end.

Definition chain_written (pe : penv) (a : a_chain) (x : nchain * option hookopts) : Prop :=
  exists h v sets rules,
    hook_to_str h = Some (ac_hook a) /\ verdict_to_str v = Some (ac_policy a) /\
    Forall2 (fun d u => set_written pe (fst (fst d)) (snd (fst d)) (snd d) u) (all_sets a) sets /\
    Forall2 (rule_written pe sets) (ac_rules a) rules /\
    nchain_new (ac_name a) (hook_id h) (verdict_id v) sets rules = Ok (fst x) /\
    opts_written (ac_opts a) (snd x) /\
    (forall o, snd x = Some o -> validate o h = Ok tt).

(** ** Texts that should be accepted *)
Definition set_ok (pe : penv) (key payload : cstr) : Prop :=
  exists ks es, key_names (key_texts key) ks /\ good_key ks /\ Forall2 (element pe ks) (element_texts payload) es /\
    starts_well payload /\ 16 + 4 * N.of_nat (length es) < MAX_CAP.
(** The first set of that name has that key. *)
Definition names_set (sets : list a_set) (name key : cstr) : Prop :=
  exists before s after ks, sets = before ++ s :: after /\ as_name s = name /\ (forall x, In x before -> as_name x <> name) /\
    key_names (key_texts (as_key s)) ks /\ key_names (key_texts key) ks /\ good_key ks.
Definition matcher_ok (pe : penv) (sets : list a_set) (a : a_matcher) : Prop :=
  match a with
  | A_field t neg op p =>
      exists ty o heap m, mtype_to_str ty = Some t /\ op_named op o /\ matcher_new_from_raw pe (Some heap) ty o p neg = Ok m
  | A_literal k neg p => set_ok pe k p
  | A_named k neg n => names_set sets n k
  end.
Definition options_ok (l : list a_option) : Prop :=
  (length (logs l) <= 1)%nat /\ (counters l <= 1)%nat /\ (length (marks l) <= 1)%nat /\
  (forall hs e, In (hs, e) (logs l) -> (forall h, In h hs -> exists i, header_named h i) /\
     forall s, e = Some s -> exists n, parse_log_rate s = Ok n) /\
  (forall s, In s (marks l) -> exists v, mark_of s = Ok v).
Definition verdict_ok (pe : penv) (a : a_verdict) : Prop :=
  match a with
  | A_verdict s => exists v, verdict_to_str v = Some s
  | A_redirect i d => (exists x, if_index pe i = Ok x) /\ exists y, rdir_to_str y = Some d
  end.
Definition rule_ok (pe : penv) (sets : list a_set) (a : a_rule) : Prop :=
  Forall (matcher_ok pe sets) (ar_matchers a) /\ options_ok (ar_options a) /\ verdict_ok pe (ar_verdict a).
(** The hook can evaluate the matchers, mark packets, log what is asked. *)
Definition key_fits (h : hook) (key : cstr) : Prop := forall ks t, key_names (key_texts key) ks -> In t ks -> unsupported t h = false.
Definition matcher_fits (h : hook) (a : a_matcher) : Prop :=
  match a with
  | A_field t _ _ _ => forall ty, mtype_to_str ty = Some t -> unsupported ty h = false
  | A_literal k _ _ | A_named k _ _ => key_fits h k
  end.
Definition rule_fits (h : hook) (a : a_rule) : Prop :=
  Forall (matcher_fits h) (ar_matchers a) /\
  (marks (ar_options a) <> [] -> hook_flavor h = F_TC \/ hook_flavor h = F_CGROUP_SKB) /\
  (hook_flavor h = F_SOCK_ADDR -> forall hs e, In (hs, e) (logs (ar_options a)) -> hs = []).
Definition chain_ok (pe : penv) (a : a_chain) : Prop :=
  exists h v,
    hook_to_str h = Some (ac_hook a) /\ verdict_to_str v = Some (ac_policy a) /\ In v [V_ACCEPT; V_DROP; V_NEXT] /\
    Forall (fun s => set_ok pe (as_key s) (as_payload s)) (ac_sets a) /\
    Forall (rule_ok pe (ac_sets a)) (ac_rules a) /\ Forall (rule_fits h) (ac_rules a) /\
    N.of_nat (length (all_sets a)) < two32 /\
    (ac_opts a <> [] -> exists o, parse_opts (fun _ => true) 0 hookopts_new (ac_opts a) = Ok o /\ validate o h = Ok tt).

(** ** The machine *)
(** Memory is made of bytes, interface indexes are 32-bit numbers, ... *)
Definition ce_ok (ce : cli_env) : Prop := penv_ok (ce_pe ce) /\ forall n, heap_ok (ce_heap ce n).
(** ... and the allocations succeed. *)
Definition ce_rich (ce : cli_env) : Prop :=
  ce_ok ce /\ (forall n i, ce_heap ce n i <> None) /\ (forall n, generous (ce_node ce n) (ce_table ce)) /\ (forall n, ce_opt ce n = true).
