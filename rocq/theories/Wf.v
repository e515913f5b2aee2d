(** Well-formed objects: what the constructors of the library guarantee (set.c
    bf_set_new, matcher.c parse callbacks, chain.c bf_chain_new), and the exact
    places where the generated code is known to deviate (each deviation is shown
    by a [_refuted] theorem elsewhere). *)
From Coq Require Import NArith ZArith List Bool.
From Verif Require Import Bytes Types World PktSpec GenModel.
Import ListNotations.
Local Open Scope N_scope.

Definition is_net (t : mtype) : bool :=
  match t with M_IP4_SNET | M_IP4_DNET | M_IP6_SNET | M_IP6_DNET => true | _ => false end.

(** Length in bits of the addresses of a network type. *)
Definition net_bits (t : mtype) : N :=
  match t with M_IP4_SNET | M_IP4_DNET => 32 | _ => 128 end.

Definition comp_size (t : mtype) : nat :=
  match ops_size t OP_IN with Some n => n | None => 0%nat end.

(** set.c:69-137 bf_set_new: supported components, at most 8 of them, a network
    component only alone (longest-prefix-match set), element size = sum of the
    component sizes; elements added by bf_set_add_elem are [esize] bytes; the
    parsers (helper bf_parse_net, matcher.c) bound the prefix length. *)
Record wf_set (s : bset) : Prop := mkWfSet {
  ws_key : s_key s <> [];
  ws_in : forall t, In t (s_key s) -> ops_size t OP_IN <> None;
  ws_trie : s_trie s = match s_key s with [t] => is_net t | _ => false end;
  ws_nets : s_trie s = false -> forall t, In t (s_key s) -> is_net t = false;
  ws_size : s_esize s = list_sum (map comp_size (s_key s));
  ws_elems : forall x, In x (s_elems s) -> bytes x /\ length x = s_esize s;
  ws_plen : s_trie s = true -> forall x t, In x (s_elems s) -> In t (s_key s) ->
            le_dec (firstn 4 x) <= net_bits t;
  ws_max : (length (s_key s) <= 8)%nat
}.

(** A matcher as built by the parsers: operator supported by the type, payload of
    the declared size, sane prefix length. *)
Record wf_matcher (m : matcher) : Prop := mkWfM {
  wm_bytes : bytes (m_pay m);
  wm_op : match m_type m with
          | M_SET => m_op m = OP_IN /\ length (m_pay m) = 4%nat
          | t => m_op m <> OP_IN /\ ops_size t (m_op m) = Some (length (m_pay m))
          end;
  wm_net : is_net (m_type m) = true -> le_dec (firstn 4 (m_pay m)) <= net_bits (m_type m)
}.

(** The key of a (non-network) set fits in the 64 bytes of scratch space; larger keys
    are accepted by bf_set_new but overflow the stack (finding F29 of DESIGN.md). *)
Definition key_fits (c : chain) (m : matcher) : Prop :=
  m_type m = M_SET -> forall s, set_of (c_sets c) m = Some s -> s_trie s = false -> (s_esize s <= 64)%nat.

(** Inputs on which the documented and the generated readings of a matcher agree. *)
Definition quirk_free (v : view) (m : matcher) : Prop :=
  match m_type m with
  | M_IFACE => v_if v < 65536
  | M_SPORT | M_DPORT =>
      match v_sock v with
      | None => has_tcp v || has_udp v = true -> be_dec (fld v (m_type m)) <> 0
      | Some _ => has_tcp v || has_udp v = true
      end
  | M_PROBABILITY => forall t, prob_threshold (m_pay m) = Some t -> t < two31
  | _ => True
  end.

(** Two matcher types that belong to the same layer talk about the same protocol;
    chain.c:33-270 _bf_chain_check_rule disables a rule that breaks this. *)
Definition compat (sets : list bset) (ms : list matcher) : Prop :=
  forall t t', In t (flat_map (types_of sets) ms) -> In t' (flat_map (types_of sets) ms) ->
    mt_layer (meta_of t) = mt_layer (meta_of t') -> mt_layer (meta_of t) <> L_NONE ->
    mt_hdr (meta_of t) = mt_hdr (meta_of t').

(** A rule as the constructors build it (rule.c, chain.c): C integer ranges, its
    position in the chain as index, the chain flags that its log options and matchers
    require, and, on the socket hooks, only matchers available there. *)
Record wf_rule (c : chain) (r : rule) : Prop := mkWfR {
  wr_matchers : Forall wf_matcher (r_matchers r);
  wr_index : r_index r < n_rules c;
  wr_log : r_log r < 256;
  wr_rate : r_log_rate r < two64;
  wr_mark : r_mark r < two64;
  wr_if : r_rd_ifindex r < two32;
  wr_compat : r_disabled r = false -> compat (c_sets c) (r_matchers r);
  wr_flog : r_disabled r = false -> r_log r <> 0 -> c_log c = true;
  wr_frate : r_disabled r = false -> r_log r <> 0 -> r_log_rate r <> 0 -> c_ratelimit c = true;
  wr_fnh : r_disabled r = false -> forall m, In m (r_matchers r) -> m_type m = M_IP6_NEXTHDR ->
           c_nexthdr c = true;
  wr_hook : r_disabled r = false -> is_sock_addr (c_hook c) = true -> forall m t, In m (r_matchers r) -> In t (types_of (c_sets c) m) ->
            unsupported t (c_hook c) = false
}.

(** Well-formed chains.  The bounds on the number of sets and rules keep the C
    arithmetic exact (int16 and int32 instruction fields). *)
Record wf_chain (c : chain) : Prop := mkWfC {
  wc_sets : Forall wf_set (c_sets c);
  wc_nsets : (Z.of_nat (length (c_sets c)) < 262144)%Z;
  wc_nrules : n_rules c < 268435456;
  wc_rules : Forall (wf_rule c) (c_rules c)
}.
