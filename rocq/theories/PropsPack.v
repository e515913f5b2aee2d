(** C22, C23, C24, C48: serialisation, and hook options. *)
From Coq Require Import String NArith ZArith List Bool Arith Lia Permutation.
From Verif Require Import Bytes Types GenModel ChainModel StrModel EnumModel SetModel SetSpec PackModel PackSpec PackFacts PackFacts2 PackFacts3
  PackFacts4 PackFacts5 WpackModel WpackFacts HookModel HookSpec HookFacts.
Import ListNotations.
Local Open Scope string_scope.
Local Open Scope list_scope.
Local Open Scope N_scope.

(** ** A chain to try things on: two sets, two rules, one of them disabled. *)
Definition ex_set : uset :=
  match set_new (Some (lit "blk")) [M_IP4_SADDR] with
  | Ok u => match set_add_elem true (Some 1%nat) (fun _ => true) u [10; 0; 0; 1] with
            | Ok (u1, _) => match set_add_elem true (Some 2%nat) (fun _ => true) u1 [9; 9; 9; 9] with Ok (u2, _) => u2 | Er _ => u1 end
            | Er _ => u
            end
  | Er _ => mkU None [] 0 false (HashModel.hash_init (fun _ => None))
  end.
Definition ex_set2 : uset :=
  match set_new None [M_TCP_DPORT; M_IP4_DADDR] with Ok u => u | Er _ => mkU None [] 0 false (HashModel.hash_init (fun _ => None)) end.
Definition ex_rules : list rule :=
  [mkR 7 [mkM M_SET OP_IN false [0; 0; 0; 0]; mkM M_TCP_DPORT OP_EQ true [0; 80]] 3 1000 0 true false V_DROP 0 D_INGRESS;
   mkR 0 [mkM M_SET OP_IN false [1; 0; 0; 0]] 0 0 0 false false V_ACCEPT 0 D_INGRESS].
Definition ex_nchain : nchain :=
  match nchain_new (lit "edge") 0 1 [ex_set; ex_set2] ex_rules with Ok c => c | Er _ => mkNC [] [] (mkC H_XDP V_ACCEPT [] [] false false false) end.

Lemma ex_set_reachable : set_reachable ex_set.
Proof.
  destruct (set_new (Some (lit "blk")) [M_IP4_SADDR]) as [u|] eqn:E0; [|vm_compute in E0; discriminate E0].
  destruct (set_add_elem true (Some 1%nat) (fun _ => true) u [10; 0; 0; 1]) as [[u1 r1]|] eqn:E1; [|vm_compute in E0; injection E0 as <-; vm_compute in E1; discriminate E1].
  destruct (set_add_elem true (Some 2%nat) (fun _ => true) u1 [9; 9; 9; 9]) as [[u2 r2]|] eqn:E2.
  2:{ vm_compute in E0; injection E0 as <-; vm_compute in E1; injection E1 as <- _; vm_compute in E2; discriminate E2. }
  assert (ex_set = u2) as ->. { unfold ex_set. rewrite E0, E1, E2. reflexivity. }
  eapply SR_add; [|exact E2]. eapply SR_add; [|exact E1]. eapply SR_new; exact E0.
Qed.
Lemma ex_set2_reachable : set_reachable ex_set2.
Proof.
  destruct (set_new None [M_TCP_DPORT; M_IP4_DADDR]) as [u|] eqn:E0; [|vm_compute in E0; discriminate E0].
  assert (ex_set2 = u) as ->. { unfold ex_set2. now rewrite E0. } eapply SR_new; exact E0.
Qed.

Example ex_nchain_built : chain_built ex_nchain.
Proof.
  destruct (nchain_new (lit "edge") 0 1 [ex_set; ex_set2] ex_rules) as [c|] eqn:E; [|vm_compute in E; discriminate E].
  assert (ex_nchain = c) as ->. { unfold ex_nchain. now rewrite E. } eapply CB_new. exact E.
Qed.
Example ex_nchain_shape : map r_disabled (c_rules (nc_chain ex_nchain)) = [false; true] /\
  map r_index (c_rules (nc_chain ex_nchain)) = [0; 1] /\ nc_sets ex_nchain = [ex_set; ex_set2].
Proof. vm_compute. auto. Qed.
Example ex_nchain_storable : storable ex_nchain.
Proof.
  constructor.
  - vm_compute. intuition discriminate.
  - assert (nc_sets ex_nchain = [ex_set; ex_set2]) as -> by apply ex_nchain_shape.
    constructor; [split; [exact ex_set_reachable|vm_compute; intuition discriminate]|].
    constructor; [split; [exact ex_set2_reachable|vm_compute; exact Logic.I]|constructor].
  - apply Forall_forall. intros r Hr. vm_compute in Hr. destruct Hr as [<-|[<-|[]]]; unfold rule_in_range;
      (split; [vm_compute; reflexivity|split; [vm_compute; reflexivity|split; [vm_compute; reflexivity|split; [vm_compute; reflexivity|]]]]); repeat constructor; discriminate.
  - vm_compute. reflexivity.
Qed.

(** ** C22.  Copying (which is: serialise, then unserialise) a chain built with the
    API gives the same chain: name, hook, policy, flags, every rule with every
    option, sets with their names, keys and elements in order.  The only way to fail
    is an allocation. *)
Theorem C22_copy_is_the_same_chain : forall nd tb c, chain_built c -> storable c ->
  (exists c', chain_copy nd tb c = Ok c' /\ nc_name c' = nc_name c /\ nc_chain c' = nc_chain c /\ Forall2 same_set (nc_sets c) (nc_sets c')) \/
  chain_copy nd tb c = Er ENOMEM.
Proof.
  intros nd tb c B S. destruct (chain_round_trip nd tb c B S) as [(c' & E & A & F & D)|E]; [left|right; exact E].
  exists c'. split; [exact E|]. split; [congruence|]. split; [congruence|exact F].
Qed.

(** When the allocator answers, the copy succeeds. *)
Theorem C22_copy_succeeds : forall nd tb c, (forall i, generous (nd i) tb) -> chain_built c -> storable c ->
  Forall (fun u => forall l, set_read u = Ok l -> N.of_nat (length l) < two32) (nc_sets c) ->
  exists c', chain_copy nd tb c = Ok c' /\ same_chain c c'.
Proof. exact chain_round_trip_generous. Qed.

(** Matchers and rules alone; a rule comes back enabled, bf_chain_new decides again. *)
Theorem C22_matcher : forall m, m_pay m <> [] -> matcher_unpack (matcher_pack m) = Ok m.
Proof. intros m H. apply matcher_unpack_iff. now apply matcher_pack_tree. Qed.
Theorem C22_rule : forall r, rule_in_range r -> r_index r < two32 -> rule_unpack (rule_pack r) = Ok (with_disabled r false).
Proof. intros r H Hi. apply rule_unpack_iff. now apply rule_pack_tree. Qed.
Theorem C22_set : forall nd tb u, set_reachable u -> match u_name u with Some s => ~ In 0 s | None => True end ->
  exists n, set_pack u = Ok n /\
    ((exists v, set_unpack nd tb n = Ok v /\ same_set u v) \/ set_unpack nd tb n = Er ENOMEM) /\
    (generous nd tb -> (forall l, set_read u = Ok l -> N.of_nat (length l) < two32) ->
       exists v, set_unpack nd tb n = Ok v /\ same_set u v).
Proof. exact set_round_trip. Qed.
Theorem C22_counter : forall c, cnt_count c < two64 -> cnt_size c < two64 -> counter_unpack (counter_pack c) = Ok c.
Proof.
  intros [a b] Ha Hb. cbn [cnt_count cnt_size] in *. unfold counter_unpack.
  rewrite (kv_entry (rd_uint two64) _ "count" (NUint a)) by is_entry. assert (rd_uint two64 (NUint a) = Ok a) as -> by (apply rd_uint_iff; split; auto).
  cbn [bind]. rewrite (kv_entry (rd_uint two64) _ "size" (NUint b)) by is_entry.
  assert (rd_uint two64 (NUint b) = Ok b) as -> by (apply rd_uint_iff; split; auto). reflexivity.
Qed.

Example C22_example : exists c', chain_copy (fun i j => Some (10 * i + j)%nat) (fun _ => true) ex_nchain = Ok c' /\
  nc_chain c' = nc_chain ex_nchain /\ map set_read (nc_sets c') = [Ok [[10; 0; 0; 1]; [9; 9; 9; 9]]; Ok []].
Proof.
  destruct (chain_copy (fun i j => Some (10 * i + j)%nat) (fun _ => true) ex_nchain) as [c'|] eqn:E; [|vm_compute in E; discriminate E].
  exists c'. split; [reflexivity|]. vm_compute in E. injection E as <-. vm_compute. auto.
Qed.

Example C22_generous_exists : forall i, generous (fun j => Some (10 * i + j)%nat) (fun _ => true).
Proof. intros i. split; [eauto|]. split; [|reflexivity]. intros a b H. injection H as H. lia. Qed.

Print Assumptions C22_copy_is_the_same_chain.

(** ** C23.  The trees accepted are exactly those PackSpec describes: every required
    key present once, of the right type, numbers and enumerators in range. *)
Theorem C23_matcher : forall n m, matcher_unpack n = Ok m <-> matcher_tree n m.
Proof. exact matcher_unpack_iff. Qed.
Theorem C23_rule : forall n r, rule_unpack n = Ok r <-> rule_tree n r.
Proof. exact rule_unpack_iff. Qed.
Theorem C23_set_reads_only_sets : forall nd tb n u, set_unpack nd tb n = Ok u ->
  exists name ks elems, set_tree n name ks elems /\ set_is u name ks elems.
Proof. exact set_unpack_sound. Qed.
Theorem C23_set_reads_all_sets : forall nd tb n name ks elems, set_tree n name ks elems ->
  (exists u, set_unpack nd tb n = Ok u /\ set_is u name ks elems) \/ set_unpack nd tb n = Er ENOMEM.
Proof. exact set_unpack_complete. Qed.
Theorem C23_chain_reads_only_chains : forall nd tb n c, chain_unpack nd tb n = Ok c -> exists ds rules,
  chain_tree n (nc_name c) (c_hook (nc_chain c)) (c_policy (nc_chain c)) ds rules /\
  Forall2 (fun u s => set_is u (fst (fst s)) (snd (fst s)) (snd s)) (nc_sets c) ds /\
  nchain_new (nc_name c) (hook_id (c_hook (nc_chain c))) (verdict_id (c_policy (nc_chain c))) (nc_sets c) rules = Ok c.
Proof. exact chain_unpack_sound. Qed.
Theorem C23_chain_reads_all_chains : forall nd tb n name h p ds rules, chain_tree n name h p ds rules ->
  (exists us, chain_unpack nd tb n = nchain_new name (hook_id h) (verdict_id p) us rules /\
     Forall2 (fun u s => set_is u (fst (fst s)) (snd (fst s)) (snd s)) us ds) \/ chain_unpack nd tb n = Er ENOMEM.
Proof. exact chain_tree_run. Qed.

(** A chain tree without one of its keys (or with it twice) is refused. *)
Theorem C23_missing_key : forall nd tb n k, In k ["name"; "hook"; "policy"; "sets"; "rules"] -> (forall v, ~ entry n k v) ->
  exists e, chain_unpack nd tb n = Er e /\ In e [EDOM; ENOENT; EINVAL; E2BIG; ENOTSUP; ENOMEM; EABORT].
Proof. exact chain_missing. Qed.

(** Reading any tree at all either succeeds or ends with one of these codes: it is
    never undefined.  EABORT is the assertion of C23_empty_payload_refuted. *)
Theorem C23_every_tree : forall nd tb n e, chain_unpack nd tb n = Er e -> In e [EDOM; ENOENT; EINVAL; E2BIG; ENOTSUP; ENOMEM; EABORT].
Proof. exact e_chain. Qed.
Theorem C23_every_set_tree : forall nd tb n e, set_unpack nd tb n = Er e -> In e [EDOM; ENOENT; EINVAL; E2BIG; ENOTSUP; ENOMEM].
Proof. exact e_set. Qed.

(** An element of the wrong size. *)
Theorem C23_wrong_element_size : forall nd tb n ks l name a e b,
  set_tree n name ks a -> length e <> list_sum (map comp_size ks) ->
  entry l "name" (match name with Some s => NStr s | None => NNil end) ->
  (forall v, entry n "key" v -> entry l "key" v) -> entry l "elements" (NArr (map NBin (a ++ e :: b))) ->
  exists c, set_unpack nd tb l = Er c /\ In c [EDOM; ENOENT; EINVAL; E2BIG; ENOTSUP; ENOMEM].
Proof.
  intros nd tb n ks l name a e b T Hl Hn Hk He. destruct (set_unpack nd tb l) as [u|c] eqn:E; [|exists c; split; [auto|apply (e_set nd tb l); auto]].
  exfalso. destruct (set_unpack_sound _ _ _ _ E) as (nm & ks' & es & T' & _).
  pose proof (entry_fun _ _ _ _ He (st_elems _ _ _ _ T')) as X. injection X as X.
  assert (es = a ++ e :: b) as ->. { clear -X. revert es X. generalize (a ++ e :: b) as r. induction r as [|x r IH]; intros [|y es] X; try discriminate X; auto.
    cbn [map] in X. injection X as -> X. f_equal. auto. }
  destruct (st_key _ _ _ _ T) as (kl & K1 & K2). destruct (st_key _ _ _ _ T') as (kl' & K1' & K2').
  apply Hk in K1. pose proof (entry_fun _ _ _ _ K1 K1') as Y. injection Y as <-.
  assert (ks = ks') as <-.
  { clear -K2 K2'. revert ks' K2'. induction K2 as [|x t l ks H1 H2 IH]; intros ks' K; inversion K as [|? t' ? ks'' H1' H2']; subst; auto.
    f_equal; [|auto]. pose proof (is_enum_fun _ _ _ _ H1 H1') as Q.
    assert (enum_of (mtype_of_id (mtype_id t)) = Ok t) by now apply enum_of_mtype.
    assert (enum_of (mtype_of_id (mtype_id t')) = Ok t') by now apply enum_of_mtype. congruence. }
  pose proof (st_sizes _ _ _ _ T') as Z. rewrite Forall_forall in Z. apply Hl. apply Z. apply in_app_iff. right. now left.
Qed.

Example C23_example_refused :
  matcher_unpack (NMap [(key "type", NUint 31); (key "op", NUint 0); (key "payload", NBin [1])]) = Er EINVAL /\
  matcher_unpack (NMap [(key "type", NUint 3); (key "op", NUint 0)]) = Er ENOENT /\
  matcher_unpack (NMap [(key "type", NStr (lit "x")); (key "op", NUint 0); (key "payload", NBin [1])]) = Er EDOM /\
  set_unpack (fun i => Some i) (fun _ => true)
    (NMap [(key "name", NNil); (key "key", NArr [NUint (mtype_id M_IP4_SADDR)]); (key "elements", NArr [NBin [1; 2; 3]])]) = Er EINVAL.
Proof. vm_compute. auto. Qed.

(** False as it stands: a matcher whose payload is an empty binary is not refused,
    the assertion of bf_matcher_new fails and the process aborts. *)
Theorem C23_empty_payload_refuted : exists n,
  matcher_unpack n = Er EABORT /\
  n = NMap [(key "type", NUint 0); (key "op", NUint 0); (key "negate", NBool false); (key "payload", NBin [])].
Proof. eexists. split; [|reflexivity]. vm_compute. reflexivity. Qed.

(** And the payload's size is not compared with the matcher's: one byte is accepted
    for a set reference, which is read as four. *)
Theorem C23_payload_size_refuted : exists n m, matcher_unpack n = Ok m /\ m_type m = M_SET /\ length (m_pay m) = 1%nat.
Proof. exists (matcher_pack (mkM M_SET OP_IN false [0])), (mkM M_SET OP_IN false [0]). split; [apply C22_matcher; discriminate|auto]. Qed.

(** ** C24. *)
(** Validation accepts options iff the ones used are exactly the one the hook needs. *)
Theorem C24_validated : forall o h, validate o h = Ok tt <-> forall k, used o k = true <-> k = needs h.
Proof. exact validate_iff. Qed.
Theorem C24_refused : forall o h e, validate o h = Er e ->
  (e = EINVAL /\ used o (needs h) = false) \/ (e = ENOTSUP /\ exists k, k <> needs h /\ used o k = true).
Proof. exact validate_error. Qed.

(** Parsing accepts a list iff each text is a setting and no kind appears twice
    ("family=" excepted), and then the options hold exactly these settings. *)
Theorem C24_parsed : forall l o, parse_opts (fun _ => true) 0 hookopts_new l = Ok o <->
  exists vs, Forall2 reads l vs /\ no_duplicates vs /\ holds_settings o vs.
Proof. exact parse_all_iff. Qed.

(** The order does not matter. *)
Theorem C24_order_independent : forall l l' o, Permutation l l' ->
  parse_opts (fun _ => true) 0 hookopts_new l = Ok o -> parse_opts (fun _ => true) 0 hookopts_new l' = Ok o.
Proof. exact parse_perm. Qed.

(** Netfilter priorities are positive and different; interface indices are not
    negative; what was parsed fits its C types and survives serialisation. *)
Theorem C24_priorities : forall l o, (forall s, In s l -> ~ In 0 s) -> parse_opts (fun _ => true) 0 hookopts_new l = Ok o ->
  (forall a b, ho_priorities o = Some (a, b) -> (0 < a)%Z /\ (0 < b)%Z /\ a <> b) /\ (forall z, ho_ifindex o = Some z -> (0 <= z)%Z).
Proof. intros l o L H. exact (proj2 (parsed_in_range l o L H)). Qed.
Theorem C24_round_trip : forall o, opts_in_range o -> hookopts_unpack (hookopts_pack o) = Ok o.
Proof. exact hookopts_round. Qed.
Theorem C24_parsed_round_trip : forall l o, (forall s, In s l -> ~ In 0 s) -> parse_opts (fun _ => true) 0 hookopts_new l = Ok o ->
  hookopts_unpack (hookopts_pack o) = Ok o.
Proof. intros l o L H. apply hookopts_round. exact (proj1 (parsed_in_range l o L H)). Qed.

Example C24_example :
  parse_opts (fun _ => true) 0 hookopts_new [lit "family=inet4"; lit "priorities=101-0x66"] = Ok (mkHO None None None (Some (101, 102)%Z)) /\
  validate (mkHO None None None (Some (101, 102)%Z)) H_NF_FORWARD = Ok tt /\
  validate (mkHO None None None (Some (101, 102)%Z)) H_XDP = Er EINVAL /\
  parse_opts (fun _ => true) 0 hookopts_new [lit "ifindex=2"; lit "cgpath=/a"; lit "ifindex=2"] = Er EEXIST /\
  parse_opts (fun _ => true) 0 hookopts_new [lit "priorities=5-5"] = Er EINVAL.
Proof. vm_compute. auto 6. Qed.

(** False as it stands: "family=" may be repeated, and contradict itself. *)
Theorem C24_duplicate_family_refuted : exists o,
  parse_opts (fun _ => true) 0 hookopts_new [lit "family=inet4"; lit "family=inet6"] = Ok o.
Proof. eexists. vm_compute. reflexivity. Qed.
(** A value that is no number is read as interface 0. *)
Theorem C24_not_a_number_refuted : exists o,
  parse_opts (fun _ => true) 0 hookopts_new [lit "ifindex=eth0"] = Ok o /\ ho_ifindex o = Some 0%Z /\ validate o H_XDP = Ok tt.
Proof. eexists. split; [vm_compute; reflexivity|]. vm_compute. auto. Qed.
(** Unserialised options are not checked: equal priorities are accepted. *)
Theorem C24_unpacked_priorities_refuted : exists n o, hookopts_unpack n = Ok o /\ ho_priorities o = Some (0, 0)%Z /\ validate o H_NF_FORWARD = Ok tt.
Proof.
  exists (NMap [(key "ifindex", NNil); (key "cgpath", NNil); (key "family", NNil); (key "priorities", NArr [NUint 0; NUint 0])]).
  eexists. split; [vm_compute; reflexivity|]. vm_compute. auto.
Qed.

Print Assumptions C24_parsed.

(** ** C48.  As long as memory lasts, the data is the concatenation of what was
    flushed, and no byte outside the buffer is touched. *)
Theorem C48_concatenation_partial : forall grown chunks, (forall i n, grown i n <> None) -> N.of_nat (length (concat chunks)) < 2 ^ 63 ->
  exists p, flush_all grown 0 wpack_new chunks = Ok p /\ get_data p = Ok (concat chunks).
Proof.
  intros grown chunks G L. destruct (flush_all_ok grown chunks G 0 wpack_new [] winv_new) as (p & E & W); [exact L|].
  exists p. split; [exact E|]. now apply winv_data in W.
Qed.

Example C48_example : exists p, flush_all (fun _ _ => Some (fun _ => 255)) 0 wpack_new [repeat 1 64; []; repeat 2 70; [3]] = Ok p /\
  get_data p = Ok (repeat 1 64 ++ repeat 2 70 ++ [3]) /\ wp_cap p = 256.
Proof. eexists. split; [vm_compute; reflexivity|]. vm_compute. auto. Qed.

(** False when memory is short: after a failed realloc the callback flags the error
    but copies the chunk all the same, past the end of the old block. *)
Theorem C48_no_memory_refuted : exists grown chunks, flush_all grown 0 wpack_new chunks = Er EUB /\ chunks = [[1]] /\ grown 0%nat 64 = None.
Proof. exists (fun _ _ => None), [[1]]. vm_compute. auto. Qed.

Print Assumptions C48_concatenation_partial.
Print Assumptions C22_copy_succeeds.
Print Assumptions C22_matcher.
Print Assumptions C22_rule.
Print Assumptions C22_set.
Print Assumptions C22_counter.
Print Assumptions C23_matcher.
Print Assumptions C23_rule.
Print Assumptions C23_set_reads_only_sets.
Print Assumptions C23_set_reads_all_sets.
Print Assumptions C23_chain_reads_only_chains.
Print Assumptions C23_chain_reads_all_chains.
Print Assumptions C23_missing_key.
Print Assumptions C23_every_tree.
Print Assumptions C23_every_set_tree.
Print Assumptions C23_wrong_element_size.
Print Assumptions C23_empty_payload_refuted.
Print Assumptions C23_payload_size_refuted.
Print Assumptions C24_validated.
Print Assumptions C24_refused.
Print Assumptions C24_order_independent.
Print Assumptions C24_priorities.
Print Assumptions C24_round_trip.
Print Assumptions C24_parsed_round_trip.
Print Assumptions C24_duplicate_family_refuted.
Print Assumptions C24_not_a_number_refuted.
Print Assumptions C24_unpacked_priorities_refuted.
Print Assumptions C48_no_memory_refuted.
