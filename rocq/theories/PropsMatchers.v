(** C06-C12, C40-C42: what each matcher accepts, for every packet.

    The theorems speak about the whole generated program of a chain that drops
    exactly what one matcher accepts ([tests c m]: one enabled rule [m -> DROP],
    policy ACCEPT), deployed on any packet hook, for any packet whose headers can be
    read.  [view_of e c = Some v] gives the headers of the packet. *)
From Coq Require Import NArith ZArith List Bool.
From Verif Require Import Bytes Types World BpfModel GenModel PktSpec ViewSpec Wf ViewModel ProgThm EvalSpec Deploy ChainSpec
  OneFacts OneFacts2 ChainFacts Fixtures.
Import ListNotations.
Local Open Scope N_scope.

(** The verdict is a function: a packet is not both dropped and accepted. *)
Theorem drops_when_is_a_function : forall c e prog w a b,
  drops_when c e prog w a -> drops_when c e prog w b -> a = b.
Proof. exact drops_when_unique. Qed.
Print Assumptions drops_when_is_a_function.

(** *** C06: exact values *)
Theorem C06_exact_value : forall c prog e m v,
  deployed c prog e -> tests c m -> view_of e c = Some v ->
  In (m_type m) [M_IP4_SADDR; M_IP4_DADDR; M_IP4_PROTO; M_IP6_SADDR; M_IP6_DADDR; M_ICMP_TYPE; M_ICMP_CODE;
                 M_ICMPV6_TYPE; M_ICMPV6_CODE; M_TCP_SPORT; M_TCP_DPORT; M_UDP_SPORT; M_UDP_DPORT; M_TCP_FLAGS] ->
  m_op m = OP_EQ ->
  forall w, drops_when c e prog w (present v (m_type m) && xorb (m_neg m) (bytes_eqb (fld v (m_type m)) (m_pay m))).
Proof. exact one_exact. Qed.
Print Assumptions C06_exact_value.

Example C06_case : one_case H_XDP [] (mkM M_IP4_DADDR OP_EQ false [192;168;7;7]) ex_pkt 3 0 1 /\
  one_case H_XDP [] (mkM M_IP4_DADDR OP_EQ true [192;168;7;7]) ex_pkt 3 0 2 /\
  one_case H_TC_EGRESS [] (mkM M_IP6_SADDR OP_EQ false (ex_a6 5)) (ex_udp6 0 (ex_a6 5) (ex_a6 6) [0;53] [0;54]) 3 0 2.
Proof. one_cases. Qed.

(** *** C07: networks, bit by bit *)
Theorem C07_network_prefix : forall c prog e m v,
  deployed c prog e -> tests c m -> view_of e c = Some v ->
  is_net (m_type m) = true -> m_op m = OP_EQ -> exists b,
    (forall w, drops_when c e prog w (present v (m_type m) && xorb (m_neg m) b)) /\
    (present v (m_type m) = true ->
      (b = true <-> same_prefix (net_plen (m_pay m)) (net_addr (addr_len (m_type m)) (m_pay m)) (fld v (m_type m)))).
Proof. exact one_net. Qed.
Print Assumptions C07_network_prefix.

Example C07_case : one_case H_XDP [] (mkM M_IP4_SNET OP_EQ false [9;0;0;0;10;100;0;0]) ex_pkt 3 0 1 /\
  one_case H_XDP [] (mkM M_IP4_SNET OP_EQ false [10;0;0;0;10;100;0;0]) ex_pkt 3 0 2 /\
  one_case H_XDP [] (mkM M_IP6_DNET OP_EQ true (127 :: 0 :: 0 :: 0 :: ex_a6 7 ++ [0;0;0;0])) (ex_udp6 0 (ex_a6 5) (ex_a6 6) [0;53] [0;54]) 3 0 2 /\
  one_case H_XDP [] (mkM M_IP6_DNET OP_EQ true (128 :: 0 :: 0 :: 0 :: ex_a6 7 ++ [0;0;0;0])) (ex_udp6 0 (ex_a6 5) (ex_a6 6) [0;53] [0;54]) 3 0 1.
Proof. one_cases. Qed.

(** *** C08: port ranges *)
Theorem C08_port_range : forall c prog e m v,
  deployed c prog e -> tests c m -> view_of e c = Some v ->
  In (m_type m) [M_TCP_SPORT; M_TCP_DPORT; M_UDP_SPORT; M_UDP_DPORT] -> m_op m = OP_RANGE ->
  let lo := le_dec (sub (m_pay m) 0 2) in
  let hi := le_dec (sub (m_pay m) 2 2) in
  let port := be_dec (fld v (m_type m)) in
  forall w, drops_when c e prog w (present v (m_type m) && xorb (m_neg m) ((lo <=? port) && (port <=? hi))).
Proof. exact one_range. Qed.
Print Assumptions C08_port_range.

Example C08_case : one_case H_XDP [] (mkM M_TCP_DPORT OP_RANGE false [187;1;188;1]) ex_pkt 3 0 1 /\
  one_case H_XDP [] (mkM M_TCP_DPORT OP_RANGE false [188;1;188;1]) ex_pkt 3 0 2 /\
  one_case H_XDP [] (mkM M_TCP_DPORT OP_RANGE true [188;1;255;255]) ex_pkt 3 0 1.
Proof. one_cases. Qed.

(** *** C09: TCP flags, flag by flag *)
Theorem C09_tcp_flags : forall c prog e m v,
  deployed c prog e -> tests c m -> view_of e c = Some v -> m_type m = M_TCP_FLAGS ->
  let flags := byte_at (v_h4 v) 13 in
  let wanted := byte_at (m_pay m) 0 in
  forall w, drops_when c e prog w (has_tcp v && xorb (m_neg m)
    (match m_op m with
     | OP_ANY => existsb (fun i => N.testbit flags i && N.testbit wanted i) [0;1;2;3;4;5;6;7]
     | OP_ALL => forallb (fun i => implb (N.testbit wanted i) (N.testbit flags i)) [0;1;2;3;4;5;6;7]
     | _ => flags =? wanted
     end)).
Proof. exact one_flags. Qed.
Print Assumptions C09_tcp_flags.

Example C09_case : one_case H_XDP [] (mkM M_TCP_FLAGS OP_ALL false [18]) (ex_tcp4 [1;1;1;1] [2;2;2;2] [0;1] [0;2] 26) 3 0 1 /\
  one_case H_XDP [] (mkM M_TCP_FLAGS OP_ALL false [18]) (ex_tcp4 [1;1;1;1] [2;2;2;2] [0;1] [0;2] 10) 3 0 2 /\
  one_case H_XDP [] (mkM M_TCP_FLAGS OP_ANY true [5]) (ex_tcp4 [1;1;1;1] [2;2;2;2] [0;1] [0;2] 26) 3 0 1.
Proof. one_cases. Qed.

(** *** C10: DSCP = the 6 high bits of the IPv4 TOS byte / of the IPv6 traffic class *)
Theorem C10_dscp : forall c prog e m v,
  deployed c prog e -> tests c m -> view_of e c = Some v ->
  m_type m = M_IP4_DSCP \/ m_type m = M_IP6_DSCP ->
  let dscp := match m_type m with
              | M_IP4_DSCP => byte_at (v_h3 v) 1 / 4
              | _ => (byte_at (v_h3 v) 0 mod 16) * 4 + byte_at (v_h3 v) 1 / 64
              end in
  forall w, drops_when c e prog w (present v (m_type m) && xorb (m_neg m) (dscp =? byte_at (m_pay m) 0)).
Proof. exact one_dscp. Qed.
Print Assumptions C10_dscp.

Example C10_case : one_case H_XDP [] (mkM M_IP4_DSCP OP_EQ false [2]) ex_pkt 3 0 1 /\
  one_case H_XDP [] (mkM M_IP6_DSCP OP_EQ false [46]) (ex_udp6 187 (ex_a6 5) (ex_a6 6) [0;53] [0;54]) 3 0 1.
Proof. one_cases. Qed.

(** *** C11: sets of tuples; [c] may have any number of sets sharing the map *)
Theorem C11_set_membership : forall c prog e m v s,
  deployed c prog e -> tests c m -> view_of e c = Some v ->
  m_type m = M_SET -> set_of (c_sets c) m = Some s ->
  forall w, drops_when c e prog w (forallb (present v) (s_key s) && xorb (m_neg m) (in_set v s)).
Proof. exact one_set. Qed.
Print Assumptions C11_set_membership.

Theorem C11_membership_is_exact : forall v s, s_trie s = false ->
  (in_set v s = true <-> In (concat (map (fld v) (s_key s))) (s_elems s)).
Proof. exact in_set_plain. Qed.
Print Assumptions C11_membership_is_exact.

Example C11_case :
  one_case H_XDP (c_sets ex_chain) (mkM M_SET OP_IN false [0;0;0;0]) ex_pkt 3 0 1 /\
  one_case H_XDP (c_sets ex_chain) (mkM M_SET OP_IN false [1;0;0;0]) ex_pkt 3 0 2 /\
  one_case H_XDP (c_sets ex_chain) (mkM M_SET OP_IN true [1;0;0;0]) ex_pkt 3 0 1.
Proof. one_cases. Qed.

(** *** C12: sets of networks accept the union of their networks *)
Theorem C12_network_set : forall c prog e m v s t,
  deployed c prog e -> tests c m -> view_of e c = Some v ->
  m_type m = M_SET -> set_of (c_sets c) m = Some s -> s_trie s = true -> s_key s = [t] ->
  exists b, (forall w, drops_when c e prog w (present v t && xorb (m_neg m) b)) /\
    (present v t = true ->
      (b = true <-> exists x, In x (s_elems s) /\ same_prefix (net_plen x) (net_addr (addr_len t) x) (fld v t))).
Proof.
  intros c prog e m v s t D T V M S Tr K. exists (in_set v s). split.
  - intros w. pose proof (one_set c prog e m v s D T V M S w) as X. rewrite K in X. cbn [forallb] in X. rewrite andb_true_r in X. exact X.
  - intros P. refine (in_set_nets v s t (fun N => net_field c prog e m v t D T V _ N P) _ Tr K P).
    { unfold types_of. rewrite M, S, K. left. reflexivity. }
    pose proof (wc_sets _ (dp_chain _ _ _ D)) as W. rewrite Forall_forall in W. apply W. eapply nth_error_In. exact S.
Qed.
Print Assumptions C12_network_set.

Definition ex_nets : bset := mkS [M_IP4_SNET] 8 true [[24;0;0;0;10;0;0;0]; [8;0;0;0;10;0;0;0]; [32;0;0;0;10;0;0;7]].
Definition ex_nets2 : bset := mkS [M_IP4_SNET] 8 true [[24;0;0;0;10;0;0;0]].
Example C12_case :
  one_case H_XDP [ex_nets; ex_nets2] (mkM M_SET OP_IN false [0;0;0;0]) (ex_tcp4 [10;9;9;9] [2;2;2;2] [0;1] [0;2] 26) 3 0 1 /\
  one_case H_XDP [ex_nets2; ex_nets] (mkM M_SET OP_IN false [1;0;0;0]) (ex_tcp4 [11;9;9;9] [2;2;2;2] [0;1] [0;2] 26) 3 0 2.
Proof. split; apply one_case_ok; vm_compute; reflexivity. Qed.

(** *** C40: probability.  Proved for thresholds below 2^31 (about 50%); missing: the
    others, for which the property fails (next theorem). *)
Theorem C40_probability_partial : forall c prog e m v t,
  deployed c prog e -> tests c m -> view_of e c = Some v -> m_type m = M_PROBABILITY ->
  prob_threshold (m_pay m) = Some t -> t < two31 ->
  forall w, drops_when c e prog w (xorb (m_neg m) (o_rand (e_or e) (w_draws w) <=? t)).
Proof.
  intros c prog e m v t D T V M P L w. destruct (one_prob c prog e m v D T V M w) as (t' & P' & X).
  rewrite P in P'. injection P' as <-. rewrite (proj2 (N.leb_gt _ _) L) in X. exact X.
Qed.
Print Assumptions C40_probability_partial.

(** Finding F2: above 50%, every draw is accepted (60.0 as a float is 00 00 70 42;
    its threshold is 2576980376; the draw is 3000000000). *)
Theorem C40_probability_refuted : exists c prog e m v t w,
  deployed c prog e /\ tests c m /\ view_of e c = Some v /\ m_type m = M_PROBABILITY /\ m_neg m = false /\
  prob_threshold (m_pay m) = Some t /\ t < o_rand (e_or e) (w_draws w) /\ drops_when c e prog w true.
Proof.
  set (m := mkM M_PROBABILITY OP_EQ false [0;0;112;66]). set (c := ex_one H_XDP [] m).
  assert (X : one_case H_XDP [] m ex_pkt 3 0 1) by (apply one_case_ok; vm_compute; reflexivity).
  destruct X as (prog & D & T & V & K).
  destruct (view_of (ex_env c ex_pkt 3 0) c) as [v|] eqn:EV; [|elim V; exact EV].
  exists c, prog, (ex_env c ex_pkt 3 0), m, v, 2576980377, w_nil.
  split; [exact D|]. split; [exact T|]. split; [exact EV|]. split; [reflexivity|]. split; [reflexivity|].
  split; [vm_compute; reflexivity|]. split; [reflexivity|].
  destruct (exec (ex_env c ex_pkt 3 0) prog w_nil) as [k w'| |] eqn:E; unfold c in E; rewrite E in K; try discriminate.
  injection K as ->. exists 1, w'. split; [exact E|reflexivity].
Qed.
Print Assumptions C40_probability_refuted.

(** Thresholds of the integer percentages (all 101 of them): floor(p * (2^32-1) / 100),
    up to the rounding of the double product, and non-decreasing. *)
Definition f32_of_pct (p : N) : list N :=
  match p with
  | 0 => [0;0;0;0]
  | _ => let e := N.log2 p in le_enc 4 ((127 + e) * 8388608 + (p * 2 ^ (23 - e) - 8388608))
  end.
Theorem C40_threshold_of_percentages : forall p, p <= 100 -> exists t,
  prob_threshold (f32_of_pct p) = Some t /\ t * 100 <= p * 4294967295 + 100 /\ p * 4294967295 < (t + 1) * 100 + 100.
Proof.
  assert (X : forallb (fun k => let p := N.of_nat k in match prob_threshold (f32_of_pct p) with
     | Some t => (t * 100 <=? p * 4294967295 + 100) && (p * 4294967295 <? (t + 1) * 100 + 100) | None => false end) (seq 0 101) = true)
    by (vm_compute; reflexivity).
  intros p Hp. rewrite forallb_forall in X. assert (I : In (N.to_nat p) (seq 0 101)) by (apply in_seq; Lia.lia).
  specialize (X _ I). cbv beta zeta in X. rewrite N2Nat.id in X. destruct (prob_threshold (f32_of_pct p)) as [t|]; [|discriminate X].
  exists t. rewrite andb_true_iff, N.leb_le, N.ltb_lt in X. split; auto.
Qed.
Print Assumptions C40_threshold_of_percentages.

(** *** C41: interface.  Proved for interface indices below 65536; missing: the others. *)
Theorem C41_iface_partial : forall c prog e m v,
  deployed c prog e -> tests c m -> view_of e c = Some v -> m_type m = M_IFACE -> v_if v < 65536 ->
  forall w, drops_when c e prog w (xorb (m_neg m) (v_if v =? le_dec (m_pay m))).
Proof.
  intros c prog e m v D T V M L w. pose proof (one_iface c prog e m v D T V M w) as X. rewrite N.mod_small in X by exact L. exact X.
Qed.
Print Assumptions C41_iface_partial.

Example C41_case : one_case H_XDP [] (mkM M_IFACE OP_EQ false [3;0;0;0]) ex_pkt 3 0 1.
Proof. apply one_case_ok; vm_compute; reflexivity. Qed.

(** Finding F3: interface 65539 is taken for interface 3. *)
Theorem C41_iface_refuted : exists c prog e m v w,
  deployed c prog e /\ tests c m /\ view_of e c = Some v /\ m_type m = M_IFACE /\ m_neg m = false /\
  v_if v <> le_dec (m_pay m) /\ drops_when c e prog w true.
Proof.
  set (m := mkM M_IFACE OP_EQ false [3;0;0;0]). set (c := ex_one H_XDP [] m).
  assert (X : one_case H_XDP [] m ex_pkt 65539 0 1) by (apply one_case_ok; vm_compute; reflexivity).
  destruct X as (prog & D & T & V & K).
  destruct (view_of (ex_env c ex_pkt 65539 0) c) as [v|] eqn:EV; [|elim V; exact EV].
  exists c, prog, (ex_env c ex_pkt 65539 0), m, v, w_nil.
  assert (I : v_if v = 65539) by (vm_compute in EV; injection EV as <-; reflexivity).
  split; [exact D|]. split; [exact T|]. split; [exact EV|]. split; [reflexivity|]. split; [reflexivity|]. split.
  - rewrite I. discriminate.
  - destruct (exec (ex_env c ex_pkt 65539 0) prog w_nil) as [k w'| |] eqn:E; unfold c in E; rewrite E in K; try discriminate.
    injection K as ->. exists 1, w'. split; [exact E|reflexivity].
Qed.
Print Assumptions C41_iface_refuted.

(** *** C42: protocol-independent ports.  Proved for packets whose port is not 0. *)
Theorem C42_ports_partial : forall c prog e m v,
  deployed c prog e -> tests c m -> view_of e c = Some v -> is_sock_addr (c_hook c) = false ->
  m_type m = M_SPORT \/ m_type m = M_DPORT -> be_dec (fld v (m_type m)) <> 0 ->
  let port := be_dec (fld v (m_type m)) in
  forall w, drops_when c e prog w ((has_tcp v || has_udp v) && xorb (m_neg m)
    (match m_op m with
     | OP_RANGE => (le_dec (sub (m_pay m) 0 2) <=? port) && (port <=? le_dec (sub (m_pay m) 2 2))
     | _ => bytes_eqb (fld v (m_type m)) (m_pay m)
     end)).
Proof. exact one_meta_port. Qed.
Print Assumptions C42_ports_partial.

Example C42_case : one_case H_XDP [] (mkM M_DPORT OP_RANGE false [187;1;188;1]) ex_pkt 3 0 1 /\
  one_case H_XDP [] (mkM M_SPORT OP_EQ true [0;53]) (ex_udp6 0 (ex_a6 5) (ex_a6 6) [0;53] [0;54]) 3 0 2.
Proof. split; apply one_case_ok; vm_compute; reflexivity. Qed.

(** Finding F8: a TCP packet from port 0 is not matched by "meta.sport eq 0". *)
Theorem C42_port_zero_refuted : exists c prog e m v w,
  deployed c prog e /\ tests c m /\ view_of e c = Some v /\ m_type m = M_SPORT /\ m_op m = OP_EQ /\ m_neg m = false /\
  has_tcp v = true /\ fld v M_SPORT = m_pay m /\ drops_when c e prog w false.
Proof.
  set (m := mkM M_SPORT OP_EQ false [0;0]). set (c := ex_one H_XDP [] m). set (pkt := ex_tcp4 [1;1;1;1] [2;2;2;2] [0;0] [0;2] 2).
  assert (X : one_case H_XDP [] m pkt 3 0 2) by (apply one_case_ok; vm_compute; reflexivity).
  destruct X as (prog & D & T & V & K).
  destruct (view_of (ex_env c pkt 3 0) c) as [v|] eqn:EV; [|elim V; exact EV].
  exists c, prog, (ex_env c pkt 3 0), m, v, w_nil.
  assert (I : has_tcp v = true /\ fld v M_SPORT = [0;0]) by (vm_compute in EV; injection EV as <-; split; reflexivity).
  destruct I as [I1 I2].
  split; [exact D|]. split; [exact T|]. split; [exact EV|]. do 3 (split; [reflexivity|]). split; [exact I1|]. split; [exact I2|].
  destruct (exec (ex_env c pkt 3 0) prog w_nil) as [k w'| |] eqn:E; unfold c in E; rewrite E in K; try discriminate.
  injection K as ->. exists 2, w'. split; [exact E|reflexivity].
Qed.
Print Assumptions C42_port_zero_refuted.
