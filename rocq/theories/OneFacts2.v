(** One-matcher chains: matcher classes (proofs only), and fixtures. *)
From Coq Require Import NArith ZArith List Bool Lia Arith.
From Verif Require Import Bytes Types World BpfModel GenModel PktSpec ViewSpec Wf ViewModel HeadFacts5 ProgFacts ProgThm
  BytesFacts NetFacts FitsFacts EvalSpec EvalFacts Deploy DeployFacts ChainSpec ChainFacts OneFacts WfDec Fixtures.
Import ListNotations.
Local Open Scope N_scope.

Definition exact_types : list mtype :=
  [M_IP4_SADDR; M_IP4_DADDR; M_IP4_PROTO; M_IP6_SADDR; M_IP6_DADDR; M_ICMP_TYPE; M_ICMP_CODE; M_ICMPV6_TYPE; M_ICMPV6_CODE;
   M_TCP_SPORT; M_TCP_DPORT; M_UDP_SPORT; M_UDP_DPORT; M_TCP_FLAGS].
Definition port_types : list mtype := [M_TCP_SPORT; M_TCP_DPORT; M_UDP_SPORT; M_UDP_DPORT].

Section P.
  Variables (c : chain) (prog : list insn) (e : env) (m : matcher) (v : view).
  Hypothesis Dp : deployed c prog e.
  Hypothesis T : tests c m.
  Hypothesis Hv : view_of e c = Some v.

  (** The type of [m] is not available on socket hooks. *)
  Lemma one_packets : m_type m <> M_SET -> (is_sock_addr (c_hook c) = true -> unsupported (m_type m) (c_hook c) = true) ->
    is_sock_addr (c_hook c) = false.
  Proof.
    intros N H. destruct (is_sock_addr (c_hook c)) eqn:S; auto. specialize (H eq_refl).
    rewrite (one_supported c prog e Dp m (m_type m) T S) in H; [discriminate H|].
    unfold types_of. destruct (m_type m); try (left; reflexivity). congruence.
  Qed.

  Lemma view_nosock : is_sock_addr (c_hook c) = false -> v_sock v = None.
  Proof. intros NS. apply (vo_sock _ _ (view_viewok c prog e v Dp Hv NS)). Qed.

  Lemma one_exact : In (m_type m) exact_types -> m_op m = OP_EQ -> forall w,
    drops_when c e prog w (present v (m_type m) && xorb (m_neg m) (bytes_eqb (fld v (m_type m)) (m_pay m))).
  Proof.
    intros I O w. pose proof (one_plain c prog e m v Dp T Hv w) as X. unfold cond in X. rewrite O in X.
    unfold exact_types in I. cbn [In] in I. destruct (m_type m) eqn:E; try (exfalso; intuition discriminate);
      apply X; try discriminate; reflexivity.
  Qed.

  Lemma one_range : In (m_type m) port_types -> m_op m = OP_RANGE -> forall w,
    drops_when c e prog w (present v (m_type m) && xorb (m_neg m)
      ((le_dec (sub (m_pay m) 0 2) <=? be_dec (fld v (m_type m))) && (be_dec (fld v (m_type m)) <=? le_dec (sub (m_pay m) 2 2)))).
  Proof.
    intros I O w. pose proof (one_plain c prog e m v Dp T Hv w) as X. unfold cond in X. rewrite O in X.
    unfold port_types in I. cbn [In] in I. destruct (m_type m) eqn:E; try (exfalso; intuition discriminate);
      apply X; try discriminate; reflexivity.
  Qed.

  Lemma one_flags : m_type m = M_TCP_FLAGS -> forall w,
    drops_when c e prog w (has_tcp v && xorb (m_neg m)
      (match m_op m with
       | OP_ANY => existsb (fun i => N.testbit (byte_at (v_h4 v) 13) i && N.testbit (byte_at (m_pay m) 0) i) [0;1;2;3;4;5;6;7]
       | OP_ALL => forallb (fun i => implb (N.testbit (byte_at (m_pay m) 0) i) (N.testbit (byte_at (v_h4 v) 13) i)) [0;1;2;3;4;5;6;7]
       | _ => byte_at (v_h4 v) 13 =? byte_at (m_pay m) 0
       end)).
  Proof.
    intros E w. pose proof (one_plain c prog e m v Dp T Hv w) as X. rewrite E in X.
    specialize (X ltac:(discriminate) ltac:(discriminate) ltac:(discriminate) eq_refl). cbn [present] in X.
    destruct (has_tcp v) eqn:HT; cbn [andb] in *; [|exact X].
    pose proof (one_wf c prog e m Dp T) as W. pose proof (wm_op _ W) as WO. rewrite E in WO. destruct WO as [_ WO].
    pose proof (view_viewok c prog e v Dp Hv (one_packets ltac:(rewrite E; discriminate) ltac:(intros S; rewrite E; exact S))) as VO. unfold has_tcp in HT. apply N.eqb_eq in HT.
    assert (L4 : length (v_h4 v) = 20%nat) by (destruct (vo_l4 _ _ VO) as [Y _]; [rewrite HT; discriminate|rewrite HT in Y; exact Y]).
    assert (F : fld v M_TCP_FLAGS = [byte_at (v_h4 v) 13]) by (cbn [fld]; apply sub_1; lia).
    assert (LP : length (m_pay m) = 1%nat) by (destruct (m_op m); cbv [ops_size] in WO; congruence).
    destruct (m_pay m) as [|q [|]] eqn:EP; try discriminate. cbn [byte_at nth].
    assert (Bx : byte (byte_at (v_h4 v) 13)) by (apply byte_at_byte, (vo_b4 _ _ VO)).
    assert (Bq : byte q) by (pose proof (wm_bytes _ W) as Y; rewrite EP in Y; inversion Y; auto).
    unfold cond in X. rewrite E, EP in X. revert X. generalize dependent (byte_at (v_h4 v) 13). intros x F Bx X.
    assert (TB : forall a i, byte a -> 8 <= i -> N.testbit a i = false).
    { clear. intros a i Ha Hi. destruct (N.eq_dec a 0) as [->|Hz]; [apply N.bits_0|].
      apply N.bits_above_log2. assert (N.log2 a < 8) by (apply N.log2_lt_pow2; unfold byte in *; lia). lia. }
    assert (IN : forall i, i < 8 -> In i [0;1;2;3;4;5;6;7]).
    { intros i Hi. assert (i = 0 \/ i = 1 \/ i = 2 \/ i = 3 \/ i = 4 \/ i = 5 \/ i = 6 \/ i = 7) as Y by lia. cbn [In]. intuition. }
    destruct (m_op m) eqn:O; try discriminate.
    - rewrite F in X. cbn [bytes_eqb] in X. rewrite andb_true_r in X. exact X.
    - rewrite F in X. cbn [le_dec] in X. rewrite !N.mul_0_r, !N.add_0_r in X.
      match goal with |- drops_when _ _ _ _ (xorb _ ?B) => replace B with (negb (N.land x q =? 0)) end; [exact X|].
      apply eq_true_iff_eq. rewrite negb_true_iff, N.eqb_neq, existsb_exists. split.
      + intros NZ. pose proof (N.bit_log2 (N.land x q) NZ) as Y. rewrite N.land_spec in Y. exists (N.log2 (N.land x q)). split; auto.
        apply IN. apply andb_true_iff in Y as [Y _]. destruct (N.lt_ge_cases (N.log2 (N.land x q)) 8); auto.
        rewrite (TB x) in Y; auto; discriminate.
      + intros (i & _ & Y) Z. rewrite <- N.land_spec, Z, N.bits_0 in Y. discriminate.
    - rewrite F in X. cbn [le_dec] in X. rewrite !N.mul_0_r, !N.add_0_r in X.
      match goal with |- drops_when _ _ _ _ (xorb _ ?B) => replace B with (N.land x q =? q) end; [exact X|].
      apply eq_true_iff_eq. rewrite N.eqb_eq, forallb_forall. split.
      + intros Z i _. rewrite <- Z, N.land_spec. destruct (N.testbit x i), (N.testbit q i); reflexivity.
      + intros Y. apply N.bits_inj. intros i. rewrite N.land_spec. destruct (N.lt_ge_cases i 8) as [Hi|Hi].
        * specialize (Y i (IN i Hi)). destruct (N.testbit x i), (N.testbit q i); auto; discriminate.
        * rewrite (TB q i), andb_false_r by auto. reflexivity.
  Qed.

  Lemma one_dscp : m_type m = M_IP4_DSCP \/ m_type m = M_IP6_DSCP -> forall w,
    drops_when c e prog w (present v (m_type m) && xorb (m_neg m)
      (match m_type m with
       | M_IP4_DSCP => byte_at (v_h3 v) 1 / 4
       | _ => (byte_at (v_h3 v) 0 mod 16) * 4 + byte_at (v_h3 v) 1 / 64
       end =? byte_at (m_pay m) 0)).
  Proof.
    intros E w. pose proof (one_plain c prog e m v Dp T Hv w) as X.
    assert (X' := X ltac:(destruct E as [->| ->]; discriminate) ltac:(destruct E as [->| ->]; discriminate)
                   ltac:(destruct E as [->| ->]; discriminate) ltac:(destruct E as [->| ->]; reflexivity)). clear X. rename X' into X.
    destruct (present v (m_type m)) eqn:P; cbn [andb] in *; [|exact X].
    pose proof (one_wf c prog e m Dp T) as W. pose proof (wm_op _ W) as WO.
    pose proof (view_viewok c prog e v Dp Hv (one_packets ltac:(destruct E as [->| ->]; discriminate) ltac:(intros S; destruct E as [->| ->]; exact S))) as VO.
    assert (O : m_op m = OP_EQ /\ length (m_pay m) = 1%nat).
    { destruct E as [E|E]; rewrite E in WO; destruct WO as [_ WO]; destruct (m_op m); cbv [ops_size] in WO; split; congruence. }
    destruct O as [O LP]. destruct (m_pay m) as [|q [|]] eqn:EP; try discriminate. cbn [byte_at nth].
    unfold cond in X. rewrite O, EP in X. cbn [le_dec] in X. rewrite N.mul_0_r, N.add_0_r in X.
    destruct E as [E|E]; rewrite E in *; [exact X|]. cbn [present] in P. unfold has_ip6 in P. apply N.eqb_eq in P.
    pose proof (vo_n6 _ _ VO P) as L. rewrite sub_2 in X by lia. change (0 + 1)%nat with 1%nat in X.
    pose proof (byte_at_byte _ 0 (vo_b3 _ _ VO)) as B0. pose proof (byte_at_byte _ 1 (vo_b3 _ _ VO)) as B1. unfold byte in *.
    revert X B0 B1. generalize (byte_at (v_h3 v) 0), (byte_at (v_h3 v) 1). intros a b X Ha Hb.
    replace ((be_dec [a; b] / 64) mod 64) with (a mod 16 * 4 + b / 64) in X; [exact X|].
    unfold be_dec. cbn [be_acc]. change (0 * 256 + a) with a.
    replace (a * 256 + b) with (b + a * 4 * 64) by lia. rewrite N.div_add by discriminate.
    replace (a * 4) with ((a mod 16) * 4 + (a / 16) * 64).
    - rewrite N.add_assoc, N.mod_add by discriminate. transitivity (b / 64 + a mod 16 * 4); [apply N.add_comm|symmetry; apply N.mod_small].
      pose proof (N.mod_lt a 16 ltac:(discriminate)). assert (b / 64 < 4) by (apply N.div_lt_upper_bound; [discriminate|lia]). lia.
    - pose proof (N.div_mod a 16 ltac:(discriminate)). lia.
  Qed.

  (** meta.sport / meta.dport on a packet whose port is not zero. *)
  Lemma one_meta_port : is_sock_addr (c_hook c) = false -> m_type m = M_SPORT \/ m_type m = M_DPORT -> be_dec (fld v (m_type m)) <> 0 -> forall w,
    drops_when c e prog w ((has_tcp v || has_udp v) && xorb (m_neg m)
      (match m_op m with
       | OP_RANGE => (le_dec (sub (m_pay m) 0 2) <=? be_dec (fld v (m_type m))) && (be_dec (fld v (m_type m)) <=? le_dec (sub (m_pay m) 2 2))
       | _ => bytes_eqb (fld v (m_type m)) (m_pay m)
       end)).
  Proof.
    intros NS E N w. pose proof (one_steady c prog e m v Dp T Hv w) as X. pose proof (view_nosock NS) as VS.
    assert (X' := X ltac:(destruct E as [->| ->]; discriminate) ltac:(destruct E as [->| ->]; discriminate)). clear X. rename X' into X.
    unfold accepts in X. rewrite types_other in X by (destruct E as [->| ->]; discriminate). cbn [forallb] in X. rewrite andb_true_r in X.
    pose proof (one_wf c prog e m Dp T) as W. pose proof (wm_op _ W) as WO. apply N.eqb_neq in N.
    unfold cond in X. destruct E as [E|E]; rewrite E in *; cbn [applies present] in X; rewrite VS, N in X; cbn [negb] in X; rewrite andb_true_r in X;
      destruct WO as [WI WO]; destruct (m_op m); cbv [ops_size] in WO; try discriminate WO; exact X.
  Qed.

  (** Without the hypothesis on the port: the code's own rule. *)
  Lemma one_meta_port0 : is_sock_addr (c_hook c) = false -> m_type m = M_SPORT \/ m_type m = M_DPORT -> be_dec (fld v (m_type m)) = 0 -> forall w,
    drops_when c e prog w false.
  Proof.
    intros NS E Z w. pose proof (one_steady c prog e m v Dp T Hv w) as X. pose proof (view_nosock NS) as VS.
    assert (X' := X ltac:(destruct E as [->| ->]; discriminate) ltac:(destruct E as [->| ->]; discriminate)). clear X. rename X' into X.
    unfold accepts in X. rewrite types_other in X by (destruct E as [->| ->]; discriminate). cbn [forallb] in X. rewrite andb_true_r in X.
    destruct E as [E|E]; rewrite E in *; cbn [applies] in X; rewrite VS, Z in X; change (negb (0 =? 0)) with false in X;
      rewrite andb_false_r in X; exact X.
  Qed.

  (** On socket hooks: whatever the transport protocol. *)
  Lemma one_sock_port : is_sock_addr (c_hook c) = true -> m_type m = M_DPORT -> forall w,
    drops_when c e prog w (xorb (m_neg m)
      (match m_op m with
       | OP_RANGE => (le_dec (sub (m_pay m) 0 2) <=? be_dec (fld v M_DPORT)) && (be_dec (fld v M_DPORT) <=? le_dec (sub (m_pay m) 2 2))
       | _ => bytes_eqb (fld v M_DPORT) (m_pay m)
       end)).
  Proof.
    intros S E w. pose proof (one_steady c prog e m v Dp T Hv w) as X. rewrite E in X.
    specialize (X ltac:(discriminate) ltac:(discriminate)).
    unfold accepts in X. rewrite types_other in X by (rewrite E; discriminate). cbn [forallb] in X. rewrite andb_true_r in X.
    pose proof (one_wf c prog e m Dp T) as W. pose proof (wm_op _ W) as WO. rewrite E in WO, X.
    assert (VS : applies Generated v M_DPORT = true) by (rewrite (view_sock c e v Hv S); reflexivity).
    rewrite VS in X. cbn [andb] in X. unfold cond in X. rewrite E in X.
    destruct WO as [WI WO]; destruct (m_op m); cbv [ops_size] in WO; try discriminate WO; exact X.
  Qed.

  Lemma one_iface : m_type m = M_IFACE -> forall w,
    drops_when c e prog w (xorb (m_neg m) (v_if v mod 65536 =? le_dec (m_pay m))).
  Proof.
    intros E w. pose proof (one_plain c prog e m v Dp T Hv w) as X. rewrite E in X.
    specialize (X ltac:(discriminate) ltac:(discriminate) ltac:(discriminate) eq_refl). cbn [present andb] in X.
    unfold cond in X. rewrite E in X.
    pose proof (wm_op _ (one_wf c prog e m Dp T)) as WO. rewrite E in WO. destruct WO as [WI WO].
    destruct (m_op m); cbv [ops_size] in WO; try discriminate WO. exact X.
  Qed.

  Lemma one_prob : m_type m = M_PROBABILITY -> forall w, exists t, prob_threshold (m_pay m) = Some t /\
    drops_when c e prog w (xorb (m_neg m) ((two31 <=? t) || (o_rand (e_or e) (w_draws w) <=? t))).
  Proof.
    intros E w. destruct T as [Tp (r & Hr & Hm & Hd & _)]. pose proof (one_gen c prog e m v Dp T Hv w r Hr Hm) as X.
    assert (TH : exists t, prob_threshold (m_pay m) = Some t).
    { clear X. destruct (prob_threshold (m_pay m)) as [t|] eqn:P; [eauto|exfalso].
      pose proof (dp_gen _ _ _ Dp) as G. unfold gen_program in G. rewrite Hr in G.
      destruct (gen_head c) as [h|]; [|discriminate]. cbn [bind gen_rules] in G.
      unfold gen_rule in G. rewrite Hd, Hm in G. cbn [gen_matchers] in G.
      assert (GM : exists x, gen_matcher c m = Er x).
      { unfold gen_matcher, gen_packet_matcher, sa_matcher. rewrite E. unfold gen_meta. rewrite E. unfold gen_probability. rewrite P. destruct (hook_flavor _); eexists; reflexivity. }
      destruct GM as [x GM]. destruct (gen_guards _ _ _); cbn [bind] in G; [|discriminate]. rewrite GM in G. discriminate. }
    destruct TH as [t Ht]. exists t. split; auto.
    unfold rule_matches in X. rewrite Hm in X. unfold guards in X. cbn [forallb] in X. unfold types_of in X. rewrite E in X.
    cbn [forallb late present orb andb match_all] in X. rewrite E in X. unfold match1 in X. rewrite E in X. cbn [applies present] in X.
    unfold below in X. rewrite Ht in X. cbn [draw_ok] in X.
    destruct (xorb _ _); exact X.
  Qed.
End P.
