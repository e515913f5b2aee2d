(** Matchers, all types (proofs only). *)
From Coq Require Import NArith ZArith List Bool Lia Arith.
From Verif Require Import Bytes Types World BpfModel GenModel PktSpec Wf Frag BytesFacts NetFacts StepFacts
  SwichFacts SetFacts MatcherFacts MatcherFacts2 MatcherFacts3 MatcherFacts4 MatcherFacts5 MatcherFacts6.
Import ListNotations.
Local Open Scope N_scope.

Definition matched (e : env) (c : chain) (v : view) (m : matcher) (w : world) : bool * world :=
  if applies Generated v (m_type m) then match1 Generated prob_threshold (e_or e) (c_sets c) v m w else (false, w).

Section M.
  Variables (e : env) (c : chain) (v : view) (k0 : stack).
  Hypothesis Hr : ready e c v k0.
  Hypothesis Wsets : Forall wf_set (c_sets c).
  Hypothesis Nsets : (Z.of_nat (length (c_sets c)) < 262144)%Z.

  Ltac gen_is H Et :=
    unfold gen_matcher, gen_packet_matcher, gen_meta in H; rewrite Et in H;
    pose proof (rd_nsa _ _ _ _ Hr) as NSA;
    destruct (hook_flavor (c_hook c)); try discriminate; try (exfalso; apply NSA; reflexivity); exact H.

  Ltac ops Op Eo :=
    match goal with m : matcher |- _ => destruct (m_op m) eqn:Eo end;
    cbn in Op; try (destruct Op; discriminate); destruct Op as [NO Op]; try (exfalso; apply NO; reflexivity); injection Op as Op; symmetry in Op.

  Lemma yields_packet_matcher s m l : inv v k0 s -> wf_matcher m -> key_fits c m ->
    (forall t, In t (types_of (c_sets c) m) -> there v t) ->
    (m_type m = M_IP6_NEXTHDR -> c_nexthdr c = true) ->
    gen_matcher c m = Ok l ->
    yields e v k0 l s (fst (matched e c v m (wd s))) (snd (matched e c v m (wd s))).
  Proof.
    intros Hi Wm Qm Hg Hnh H.
    pose proof (wm_bytes _ Wm) as Bp. pose proof (wm_op _ Wm) as Op.
    pose proof (wm_net _ Wm) as Nt.
    unfold key_fits in Qm. unfold types_of in Hg. unfold matched, match1, cond, below, applies.
    rewrite (rd_nosock _ _ _ _ Hr). pose proof (Rdy_pkt _ _ _ _ Hr) as HR.
    destruct (m_type m) eqn:Et;
      try (assert (Tt := Hg _ (or_introl eq_refl)));
      try match type of Tt with there _ ?t =>
            first [ assert (Pt : present v t = true) by (apply there_present; [reflexivity|discriminate|exact Tt]); rewrite Pt
                  | idtac ] end.
    - (* iface *) ops Op Eo. eapply yields_iface; eauto. gen_is H Et.
    - (* l3_proto *) ops Op Eo. eapply yields_l3_proto; eauto. gen_is H Et.
    - (* l4_proto *) ops Op Eo. eapply yields_l4_proto; eauto. gen_is H Et.
    - (* probability *)
      assert (G : gen_probability m = Ok l) by gen_is H Et.
      destruct (prob_threshold (m_pay m)) as [t|] eqn:Ep.
      + eapply yields_probability; eauto. exact (trunc_bound _ _ Ep).
      + unfold gen_probability in G. rewrite Ep in G. discriminate.
    - (* sport *)
      assert (G : gen_meta_port m = Ok l) by gen_is H Et.
      change (present v M_SPORT) with (is_port v).
      assert (O : m_op m = OP_EQ /\ length (m_pay m) = 2%nat \/ m_op m = OP_RANGE /\ length (m_pay m) = 4%nat).
      { ops Op Eo; auto. }
      pose proof (yields_metaport e c v k0 s m l Hr Hi (or_introl Et) G Bp O) as Y. rewrite Et in Y.
      destruct (is_port v && _); [|exact Y].
      destruct O as [[-> _]|[-> _]] in Y |- *; exact Y.
    - (* dport *)
      assert (G : gen_meta_port m = Ok l) by gen_is H Et.
      change (present v M_DPORT) with (is_port v).
      assert (O : m_op m = OP_EQ /\ length (m_pay m) = 2%nat \/ m_op m = OP_RANGE /\ length (m_pay m) = 4%nat).
      { ops Op Eo; auto. }
      pose proof (yields_metaport e c v k0 s m l Hr Hi (or_intror Et) G Bp O) as Y. rewrite Et in Y.
      destruct (is_port v && _); [|exact Y].
      destruct O as [[-> _]|[-> _]] in Y |- *; exact Y.
    - (* mark *) ops Op Eo.
      unfold gen_matcher in H. rewrite Et in H. destruct (hook_flavor (c_hook c)) eqn:Ef; try discriminate.
      + destruct (cmp_value m (m_pay m) 4 R1) as [b|] eqn:Eb; [|discriminate]. cbn [bind] in H.
        apply Ok_inj in H; subst l. eapply yields_mark_skb; eauto. rewrite Ef; reflexivity.
      + destruct (cmp_value m (m_pay m) 4 R1) as [b|] eqn:Eb; [|discriminate]. cbn [bind] in H.
        apply Ok_inj in H; subst l. eapply yields_mark_nf; eauto.
      + unfold gen_packet_matcher in H. rewrite Et in H. discriminate.
      + destruct (cmp_value m (m_pay m) 4 R1) as [b|] eqn:Eb; [|discriminate]. cbn [bind] in H.
        apply Ok_inj in H; subst l. eapply yields_mark_skb; eauto. rewrite Ef; reflexivity.
      + exfalso. apply (rd_nsa _ _ _ _ Hr). exact Ef.
    - (* flow_hash *)
      assert (O : m_op m = OP_EQ /\ length (m_pay m) = 4%nat \/ m_op m = OP_RANGE /\ length (m_pay m) = 8%nat).
      { ops Op Eo; auto. }
      assert (F : hook_flavor (c_hook c) = F_TC).
      { unfold gen_matcher, gen_packet_matcher in H. rewrite Et in H. pose proof (rd_nsa _ _ _ _ Hr) as NSA.
        destruct (hook_flavor (c_hook c)); try discriminate; try reflexivity. congruence. }
      pose proof (yields_flow_hash e c v k0 s m l Hr Hi F Et H Bp O) as Y.
      destruct O as [[-> _]|[-> _]] in Y |- *; exact Y.
    - (* flow_probability *)
      assert (G : gen_flow_probability m = Ok l) by gen_is H Et.
      destruct (prob_threshold (m_pay m)) as [t|] eqn:Ep.
      + pose proof (yields_flow_prob e c v k0 s m l t Hr Hi G Ep) as Y.
        destruct (present v M_FLOW_PROBABILITY); exact Y.
      + unfold gen_flow_probability in G. rewrite Ep in G. discriminate.
    - ops Op Eo. eapply (yields_load_cmp e c v k0 s m M_IP4_SADDR); eauto; try discriminate. gen_is H Et.
    - ops Op Eo.
      assert (G : gen_net m (meta_of M_IP4_SNET) = Ok l) by gen_is H Et.
      eapply yields_eq; [eapply (yields_net e c v k0 s m M_IP4_SNET); eauto; try discriminate; left; auto|].
      rewrite <- (fieldb_fld v M_IP4_SNET) by discriminate.
      rewrite (fieldb_length e c v k0 M_IP4_SNET Hr Tt) by discriminate. reflexivity.
    - ops Op Eo. eapply (yields_load_cmp e c v k0 s m M_IP4_DADDR); eauto; try discriminate. gen_is H Et.
    - ops Op Eo.
      assert (G : gen_net m (meta_of M_IP4_DNET) = Ok l) by gen_is H Et.
      eapply yields_eq; [eapply (yields_net e c v k0 s m M_IP4_DNET); eauto; try discriminate; left; auto|].
      rewrite <- (fieldb_fld v M_IP4_DNET) by discriminate.
      rewrite (fieldb_length e c v k0 M_IP4_DNET Hr Tt) by discriminate. reflexivity.
    - ops Op Eo. eapply (yields_load_cmp e c v k0 s m M_IP4_PROTO); eauto; try discriminate. gen_is H Et.
    - ops Op Eo. eapply (yields_dscp4 e c v k0 s m); eauto. gen_is H Et.
    - ops Op Eo. eapply (yields_load_cmp e c v k0 s m M_IP6_SADDR); eauto; try discriminate. gen_is H Et.
    - ops Op Eo.
      assert (G : gen_net m (meta_of M_IP6_SNET) = Ok l) by gen_is H Et.
      eapply yields_eq; [eapply (yields_net e c v k0 s m M_IP6_SNET); eauto; try discriminate; right; auto|].
      rewrite <- (fieldb_fld v M_IP6_SNET) by discriminate.
      rewrite (fieldb_length e c v k0 M_IP6_SNET Hr Tt) by discriminate. reflexivity.
    - ops Op Eo. eapply (yields_load_cmp e c v k0 s m M_IP6_DADDR); eauto; try discriminate. gen_is H Et.
    - ops Op Eo.
      assert (G : gen_net m (meta_of M_IP6_DNET) = Ok l) by gen_is H Et.
      eapply yields_eq; [eapply (yields_net e c v k0 s m M_IP6_DNET); eauto; try discriminate; right; auto|].
      rewrite <- (fieldb_fld v M_IP6_DNET) by discriminate.
      rewrite (fieldb_length e c v k0 M_IP6_DNET Hr Tt) by discriminate. reflexivity.
    - ops Op Eo. eapply (yields_nexthdr e c v k0 s m); eauto. gen_is H Et.
    - ops Op Eo. eapply (yields_dscp6 e c v k0 s m); eauto. gen_is H Et.
    - assert (G : gen_port m (meta_of M_TCP_SPORT) = Ok l) by gen_is H Et.
      assert (O : m_op m = OP_EQ /\ length (m_pay m) = 2%nat \/ m_op m = OP_RANGE /\ length (m_pay m) = 4%nat).
      { ops Op Eo; auto. }
      assert (Y := yields_port e c v k0 s m M_TCP_SPORT l Hr Hi Tt ltac:(discriminate) eq_refl G Bp O).
      destruct O as [[-> _]|[-> _]] in Y |- *; exact Y.
    - assert (G : gen_port m (meta_of M_TCP_DPORT) = Ok l) by gen_is H Et.
      assert (O : m_op m = OP_EQ /\ length (m_pay m) = 2%nat \/ m_op m = OP_RANGE /\ length (m_pay m) = 4%nat).
      { ops Op Eo; auto. }
      assert (Y := yields_port e c v k0 s m M_TCP_DPORT l Hr Hi Tt ltac:(discriminate) eq_refl G Bp O).
      destruct O as [[-> _]|[-> _]] in Y |- *; exact Y.
    - assert (G : gen_tcp_flags m (meta_of M_TCP_FLAGS) = Ok l) by gen_is H Et.
      assert (O : (m_op m = OP_EQ \/ m_op m = OP_ANY \/ m_op m = OP_ALL) /\ length (m_pay m) = 1%nat).
      { ops Op Eo; auto. }
      assert (Y := yields_tcp_flags e c v k0 s m M_TCP_FLAGS l Hr Hi Tt ltac:(discriminate) eq_refl G Bp (proj2 O)).
      destruct O as [[->|[->| ->]] _] in Y |- *; exact Y.
    - assert (G : gen_port m (meta_of M_UDP_SPORT) = Ok l) by gen_is H Et.
      assert (O : m_op m = OP_EQ /\ length (m_pay m) = 2%nat \/ m_op m = OP_RANGE /\ length (m_pay m) = 4%nat).
      { ops Op Eo; auto. }
      assert (Y := yields_port e c v k0 s m M_UDP_SPORT l Hr Hi Tt ltac:(discriminate) eq_refl G Bp O).
      destruct O as [[-> _]|[-> _]] in Y |- *; exact Y.
    - assert (G : gen_port m (meta_of M_UDP_DPORT) = Ok l) by gen_is H Et.
      assert (O : m_op m = OP_EQ /\ length (m_pay m) = 2%nat \/ m_op m = OP_RANGE /\ length (m_pay m) = 4%nat).
      { ops Op Eo; auto. }
      assert (Y := yields_port e c v k0 s m M_UDP_DPORT l Hr Hi Tt ltac:(discriminate) eq_refl G Bp O).
      destruct O as [[-> _]|[-> _]] in Y |- *; exact Y.
    - ops Op Eo. eapply (yields_load_cmp e c v k0 s m M_ICMP_TYPE); eauto; try discriminate. gen_is H Et.
    - ops Op Eo. eapply (yields_load_cmp e c v k0 s m M_ICMP_CODE); eauto; try discriminate. gen_is H Et.
    - ops Op Eo. eapply (yields_load_cmp e c v k0 s m M_ICMPV6_TYPE); eauto; try discriminate. gen_is H Et.
    - ops Op Eo. eapply (yields_load_cmp e c v k0 s m M_ICMPV6_CODE); eauto; try discriminate. gen_is H Et.
    - (* set *)
      destruct Op as [Op Lp]. rewrite Op. cbn [present fst snd].
      assert (G : gen_set c m = Ok l) by gen_is H Et.
      destruct (set_of (c_sets c) m) as [st|] eqn:Es.
      + eapply yields_set; eauto.
      + unfold gen_set in G. rewrite Es in G. discriminate.
  Qed.
End M.
