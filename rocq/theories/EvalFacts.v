(** Facts about the packet specification (proofs only). *)
From Coq Require Import NArith ZArith List Bool Lia Arith.
From Verif Require Import Bytes Types World PktSpec EvalSpec GenModel Wf.
Import ListNotations.
Local Open Scope N_scope.

Lemma dialects_applies v m : quirk_free v m -> applies Generated v (m_type m) = applies Documented v (m_type m).
Proof.
  unfold quirk_free, applies. destruct (m_type m); auto; intros H; cbn [present]; destruct (v_sock v); auto;
    destruct (has_tcp v || has_udp v) eqn:E; auto; cbn [andb];
    specialize (H eq_refl); rewrite (proj2 (N.eqb_neq _ _) H); reflexivity.
Qed.

Lemma dialects_match1 or sets v m w : quirk_free v m ->
  match1 Generated prob_threshold or sets v m w = match1 Documented prob_threshold or sets v m w.
Proof.
  unfold match1, quirk_free. destruct (m_type m) eqn:E; intros H; try (unfold cond; rewrite E; reflexivity); try reflexivity.
  - unfold cond. rewrite E. destruct (m_op m); auto. cbn [iface_seen]. rewrite N.mod_small by exact H. reflexivity.
  - unfold below. destruct (prob_threshold (m_pay m)) as [t|]; auto. cbn [draw_ok].
    rewrite (proj2 (N.leb_gt _ _) (H t eq_refl)). reflexivity.
Qed.

Lemma dialects_match_all or sets v ms : (forall m, In m ms -> quirk_free v m) -> forall w,
  match_all Generated prob_threshold or sets v ms w = match_all Documented prob_threshold or sets v ms w.
Proof.
  induction ms as [|m ms IH]; intros Q w; cbn [match_all]; auto.
  rewrite dialects_applies, dialects_match1 by (apply Q; left; auto).
  destruct (applies Documented v (m_type m)); auto. destruct (match1 _ _ _ _ _ _ _) as [[] w']; auto.
  apply IH. intros m' H. apply Q. right. auto.
Qed.

Lemma dialects_rules or sets v rs : (forall r m, In r rs -> In m (r_matchers r) -> quirk_free v m) -> forall w,
  eval_rules Generated prob_threshold or sets v rs w = eval_rules Documented prob_threshold or sets v rs w.
Proof.
  induction rs as [|r rs IH]; intros Q w; cbn [eval_rules]; auto.
  assert (IH' := fun w => IH (fun r0 m H => Q r0 m (or_intror H)) w). clear IH.
  destruct (r_disabled r); auto. unfold rule_matches. rewrite dialects_match_all by (intros m; apply Q; left; auto).
  destruct (guards sets v (r_matchers r)); [|apply IH'].
  destruct (match_all _ _ _ _ _ _ _) as [[] w']; [|apply IH']. destruct (decision_of r); auto.
Qed.

Lemma dialects_chain or sets v p rs w : (forall r m, In r rs -> In m (r_matchers r) -> quirk_free v m) ->
  eval_chain Generated prob_threshold or sets v p rs w = eval_chain Documented prob_threshold or sets v p rs w.
Proof. intros Q. unfold eval_chain. rewrite dialects_rules by auto. reflexivity. Qed.

(** ** Steady rules *)
Section S.
  Variables (D : dialect) (thr : list N -> option N) (or : oracle) (sets : list bset) (v : view).
  Hypothesis Ws : Forall wf_set sets.

  Lemma types_late m t : In t (types_of sets m) -> m_type m = M_SET -> late t = false.
  Proof.
    unfold types_of. intros H E. rewrite E in H. destruct (set_of sets m) as [s|] eqn:Es; [|destruct H].
    assert (W : wf_set s) by (rewrite Forall_forall in Ws; apply Ws; eapply nth_error_In; exact Es).
    pose proof (ws_in _ W t H) as N. destruct t; try reflexivity; exfalso; apply N; reflexivity.
  Qed.

  Lemma types_other m : m_type m <> M_SET -> types_of sets m = [m_type m].
  Proof. unfold types_of. intros H. destruct (m_type m); auto. congruence. Qed.

  Lemma applies_not_late t : late t = false -> applies D v t = present v t.
  Proof. unfold applies. destruct D; auto. destruct t; auto; discriminate. Qed.

  Lemma cond_world m w w' : m_type m <> M_MARK -> cond D v w sets m = cond D v w' sets m.
  Proof. intros H. unfold cond. destruct (m_type m); auto. congruence. Qed.

  Lemma steady_match1 m w : m_type m <> M_PROBABILITY -> m_type m <> M_MARK ->
    match1 D thr or sets v m w = (xorb (m_neg m)
      (match m_type m with
       | M_FLOW_PROBABILITY => below thr N.leb (v_fhash v) (m_pay m)
       | _ => cond D v w_nil sets m
       end), w).
  Proof.
    intros H1 H2. unfold match1. rewrite (cond_world m w w_nil H2). destruct (m_type m); auto. congruence.
  Qed.

  Lemma steady_match_all ms : (forall m, In m ms -> m_type m <> M_PROBABILITY /\ m_type m <> M_MARK) ->
    forall w, match_all D thr or sets v ms w =
     (forallb (fun m => applies D v (m_type m) && xorb (m_neg m)
      (match m_type m with
       | M_FLOW_PROBABILITY => below thr N.leb (v_fhash v) (m_pay m)
       | _ => cond D v w_nil sets m
       end)) ms, w).
  Proof.
    induction ms as [|m ms IH]; intros H w; cbn [match_all forallb]; auto.
    destruct (H m (or_introl eq_refl)) as [H1 H2]. rewrite steady_match1 by auto.
    destruct (applies D v (m_type m)); cbn [andb]; [|reflexivity].
    destruct (xorb _ _); cbn [andb]; [|reflexivity]. apply IH. intros m' Hm. apply H. right; auto.
  Qed.

  Lemma steady_rule r w : steady r -> rule_matches D thr or sets v r w = (forallb (accepts D thr sets v) (r_matchers r), w).
  Proof.
    intros S. unfold rule_matches. rewrite steady_match_all by exact S.
    assert (E : forallb (accepts D thr sets v) (r_matchers r) =
       guards sets v (r_matchers r) && forallb (fun m => applies D v (m_type m) && xorb (m_neg m)
      (match m_type m with
       | M_FLOW_PROBABILITY => below thr N.leb (v_fhash v) (m_pay m)
       | _ => cond D v w_nil sets m
       end)) (r_matchers r)).
    { unfold guards. induction (r_matchers r) as [|m ms IH]; cbn [forallb]; auto. rewrite IH. clear IH.
      unfold accepts. set (X := xorb _ _).
      assert (G : forallb (applies D v) (types_of sets m) =
                  forallb (fun t => late t || present v t) (types_of sets m) && applies D v (m_type m)).
      { destruct (mtype_eq_dec (m_type m) M_SET) as [E|E].
        - assert (A : applies D v (m_type m) = true) by (rewrite E; unfold applies; destruct D; reflexivity). rewrite A, andb_true_r.
          assert (L : forall t, In t (types_of sets m) -> late t = false) by (intros t Ht; eapply types_late; eauto).
          induction (types_of sets m) as [|t ts IHt]; cbn [forallb]; auto. rewrite IHt by (intros; apply L; right; auto).
          rewrite (applies_not_late t) by (apply L; left; auto). rewrite (L t (or_introl eq_refl)). reflexivity.
        - rewrite (types_other m E). cbn [forallb]. rewrite !andb_true_r.
          destruct (late (m_type m)) eqn:L; cbn [orb andb]; auto. rewrite applies_not_late by auto. destruct (present v (m_type m)); reflexivity. }
      rewrite G. clear G. clearbody X.
      generalize (forallb (fun t => late t || present v t) (types_of sets m)). intros g.
      generalize (forallb (fun m0 => forallb (fun t => late t || present v t) (types_of sets m0)) ms). intros g'.
      destruct g, (applies D v (m_type m)), X, g'; reflexivity. }
    rewrite E. destruct (guards sets v (r_matchers r)); reflexivity.
  Qed.

  (** The world after the rules looked at. *)
  Definition after_rules (rs : list rule) (w : world) : world :=
    fold_left (fun w r => effects or v r w) (filter (matches D thr sets v) (looked_at D thr sets v rs)) w.

  Lemma decision_terminal r : terminal r = true -> exists d, decision_of r = Some d.
  Proof. unfold terminal, decision_of. destruct (r_verdict r); intros H; try discriminate; eauto. Qed.
  Lemma decision_continue r : terminal r = false -> decision_of r = None.
  Proof. unfold terminal, decision_of. destruct (r_verdict r); intros H; try discriminate; eauto. Qed.

  Lemma steady_rules : forall rs, (forall r, In r rs -> steady r) -> forall w,
    eval_rules D thr or sets v rs w =
    (match decider D thr sets v rs with Some r => decision_of r | None => None end, after_rules rs w).
  Proof.
    induction rs as [|r rs IH]; intros S w; [reflexivity|].
    assert (IH' := IH (fun r0 H => S r0 (or_intror H))). clear IH.
    unfold decider, after_rules in *. cbn [eval_rules find looked_at].
    destruct (r_disabled r) eqn:Ed.
    { assert (M : matches D thr sets v r = false) by (unfold matches; rewrite Ed; reflexivity).
      rewrite M. cbn [andb filter]. rewrite M. apply IH'. }
    rewrite steady_rule by (apply S; left; auto).
    destruct (forallb (accepts D thr sets v) (r_matchers r)) eqn:Ea.
    - assert (M : matches D thr sets v r = true) by (unfold matches; rewrite Ed, Ea; reflexivity).
      rewrite M. cbn [andb]. destruct (terminal r) eqn:Et.
      + destruct (decision_terminal r Et) as [d Hd]. rewrite Hd. cbn [filter]. rewrite M. reflexivity.
      + rewrite (decision_continue r Et). rewrite IH'. cbn [filter]. rewrite M. reflexivity.
    - assert (M : matches D thr sets v r = false) by (unfold matches; rewrite Ed, Ea; reflexivity).
      rewrite M. cbn [andb filter]. rewrite M. apply IH'.
  Qed.

  (** ** Counters *)
  Lemma cnt_count w k len i : w_cnt (w_count w k len) i = if i =? k then bumped (w_cnt w i) len else w_cnt w i.
  Proof.
    unfold w_count, bumped. destruct (w_cnt w k) as [a b] eqn:E. cbn [w_cnt]. unfold updN.
    destruct (N.eqb_spec i k) as [->|]; auto. rewrite E. reflexivity.
  Qed.

  Lemma cnt_log r w : w_cnt (do_log or v r w) = w_cnt w.
  Proof.
    unfold do_log, log_packet. destruct (_ =? 0); auto. destruct (_ =? 0).
    - destruct (o_ring _ _); reflexivity.
    - destruct (_ <? _); [reflexivity|]. destruct (o_ring _ _); reflexivity.
  Qed.

  Lemma cnt_effects r w i : w_cnt (effects or v r w) i =
    if r_counters r && (r_index r =? i) then bumped (w_cnt w i) (v_len v) else w_cnt w i.
  Proof.
    unfold effects. set (w1 := if mark_is_set r then _ else _).
    assert (E : w_cnt w1 = w_cnt w) by (unfold w1; destruct (mark_is_set r); reflexivity).
    destruct (r_counters r); cbn [andb].
    - rewrite cnt_count, cnt_log, E, N.eqb_sym. reflexivity.
    - rewrite cnt_log, E. reflexivity.
  Qed.

  Lemma cnt_fold i : forall rs w, NoDup (map r_index rs) -> w_cnt (fold_left (fun w r => effects or v r w) rs w) i =
    if existsb (fun r => r_counters r && (r_index r =? i)) rs then bumped (w_cnt w i) (v_len v) else w_cnt w i.
  Proof.
    induction rs as [|r rs IH]; intros w H; cbn [fold_left existsb]; auto.
    cbn [map] in H. inversion H as [|x l Hn Hd]; subst. rewrite IH by auto. rewrite cnt_effects.
    destruct (r_counters r && (r_index r =? i)) eqn:E; cbn [orb]; auto.
    destruct (existsb _ rs) eqn:Ex; auto. exfalso. apply existsb_exists in Ex as (q & Hq & Eq).
    apply andb_true_iff in E as [_ E]. apply andb_true_iff in Eq as [_ Eq]. apply N.eqb_eq in E, Eq.
    apply Hn. rewrite E, <- Eq. apply in_map. exact Hq.
  Qed.

  Lemma looked_at_prefix rs : exists l, rs = looked_at D thr sets v rs ++ l.
  Proof.
    induction rs as [|r rs [l IH]]; [exists []; reflexivity|]. cbn [looked_at].
    destruct (_ && _); [exists rs; reflexivity|]. exists l. cbn [app]. f_equal. exact IH.
  Qed.

  Lemma indexed_nodup rs : indexed rs -> NoDup (map r_index rs).
  Proof.
    intros H. apply NoDup_nth_error. intros i j Li E. rewrite map_length in Li. rewrite !nth_error_map in E.
    destruct (nth_error rs i) as [r|] eqn:Ei; [|apply nth_error_None in Ei; lia].
    destruct (nth_error rs j) as [q|] eqn:Ej; [|discriminate]. cbn [option_map] in E. injection E as E.
    rewrite (H i r Ei), (H j q Ej) in E. lia.
  Qed.

  Lemma nodup_filter {A} (f : A -> N) (g : A -> bool) l : NoDup (map f l) -> NoDup (map f (filter g l)).
  Proof.
    induction l as [|a l IH]; intros H; cbn [filter map] in *; auto. inversion H; subst.
    destruct (g a); cbn [map]; auto. constructor; auto. intros Hin. apply H2. apply in_map_iff in Hin as (x & E & Hx).
    apply filter_In in Hx as [Hx _]. rewrite <- E. apply in_map. exact Hx.
  Qed.

  Lemma cnt_after rs w i : indexed rs -> w_cnt (after_rules rs w) i =
    if existsb (fun r => matches D thr sets v r && r_counters r && (r_index r =? i)) (looked_at D thr sets v rs)
    then bumped (w_cnt w i) (v_len v) else w_cnt w i.
  Proof.
    intros H. unfold after_rules. rewrite cnt_fold.
    - replace (existsb (fun r => r_counters r && (r_index r =? i)) (filter (matches D thr sets v) (looked_at D thr sets v rs)))
        with (existsb (fun r => matches D thr sets v r && r_counters r && (r_index r =? i)) (looked_at D thr sets v rs)); auto.
      induction (looked_at D thr sets v rs) as [|r l IH]; cbn [existsb filter]; auto.
      destruct (matches D thr sets v r); cbn [andb existsb]; rewrite IH; reflexivity.
    - apply nodup_filter. destruct (looked_at_prefix rs) as [l E]. apply indexed_nodup in H. rewrite E, map_app in H.
      revert H. generalize (map r_index (looked_at D thr sets v rs)). intros a. induction a as [|x a IHa]; intros H; [constructor|].
      cbn [app] in H. inversion H; subst. constructor; auto. intros Hx. apply H2. apply in_or_app. auto.
  Qed.

  Lemma moved rs p w i : indexed rs -> (forall r, In r rs -> steady r) ->
    w_cnt (snd (eval_chain D thr or sets v p rs w)) i =
    if moves D thr sets v rs i then bumped (w_cnt w i) (v_len v) else w_cnt w i.
  Proof.
    intros Hi S. unfold eval_chain, moves. rewrite steady_rules by auto.
    assert (IN : existsb (fun r => matches D thr sets v r && r_counters r && (r_index r =? N.of_nat (length rs))) (looked_at D thr sets v rs) = false).
    { apply not_true_iff_false. intros E. apply existsb_exists in E as (r & Hr & E). apply andb_true_iff in E as [_ E].
      apply N.eqb_eq in E. destruct (looked_at_prefix rs) as [l El].
      assert (Hin : In r rs) by (rewrite El; apply in_or_app; auto). apply In_nth_error in Hin as [n Hn].
      rewrite (Hi n r Hn) in E. assert (n < length rs)%nat by (apply nth_error_Some; congruence). lia. }
    destruct (decider D thr sets v rs) as [r|] eqn:Ed.
    - unfold decider in Ed. apply find_some in Ed as [_ Ed]. apply andb_true_iff in Ed as [_ Et].
      destruct (decision_terminal r Et) as [d ->]. cbn [snd]. rewrite andb_false_r, orb_false_r. apply cnt_after. exact Hi.
    - cbn [snd]. rewrite andb_true_r, cnt_count, cnt_after by auto.
      destruct (N.eqb_spec i (N.of_nat (length rs))) as [->|N].
      + rewrite IN. reflexivity.
      + rewrite orb_false_r. reflexivity.
  Qed.
End S.
