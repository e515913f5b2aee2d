(** Packet-path properties (proofs only). *)
From Coq Require Import NArith ZArith List Bool Lia Arith.
From Verif Require Import Bytes Types World BpfModel GenModel PktSpec ViewSpec Wf ViewModel HeadFacts5 ProgFacts ProgThm
  BytesFacts FitsFacts EvalSpec EvalFacts Deploy DeployFacts ChainSpec.
Import ListNotations.
Local Open Scope N_scope.

Lemma codes_differ f a b : kernel_code f V_DROP = Some a -> kernel_code f V_ACCEPT = Some b -> a <> b.
Proof. destruct f; cbn; intros H1 H2; injection H1 as <-; injection H2 as <-; discriminate. Qed.

Lemma drops_when_unique c e prog w a b : drops_when c e prog w a -> drops_when c e prog w b -> a = b.
Proof.
  intros (k & w1 & E1 & K1) (k' & w1' & E2 & K2). rewrite E1 in E2. injection E2 as <- <-.
  destruct a, b; auto; exfalso; [exact (codes_differ _ _ _ K1 K2 eq_refl)|exact (codes_differ _ _ _ K2 K1 eq_refl)].
Qed.

Section One.
  Variables (c : chain) (prog : list insn) (e : env) (m : matcher) (v : view).
  Hypothesis Dp : deployed c prog e.
  Hypothesis T : tests c m.
  Hypothesis Hv : view_of e c = Some v.

  Lemma one_gen w r : c_rules c = [r] -> r_matchers r = [m] -> 
    drops_when c e prog w (fst (rule_matches Generated prob_threshold (e_or e) (c_sets c) v r w)).
  Proof.
    intros Hr Hm. destruct T as [Tp (r' & Hr' & _ & Hd & Hvd)]. rewrite Hr in Hr'. injection Hr' as <-.
    destruct (deployed_run c prog e Dp w) as (k & w3 & E & M). rewrite Hv in M.
    unfold eval_chain in M. rewrite Hr, Tp in M. cbn [eval_rules] in M. rewrite Hd in M.
    destruct (rule_matches _ _ _ _ _ _ _) as [b w1]. exists k, w3. split; [exact E|]. cbn [fst].
    destruct b.
    - unfold decision_of in M. rewrite Hvd in M. cbn [finish] in M.
      destruct (kernel_code _ V_DROP); [|discriminate]. injection M as -> _. reflexivity.
    - cbn [finish] in M. destruct (kernel_code _ V_ACCEPT); [|discriminate]. injection M as -> _. reflexivity.
  Qed.

  Lemma one_steady w : m_type m <> M_PROBABILITY -> m_type m <> M_MARK ->
    drops_when c e prog w (accepts Generated prob_threshold (c_sets c) v m).
  Proof.
    intros N1 N2. destruct T as [Tp (r & Hr & Hm & _)]. pose proof (one_gen w r Hr Hm) as X.
    rewrite steady_rule in X.
    - cbn [fst] in X. rewrite Hm in X. cbn [forallb] in X. rewrite andb_true_r in X. exact X.
    - exact (wc_sets _ (dp_chain _ _ _ Dp)).
    - intros m' Hm'. rewrite Hm in Hm'. destruct Hm' as [<-|[]]. auto.
  Qed.

  (** Matchers with a protocol of their own. *)
  Lemma one_plain w : m_type m <> M_PROBABILITY -> m_type m <> M_MARK -> m_type m <> M_SET -> late (m_type m) = false ->
    drops_when c e prog w (present v (m_type m) && xorb (m_neg m) (cond Generated v w_nil (c_sets c) m)).
  Proof.
    intros N1 N2 N3 L. pose proof (one_steady w N1 N2) as X. unfold accepts in X.
    rewrite types_other in X by exact N3. cbn [forallb] in X. rewrite andb_true_r, applies_not_late in X by exact L.
    destruct (m_type m); try exact X; discriminate.
  Qed.

  Lemma one_wf : wf_matcher m.
  Proof.
    destruct T as [Tp (r & Hr & Hm & _)]. pose proof (wc_rules _ (dp_chain _ _ _ Dp)) as W. rewrite Hr in W.
    inversion W as [|x l W1 _]; subst. pose proof (wr_matchers _ _ W1) as W2. rewrite Hm in W2. inversion W2; auto.
  Qed.
End One.

(** ** Disabled rules *)
Section Dis.
  Variables (D : dialect) (thr : list N -> option N) (or : oracle) (sets : list bset) (v : view).

  Lemma eval_app rs1 rs2 w : eval_rules D thr or sets v (rs1 ++ rs2) w =
    match eval_rules D thr or sets v rs1 w with (Some d, w') => (Some d, w') | (None, w') => eval_rules D thr or sets v rs2 w' end.
  Proof.
    revert w. induction rs1 as [|r rs1 IH]; intros w; cbn [app eval_rules]; auto.
    destruct (r_disabled r); auto. destruct (rule_matches _ _ _ _ _ _ _) as [[] w1]; auto.
    destruct (decision_of r); auto.
  Qed.

  Lemma eval_disable rs1 r rs2 p w : (forall w, rule_matches D thr or sets v r w = (false, w)) ->
    eval_chain D thr or sets v p (rs1 ++ r :: rs2) w = eval_chain D thr or sets v p (rs1 ++ disable r :: rs2) w.
  Proof.
    intros H. unfold eval_chain. rewrite !eval_app, !app_length. cbn [length].
    destruct (eval_rules D thr or sets v rs1 w) as [[d|] w1]; auto. cbn [eval_rules disable r_disabled].
    rewrite H. destruct (r_disabled r); reflexivity.
  Qed.

  (** A rule about an absent protocol does not match. *)
  Lemma absent_no_match (Ws : Forall wf_set sets) r m t : In m (r_matchers r) -> In t (types_of sets m) -> present v t = false ->
    late t = false \/ steady r /\ v_sock v = None -> forall w, rule_matches D thr or sets v r w = (false, w).
  Proof.
    intros Hm Ht P [L|[S NS]] w.
    - unfold rule_matches. replace (guards sets v (r_matchers r)) with false; auto. symmetry. unfold guards.
      apply not_true_iff_false. intros X. rewrite forallb_forall in X. specialize (X m Hm). rewrite forallb_forall in X.
      specialize (X t Ht). rewrite L, P in X. discriminate.
    - rewrite steady_rule by auto. f_equal. apply not_true_iff_false. intros X. rewrite forallb_forall in X. specialize (X m Hm).
      unfold accepts in X. apply andb_true_iff in X as [X _]. rewrite forallb_forall in X. specialize (X t Ht).
      unfold applies in X. rewrite P, NS in X. destruct D, t; discriminate.
  Qed.
End Dis.

Lemma same_code c c' prog prog' e w : deployed c prog e -> deployed c' prog' e ->
  c_hook c' = c_hook c -> view_of e c' = view_of e c -> n_rules c' = n_rules c ->
  (forall v, view_of e c = Some v ->
     eval_chain Generated prob_threshold (e_or e) (c_sets c) v (c_policy c) (c_rules c) w =
     eval_chain Generated prob_threshold (e_or e) (c_sets c') v (c_policy c') (c_rules c') w) ->
  exec e prog w = exec e prog' w.
Proof.
  intros D1 D2 Hh Hw Hn He. destruct (deployed_run _ _ _ D1 w) as (k & w3 & E & M). destruct (deployed_run _ _ _ D2 w) as (k' & w3' & E' & M').
  rewrite E, E'. rewrite Hw in M'. destruct (view_of e c) as [v|].
  - rewrite <- (He v eq_refl) in M'. destruct (eval_chain _ _ _ _ _ _ _ _) as [d w']. rewrite Hh in M'. rewrite M in M'. injection M' as <- <-. reflexivity.
  - destruct M as [M ->], M' as [M' ->]. rewrite Hh in *. rewrite M in M'. injection M' as <-. rewrite Hn. reflexivity.
Qed.

Lemma seen_with_rules e c rs : view_of e (with_rules c rs) = view_of e c.
Proof. reflexivity. Qed.

Lemma disabled_same c prog prog' e w rs1 r rs2 : c_rules c = rs1 ++ r :: rs2 ->
  deployed c prog e -> deployed (with_rules c (rs1 ++ disable r :: rs2)) prog' e ->
  (forall v, view_of e c = Some v -> forall w, rule_matches Generated prob_threshold (e_or e) (c_sets c) v r w = (false, w)) ->
  exec e prog w = exec e prog' w.
Proof.
  intros Hr D1 D2 H. apply (same_code _ _ _ _ _ _ D1 D2); try reflexivity.
  - unfold n_rules, with_rules. cbn [c_rules]. rewrite Hr, !app_length. reflexivity.
  - intros v Hv. unfold with_rules. cbn [c_rules c_sets c_policy]. rewrite Hr. apply eval_disable. auto.
Qed.

(** ** CONTINUE *)
Section Cont.
  Variables (D : dialect) (thr : list N -> option N) (sets : list bset) (v : view).

  Lemma decider_continue rs1 r rs2 : terminal r = false ->
    decider D thr sets v (rs1 ++ r :: rs2) = decider D thr sets v (rs1 ++ disable r :: rs2).
  Proof.
    intros T. unfold decider. induction rs1 as [|q rs1 IH]; cbn [app find].
    - rewrite T, andb_false_r. cbn [matches disable r_disabled negb andb]. unfold matches at 2. cbn [disable r_disabled negb andb]. reflexivity.
    - rewrite IH. reflexivity.
  Qed.

  Lemma looked_app rs1 rs2 : looked_at D thr sets v (rs1 ++ rs2) =
    looked_at D thr sets v rs1 ++ match decider D thr sets v rs1 with Some _ => [] | None => looked_at D thr sets v rs2 end.
  Proof.
    unfold decider. induction rs1 as [|q rs1 IH]; cbn [app looked_at find]; auto.
    destruct (_ && _); auto. cbn [app]. f_equal. exact IH.
  Qed.

  Lemma disable_false r : matches D thr sets v (disable r) = false.
  Proof. reflexivity. Qed.

  Lemma moves_continue rs1 r rs2 i : terminal r = false -> matches D thr sets v r = true -> decider D thr sets v rs1 = None ->
    moves D thr sets v (rs1 ++ r :: rs2) i =
    moves D thr sets v (rs1 ++ disable r :: rs2) i || (r_counters r && (r_index r =? i)).
  Proof.
    intros T M N. unfold moves. rewrite (decider_continue rs1 r rs2 T), !app_length. cbn [length].
    rewrite !looked_app, N. cbn [looked_at]. rewrite disable_false, T, andb_false_r. cbn [andb].
    rewrite !existsb_app. cbn [existsb]. rewrite disable_false, M. cbn [andb orb].
    set (a := existsb _ (looked_at D thr sets v rs1)). set (b := existsb _ (looked_at D thr sets v rs2)).
    set (x := r_counters r && _). set (y := (_ =? _) && _). destruct a, b, x, y; reflexivity.
  Qed.
End Cont.
