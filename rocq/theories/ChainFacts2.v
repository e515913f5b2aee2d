(** Packet-path properties, continued (proofs only). *)
From Coq Require Import NArith ZArith List Bool Lia Arith.
From Verif Require Import Bytes Types World BpfModel GenModel PktSpec ViewSpec Wf ViewModel HeadFacts5 ProgFacts ProgThm
  BytesFacts FitsFacts EvalSpec EvalFacts Deploy DeployFacts ChainSpec ChainFacts LogSpec LogFacts.
Import ListNotations.
Local Open Scope N_scope.

Section A.
  Variables (sets : list bset) (v : view).
  Hypothesis Ws : Forall wf_set sets.

  Lemma accepts_dialects m : quirk_free v m -> m_type m <> M_PROBABILITY ->
    accepts Generated prob_threshold sets v m = accepts Documented prob_threshold sets v m.
  Proof.
    intros Q NP. unfold accepts. f_equal.
    - destruct (mtype_eq_dec (m_type m) M_SET) as [E|E].
      + assert (L : forall t, In t (types_of sets m) -> late t = false) by (intros t Ht; eapply types_late; eauto).
        induction (types_of sets m) as [|t ts IH]; cbn [forallb]; auto.
        rewrite IH by (intros; apply L; right; auto). f_equal.
        rewrite !applies_not_late by (apply L; left; auto). reflexivity.
      + rewrite types_other by exact E. cbn [forallb]. rewrite dialects_applies by exact Q. reflexivity.
    - f_equal. unfold quirk_free in Q. unfold cond. destruct (m_type m) eqn:E; auto. destruct (m_op m); auto.
      cbn [iface_seen]. rewrite N.mod_small by exact Q. reflexivity.
  Qed.

  Lemma matches_dialects r : steady r -> (forall m, In m (r_matchers r) -> quirk_free v m) ->
    matches Generated prob_threshold sets v r = matches Documented prob_threshold sets v r.
  Proof.
    intros S Q. unfold matches. f_equal. unfold steady in S. induction (r_matchers r) as [|m ms IH]; cbn [forallb]; auto.
    rewrite accepts_dialects by (try apply Q; try apply S; left; auto). rewrite IH; auto; intros; [apply S|apply Q]; right; auto.
  Qed.

  Lemma decider_dialects rs : (forall r, In r rs -> steady r) -> (forall r m, In r rs -> In m (r_matchers r) -> quirk_free v m) ->
    decider Generated prob_threshold sets v rs = decider Documented prob_threshold sets v rs.
  Proof.
    intros S Q. unfold decider. induction rs as [|r rs IH]; cbn [find]; auto.
    rewrite (matches_dialects r (S r (or_introl eq_refl)) (fun m => Q r m (or_introl eq_refl))).
    rewrite (IH (fun q H => S q (or_intror H)) (fun q m H => Q q m (or_intror H))). reflexivity.
  Qed.
End A.

Lemma code_for_fun c e d k k' : code_for c e d k -> code_for c e d k' -> k = k'.
Proof.
  unfold code_for. destruct d as [r|]; [destruct (r_verdict r)|]; intros A B; try congruence.
Qed.

Lemma first_match_doc c prog e v : deployed c prog e -> view_of e c = Some v -> (forall r, In r (c_rules c) -> steady r) ->
  (forall r m, In r (c_rules c) -> In m (r_matchers r) -> quirk_free v m) -> forall w,
  exists k w3, exec e prog w = Done k w3 /\ code_for c e (decider Documented prob_threshold (c_sets c) v (c_rules c)) k.
Proof.
  intros D V S Q w. destruct (first_match c prog e D v w V S) as (k & w3 & E & M). exists k, w3. split; [exact E|].
  rewrite <- decider_dialects by (auto; apply (wc_sets _ (dp_chain _ _ _ D))).
  unfold code_for. destruct (decider _ _ _ _ _) as [r|]; [|exact M]. destruct (r_verdict r); try exact M. destruct M as [M _]. exact M.
Qed.

Lemma first_match_gen c prog e v : deployed c prog e -> view_of e c = Some v -> (forall r, In r (c_rules c) -> steady r) -> forall w,
  exists k w3, exec e prog w = Done k w3 /\ code_for c e (decider Generated prob_threshold (c_sets c) v (c_rules c)) k.
Proof.
  intros D V S w. destruct (first_match c prog e D v w V S) as (k & w3 & E & M). exists k, w3. split; [exact E|].
  unfold code_for. destruct (decider _ _ _ _ _) as [r|]; [|exact M]. destruct (r_verdict r); try exact M. destruct M as [M _]. exact M.
Qed.

Lemma disable_steady r : steady r -> steady (disable r).
Proof. auto. Qed.

Lemma continue_transparent c prog prog' e v rs1 r rs2 : c_rules c = rs1 ++ r :: rs2 -> r_verdict r = V_CONTINUE ->
  deployed c prog e -> deployed (with_rules c (rs1 ++ disable r :: rs2)) prog' e ->
  (forall q, In q (c_rules c) -> steady q) -> indexed (c_rules c) -> view_of e c = Some v ->
  decider Generated prob_threshold (c_sets c) v rs1 = None -> matches Generated prob_threshold (c_sets c) v r = true ->
  forall w, exists k w3 w3', exec e prog w = Done k w3 /\ exec e prog' w = Done k w3' /\
    forall i, w_cnt w3 i = if r_counters r && (i =? r_index r) then bumped (w_cnt w i) (p_len (packet_of e (c_hook c))) else w_cnt w3' i.
Proof.
  intros Hr Hc D1 D2 S Ix V N M w. set (c' := with_rules c (rs1 ++ disable r :: rs2)) in *.
  assert (T : terminal r = false) by (unfold terminal; rewrite Hc; reflexivity).
  assert (S' : forall q, In q (c_rules c') -> steady q).
  { intros q Hq. cbn [c' with_rules c_rules] in Hq. apply in_app_or in Hq as [Hq|[<-|Hq]].
    - apply S. rewrite Hr. apply in_or_app. auto.
    - apply disable_steady. apply S. rewrite Hr. apply in_or_app. right; left; auto.
    - apply S. rewrite Hr. apply in_or_app. right; right; auto. }
  assert (Ix' : indexed (c_rules c')).
  { intros i q Hq. cbn [c' with_rules c_rules] in Hq. rewrite Hr in Ix.
    destruct (Nat.lt_trichotomy i (length rs1)) as [L|[L|L]].
    - rewrite nth_error_app1 in Hq by lia. apply Ix. rewrite nth_error_app1 by lia. exact Hq.
    - rewrite nth_error_app2 in Hq by lia. replace (i - length rs1)%nat with 0%nat in Hq by lia. cbn in Hq. injection Hq as <-.
      apply (Ix i r). rewrite nth_error_app2 by lia. replace (i - length rs1)%nat with 0%nat by lia. reflexivity.
    - apply Ix. rewrite nth_error_app2 in * by lia. destruct (i - length rs1)%nat eqn:X; [lia|]. exact Hq. }
  assert (V' : view_of e c' = Some v) by exact V.
  destruct (first_match_gen c prog e v D1 V S w) as (k & w3 & E & F).
  destruct (first_match_gen c' prog' e v D2 V' S' w) as (k' & w3' & E' & F').
  change (c_sets c') with (c_sets c) in F'. change (c_rules c') with (rs1 ++ disable r :: rs2) in F'.
  rewrite <- decider_continue in F' by exact T. rewrite <- Hr in F'.
  assert (k' = k) by (eapply (code_for_fun c e); [exact F'|exact F]). subst k'.
  exists k, w3, w3'. split; [exact E|]. split; [exact E'|]. intros i.
  destruct (counters_packet c prog e D1 w Ix S) as (k1 & x1 & E1 & C1). rewrite E in E1. injection E1 as <- <-.
  destruct (counters_packet c' prog' e D2 w Ix' S') as (k2 & x2 & E2 & C2). rewrite E' in E2. injection E2 as <- <-.
  rewrite C1, C2. unfold hit. rewrite V, V'. change (c_sets c') with (c_sets c). change (c_rules c') with (rs1 ++ disable r :: rs2).
  rewrite Hr, moves_continue by auto. change (packet_of e (c_hook c')) with (packet_of e (c_hook c)).
  rewrite (N.eqb_sym i). destruct (r_counters r && (r_index r =? i)); [rewrite orb_true_r|rewrite orb_false_r]; reflexivity.
Qed.

(** Marks *)
Lemma gen_rules_each c rs l r : gen_rules c rs = Ok l -> In r rs -> exists x, gen_rule c r = Ok x.
Proof.
  revert l. induction rs as [|q rs IH]; intros l G H; [destruct H|]. cbn [gen_rules] in G.
  destruct (gen_rule c q) as [x|] eqn:Eq; [|discriminate]. cbn [bind] in G. destruct (gen_rules c rs) as [y|] eqn:Er; [|discriminate].
  destruct H as [<-|H]; [eauto|]. apply (IH y); auto.
Qed.

Lemma gen_program_rule c prog r : gen_program c = Ok prog -> In r (c_rules c) -> exists x, gen_rule c r = Ok x.
Proof.
  unfold gen_program. destruct (gen_head c); [|discriminate]. cbn [bind]. destruct (gen_rules c (c_rules c)) as [l|] eqn:E; [|discriminate].
  intros _ H. eapply gen_rules_each; eauto.
Qed.

Lemma mark_hooks c prog r : gen_program c = Ok prog -> In r (c_rules c) -> r_disabled r = false -> mark_is_set r = true ->
  hook_flavor (c_hook c) = F_TC \/ hook_flavor (c_hook c) = F_CGROUP_SKB.
Proof.
  intros G H D M. destruct (gen_program_rule _ _ _ G H) as [x X]. unfold gen_rule in X. rewrite D, M in X.
  destruct (gen_guards _ _ _); [|discriminate]. cbn [bind] in X. destruct (gen_matchers _ _); [|discriminate]. cbn [bind] in X.
  unfold gen_set_mark in X. destruct (hook_flavor (c_hook c)); auto; discriminate.
Qed.

Lemma mark_packet c prog e v : deployed c prog e -> (forall r, In r (c_rules c) -> steady r) -> view_of e c = Some v -> forall w,
  exists k w3, exec e prog w = Done k w3 /\
    w_mark w3 = mark_after (acting Generated prob_threshold (c_sets c) v (c_rules c)) (w_mark w).
Proof.
  intros D S V w. destruct (packet_world c prog e v D S w V) as (k & w3 & E & M & _). exists k, w3. split; [exact E|].
  rewrite M, mark_fold. reflexivity.
Qed.

Lemma mark_packet_none c prog e : deployed c prog e -> view_of e c = None -> forall w,
  exists k w3, exec e prog w = Done k w3 /\ w_mark w3 = w_mark w.
Proof.
  intros D V w. destruct (packet_world_none c prog e D w V) as (k & w3 & E & M & _). eauto.
Qed.

Lemma fail_open c prog e : deployed c prog e -> view_of e c = None -> forall w,
  exists k, exec e prog w = Done k (w_count w (n_rules c + 1) (p_len (packet_of e (c_hook c)))) /\
    kernel_code (hook_flavor (c_hook c)) V_ACCEPT = Some k.
Proof.
  intros D V w. destruct (deployed_run c prog e D w) as (k & w3 & E & M). rewrite V in M. destruct M as [M ->]. eauto.
Qed.

Lemma absent_protocol c prog prog' e v rs1 r rs2 m t : c_rules c = rs1 ++ r :: rs2 ->
  deployed c prog e -> deployed (with_rules c (rs1 ++ disable r :: rs2)) prog' e ->
  view_of e c = Some v -> In m (r_matchers r) -> In t (types_of (c_sets c) m) -> present v t = false ->
  late t = false \/ steady r /\ is_sock_addr (c_hook c) = false -> forall w, exec e prog w = exec e prog' w.
Proof.
  intros Hr D1 D2 V Hm Ht P L w. apply (disabled_same c prog prog' e w rs1 r rs2 Hr D1 D2).
  assert (L' : late t = false \/ steady r /\ v_sock v = None).
  { destruct L as [L|[L NS]]; [left; exact L|right; split; [exact L|]]. unfold view_of, seen in V. rewrite NS in V.
    destruct (e_dynptr e =? 0); [|discriminate V].
    apply (vo_sock _ _ (parse_ok _ _ _ _ (we_bytes _ _ (dp_env _ _ _ D1) : bytes (p_data (packet_of e (c_hook c)))) V)). }
  clear L.
  intros v' V'. rewrite V in V'. injection V' as <-. intros w'. eapply absent_no_match; eauto. apply (wc_sets _ (dp_chain _ _ _ D1)).
Qed.

(** General form, random matchers included. *)
Lemma general_doc c prog e v : deployed c prog e -> view_of e c = Some v ->
  (forall r m, In r (c_rules c) -> In m (r_matchers r) -> quirk_free v m) -> forall w,
  exists k w3, exec e prog w = Done k w3 /\
    let '(d, w') := eval_chain Documented prob_threshold (e_or e) (c_sets c) v (c_policy c) (c_rules c) w in
    finish (hook_flavor (c_hook c)) (e_or e) d w' = Some (k, w3).
Proof.
  intros D V Q w. destruct (deployed_run c prog e D w) as (k & w3 & E & M). exists k, w3. split; [exact E|]. rewrite V in M.
  rewrite dialects_chain in M by exact Q. exact M.
Qed.

Lemma general_gen c prog e v : deployed c prog e -> view_of e c = Some v -> forall w,
  exists k w3, exec e prog w = Done k w3 /\
    let '(d, w') := eval_chain Generated prob_threshold (e_or e) (c_sets c) v (c_policy c) (c_rules c) w in
    finish (hook_flavor (c_hook c)) (e_or e) d w' = Some (k, w3).
Proof.
  intros D V w. destruct (deployed_run c prog e D w) as (k & w3 & E & M). exists k, w3. split; [exact E|]. rewrite V in M. exact M.
Qed.
