(** Consequences of the invariants for the lock properties. *)
From Coq Require Import NArith ZArith List Bool Lia.
From Verif Require Import Bytes Types World BpfModel GenModel BytesFacts StrModel SetModel PackModel HookModel KernModel LockModel CtlModel SysSpec SysFacts RelyFacts LockFacts LockFacts2 ApiFacts.
Import ListNotations.
Local Open Scope N_scope.

Lemma locks_dir_ex k p i : locks_dir k p i L_WRITE -> dir_ex k p i.
Proof. intros (f & H & _). exists f. exact H. Qed.
Lemma locks_dir_locked k p i m : locks_dir k p i m -> dir_locked k p i.
Proof. intros (f & H & N). exists f, m. split; assumption. Qed.
Lemma locks_pindir_ex k p : locks_pindir k p L_WRITE -> pin_ex k p.
Proof. intros (f & H & _). exists f. exact H. Qed.
Lemma locks_pindir_locked k p m : locks_pindir k p m -> pin_locked k p.
Proof. intros (f & H & N). exists f, m. split; assumption. Qed.

(** ** Lock compatibility *)
Lemma dir_exclusion s p q i m :
  reachable s -> p <> q -> locks_dir (s_kernel s) p i L_WRITE -> locks_dir (s_kernel s) q i m -> False.
Proof.
  intros R N A B. destruct (reachable_sinv _ R) as [K _].
  exact (dir_excl _ _ _ _ K N (locks_dir_ex _ _ _ A) (locks_dir_locked _ _ _ _ B)).
Qed.

Lemma pindir_exclusion s p q m :
  reachable s -> p <> q -> locks_pindir (s_kernel s) p L_WRITE -> locks_pindir (s_kernel s) q m -> False.
Proof.
  intros R N A B. destruct (reachable_sinv _ R) as [K _].
  exact (pin_excl _ _ _ K N (locks_pindir_ex _ _ A) (locks_pindir_locked _ _ _ B)).
Qed.

Lemma next_allowed s p c : sinv s -> next_call s p c -> allowed (s_kernel s) p c.
Proof.
  intros [K I] [f H]. specialize (I _ _ H). cbn [wpc] in I. apply (I _ (rely_refl _ _)).
Qed.

Lemma writes_allowed k p c d : writes c d -> allowed k p c ->
  exists i m, desc_of k p d = Some (D_dir i m) /\ pin_locked k p /\ dir_ex k p i.
Proof. destruct c; cbn [writes allowed]; intros H A; try contradiction; subst; exact A. Qed.
Lemma touches_allowed k p c d : touches c d -> allowed k p c ->
  exists i m, desc_of k p d = Some (D_dir i m) /\ pin_locked k p /\ dir_locked k p i.
Proof.
  intros [H|H] A.
  - destruct (writes_allowed _ _ _ _ H A) as (i & m & D & P & X). exists i, m. split; [exact D|]. split; [exact P|apply dir_ex_locked, X].
  - destruct c; cbn [reads allowed] in *; try contradiction; subst; exact A.
Qed.

Lemma touch_locked s p c d : reachable s -> next_call s p c -> touches c d ->
  exists i m, desc_of (s_kernel s) p d = Some (D_dir i m) /\
    (exists mp, locks_pindir (s_kernel s) p mp) /\ (exists md, locks_dir (s_kernel s) p i md).
Proof.
  intros R N T. pose proof (next_allowed _ _ _ (reachable_sinv _ R) N) as A.
  destruct (touches_allowed _ _ _ _ T A) as (i & m & D & (f & mp & P & NP) & (g & md & G & NG)).
  exists i, m. split; [exact D|]. split; [exists mp, f|exists md, g]; split; assumption.
Qed.
Lemma write_locked s p c d : reachable s -> next_call s p c -> writes c d ->
  exists i m, desc_of (s_kernel s) p d = Some (D_dir i m) /\
    (exists mp, locks_pindir (s_kernel s) p mp) /\ locks_dir (s_kernel s) p i L_WRITE.
Proof.
  intros R N T. pose proof (next_allowed _ _ _ (reachable_sinv _ R) N) as A.
  destruct (writes_allowed _ _ _ _ T A) as (i & m & D & (f & mp & P & NP) & (g & G)).
  exists i, m. split; [exact D|]. split; [exists mp, f; split; assumption|exists g; split; [exact G|discriminate]].
Qed.

Lemma no_race s p q c1 c2 d1 d2 i m1 m2 :
  reachable s -> next_call s p c1 -> next_call s q c2 -> writes c1 d1 -> touches c2 d2 ->
  desc_of (s_kernel s) p d1 = Some (D_dir i m1) -> desc_of (s_kernel s) q d2 = Some (D_dir i m2) -> p = q.
Proof.
  intros R N1 N2 W T D1 D2. destruct (N.eq_dec p q) as [E|E]; [exact E|exfalso].
  destruct (write_locked _ _ _ _ R N1 W) as (i1 & x1 & E1 & _ & L1).
  destruct (touch_locked _ _ _ _ R N2 T) as (i2 & x2 & E2 & _ & [md L2]).
  replace i1 with i in L1 by congruence. replace i2 with i in L2 by congruence.
  exact (dir_exclusion _ _ _ _ _ R E L1 L2).
Qed.

(** ** A locked descriptor stays as it is until it is closed *)
Lemma desc_kept s e s' p f i m :
  sinv s -> step s e s' -> desc_of (s_kernel s) p f = Some (D_dir i m) -> m <> L_NONE ->
  desc_of (s_kernel s') p f = Some (D_dir i m) \/ desc_of (s_kernel s') p f = None.
Proof.
  intros HI H D M. destruct (N.eq_dec (actor e) p) as [E|E].
  2:{ left. rewrite (re_desc _ _ _ (step_rely _ _ _ _ HI H E)). exact D. }
  pose proof (proj1 HI) as K.
  destruct H; cbn [actor s_kernel] in *; try (left; exact D); subst.
  - pose proof (next_allowed s p c HI (ex_intro _ _ H)) as A.
    assert (FL : f < k_next (s_kernel s)).
    { apply desc_of_find in D. exact (ki_fd _ K _ _ D). }
    destruct (is_lockcall c) eqn:L; [|left; rewrite ksys_desc; assumption].
    destruct c; try discriminate L.
    + cbn [allowed] in A. destruct (flock_cases (s_kernel s) p f1 m0 d K) as [[x Hx]|(de & Hx & Hd)]; rewrite Hx; cbn [fst]; [left; exact D|].
      rewrite (desc_of_set _ _ _ _ _ _ _ Hd). destruct (N.eqb_spec f f1) as [->|]; [|left; exact D].
      specialize (A _ D). contradiction.
    + rewrite close_desc by exact K. destruct ((f =? f1) && (p =? p)); [right; reflexivity|left; exact D].
  - rewrite desc_of_del. destruct (f =? f0); [right; reflexivity|left; exact D].
Qed.

Lemma step_next s e s' : step s e s' -> k_next (s_kernel s) <= k_next (s_kernel s').
Proof.
  intros H. destruct H; cbn [s_kernel]; try lia; [apply ksys_next|reflexivity].
Qed.

Lemma desc_new s e s' p f : sinv s -> step s e s' -> f < k_next (s_kernel s) ->
  desc_of (s_kernel s) p f = None -> desc_of (s_kernel s') p f = None.
Proof.
  intros HI H FL D. destruct (N.eq_dec (actor e) p) as [E|E].
  2:{ rewrite (re_desc _ _ _ (step_rely _ _ _ _ HI H E)). exact D. }
  pose proof (proj1 HI) as K.
  destruct H; cbn [actor s_kernel] in *; try exact D; subst.
  - destruct (is_lockcall c) eqn:L; [|rewrite ksys_desc; assumption].
    destruct c; try discriminate L.
    + destruct (flock_cases (s_kernel s) p f1 m d K) as [[x Hx]|(de & Hx & Hd)]; rewrite Hx; cbn [fst]; [exact D|].
      rewrite (desc_of_set _ _ _ _ _ _ _ Hd). destruct (N.eqb_spec f f1) as [->|]; [congruence|exact D].
    + rewrite close_desc by exact K. destruct ((f =? f1) && (p =? p)); [reflexivity|exact D].
  - rewrite desc_of_del. destruct (f =? f0); [reflexivity|exact D].
Qed.

Lemma execution_next s0 l s : execution s0 l s -> k_next (s_kernel s0) <= k_next (s_kernel s).
Proof. intros E. induction E; [lia|]. pose proof (step_next _ _ _ H). lia. Qed.

Lemma hold s0 l s p f i m : sinv s0 -> execution s0 l s ->
  desc_of (s_kernel s0) p f = Some (D_dir i m) -> m <> L_NONE ->
  desc_of (s_kernel s) p f = Some (D_dir i m) \/ desc_of (s_kernel s) p f = None.
Proof.
  intros HI E D M. induction E as [|l s e s' E IH H]; [left; exact D|].
  pose proof (execution_sinv _ _ _ HI E) as HS.
  destruct IH as [IH|IH]; [eapply desc_kept; eauto|right].
  eapply desc_new; eauto.
  apply desc_of_find in D. pose proof (ki_fd _ (proj1 HI) _ _ D). pose proof (execution_next _ _ _ E). lia.
Qed.

Lemma gone s0 l s p f : sinv s0 -> execution s0 l s -> f < k_next (s_kernel s0) ->
  desc_of (s_kernel s0) p f = None -> desc_of (s_kernel s) p f = None.
Proof.
  intros HI E FL D. induction E as [|l s e s' E IH H]; [exact D|].
  eapply desc_new; [exact (execution_sinv _ _ _ HI E)|exact H| |exact IH].
  pose proof (execution_next _ _ _ E). lia.
Qed.

Lemma reachable_execution s l s' : reachable s -> execution s l s' -> reachable s'.
Proof.
  intros (s0 & l0 & Q & E) H. induction H as [|l s1 e s2 H IH HS].
  - exists s0, l0. split; assumption.
  - destruct IH as (t0 & t & Q' & E'). exists t0, (t ++ [e]). split; [exact Q'|]. econstructor; eassumption.
Qed.
Lemma reachable_step s e s' : reachable s -> step s e s' -> reachable s'.
Proof. intros R H. eapply reachable_execution with (l := [] ++ [e]); [exact R|]. econstructor; [constructor|exact H]. Qed.

(** While [p] keeps a locked descriptor of a directory open, no other process touches
    the directory if the lock is exclusive, and none changes it if the lock is shared. *)
Lemma step_call_next s p c r s' : step s (Ev_call p c r) s' -> next_call s p c.
Proof. intros H. inversion H; subst. eexists. eassumption. Qed.

Lemma section_exclusive s1 l1 s q c r s' l2 s2 p f i m d m' :
  reachable s1 -> execution s1 l1 s -> step s (Ev_call q c r) s' -> execution s' l2 s2 ->
  desc_of (s_kernel s1) p f = Some (D_dir i m) -> m <> L_NONE -> desc_of (s_kernel s2) p f <> None ->
  q <> p -> desc_of (s_kernel s) q d = Some (D_dir i m') ->
  (m = L_WRITE -> ~ touches c d) /\ ~ writes c d.
Proof.
  intros R E1 H E2 D M D2 N DQ.
  pose proof (reachable_execution _ _ _ R E1) as RS.
  pose proof (reachable_sinv _ RS) as HS.
  assert (DS : desc_of (s_kernel s) p f = Some (D_dir i m)).
  { destruct (hold _ _ _ _ _ _ _ (reachable_sinv _ R) E1 D M) as [X|X]; [exact X|]. exfalso. apply D2.
    eapply gone; [exact (step_sinv _ _ _ HS H)|exact E2| |].
    - apply desc_of_find in D. pose proof (ki_fd _ (proj1 (reachable_sinv _ R)) _ _ D).
      pose proof (execution_next _ _ _ E1). pose proof (step_next _ _ _ H). lia.
    - eapply desc_new; [exact HS|exact H| |exact X].
      apply desc_of_find in D. pose proof (ki_fd _ (proj1 (reachable_sinv _ R)) _ _ D).
      pose proof (execution_next _ _ _ E1). lia. }
  pose proof (step_call_next _ _ _ _ _ H) as NC. split.
  - intros -> T. destruct (touch_locked _ _ _ _ RS NC T) as (j & x & DJ & _ & [md L]).
    replace j with i in L by congruence.
    apply (dir_exclusion _ p q i md RS); [congruence| |exact L]. exists f. split; [exact DS|discriminate].
  - intros W. destruct (write_locked _ _ _ _ RS NC W) as (j & x & DJ & _ & L).
    replace j with i in L by congruence.
    apply (dir_exclusion _ q p i m RS); [congruence|exact L|]. exists f. split; assumption.
Qed.

(** Two accesses through the same locked descriptor: nothing of another process that
    conflicts with them lies in between. *)
Lemma write_mode s p c d i m : reachable s -> next_call s p c -> writes c d ->
  desc_of (s_kernel s) p d = Some (D_dir i m) -> m <> L_NONE -> m = L_WRITE.
Proof.
  intros R N W D M. destruct (write_locked _ _ _ _ R N W) as (j & x & DJ & _ & (f & F & _)).
  replace j with i in F by congruence.
  destruct (N.eq_dec f d) as [->|NE]; [congruence|exfalso].
  apply desc_of_find in D. apply desc_of_find in F.
  pose proof (ki_lock _ (proj1 (reachable_sinv _ R)) f d p p _ _ NE F D) as X.
  cbn [same_place mode_of conflict] in X. rewrite N.eqb_refl in X. specialize (X eq_refl).
  destruct m; try contradiction; discriminate X.
Qed.

Lemma operation_atomic s1 l1 s q c r s' l2 s2 p d i m c1 c2 e m' :
  reachable s1 -> execution s1 l1 s -> step s (Ev_call q c r) s' -> execution s' l2 s2 ->
  next_call s1 p c1 -> touches c1 d -> next_call s2 p c2 -> touches c2 d ->
  desc_of (s_kernel s1) p d = Some (D_dir i m) -> m <> L_NONE ->
  q <> p -> desc_of (s_kernel s) q e = Some (D_dir i m') ->
  (writes c1 d \/ writes c2 d -> ~ touches c e) /\ ~ writes c e.
Proof.
  intros R E1 H E2 N1 T1 N2 T2 D M NE DQ.
  pose proof (reachable_execution _ _ _ R E1) as RS.
  pose proof (reachable_execution _ _ _ (reachable_step _ _ _ RS H) E2) as R2.
  destruct (touch_locked _ _ _ _ R2 N2 T2) as (j & x & D2 & _ & _).
  destruct (section_exclusive _ _ _ _ _ _ _ _ _ p d i m e m' R E1 H E2 D M ltac:(congruence) NE DQ) as [A B].
  split; [|exact B]. intros W. apply A.
  destruct W as [W|W]; [exact (write_mode _ _ _ _ _ _ R N1 W D M)|].
  assert (E : execution s1 (l1 ++ [Ev_call q c r] ++ l2) s2).
  { clear -E1 H E2. rewrite app_assoc. revert E2. generalize s2. induction l2 as [|a l IH] using rev_ind; intros t E2.
    - rewrite app_nil_r. inversion E2; subst; [|destruct l; discriminate]. econstructor; eassumption.
    - inversion E2 as [X|l' t' a' t'' E3 H3 X]; subst; [destruct l; discriminate|].
      apply app_inj_tail in X. destruct X as [-> ->]. rewrite app_assoc. econstructor; [apply IH; exact E3|exact H3]. }
  destruct (hold _ _ _ _ _ _ _ (reachable_sinv _ R) E D M) as [X|X]; [|congruence].
  exact (write_mode _ _ _ _ _ _ R2 N2 W X M).
Qed.

(** What a holder sees does not change under its hands. *)
Lemma holder_stable s e s' p i m mp :
  reachable s -> step s e s' -> actor e <> p ->
  locks_pindir (s_kernel s) p mp -> locks_dir (s_kernel s) p i m ->
  k_dirs (s_kernel s') i = k_dirs (s_kernel s) i /\
  forall n, ent_find n (k_ents (s_kernel s)) = Some i <-> ent_find n (k_ents (s_kernel s')) = Some i.
Proof.
  intros R H N P D. pose proof (reachable_sinv _ R) as HS.
  exact (re_lock _ _ _ (step_rely _ _ _ _ HS H N) (proj1 HS) (locks_pindir_locked _ _ _ P) i (locks_dir_locked _ _ _ _ D)).
Qed.

(** ** Creation and removal *)
Lemma ksys_ent_new k p c d n i :
  ent_find n (k_ents k) = None -> ent_find n (k_ents (fst (ksys k p c d))) = Some i ->
  (exists pd, c = C_mkdir pd n /\ snd (ksys k p c d) = R_ok) \/
  (exists pd a, c = C_rename pd a n /\ snd (ksys k p c d) = R_ok /\ ent_find a (k_ents k) = Some i).
Proof.
  intros A B. destruct (is_entcall c) eqn:L; [|rewrite ksys_ents in B by exact L; congruence].
  destruct c; try discriminate L.
  - destruct (mkdir_cases k p p0 n0 d) as [[e He]|[He Hn]]; rewrite He in *; cbn [fst snd] in *; [congruence|].
    left. exists p0. cbn [with_next with_dir with_ents k_ents ent_find] in B.
    destruct (name_eqb_spec n n0) as [->|]; [split; reflexivity|congruence].
  - destruct (rename_cases k p p0 a b d) as [[e He]|(j & He & Ha & Hb)]; rewrite He in *; cbn [fst snd] in *; [congruence|].
    right. cbn [with_ents k_ents ent_find] in B. rewrite ent_find_del in B.
    destruct (name_eqb_spec n b) as [->|].
    + exists p0, a. injection B as ->. split; [reflexivity|]. split; [reflexivity|exact Ha].
    + destruct (name_eqb_spec n a); congruence.
  - destruct (rmdir_cases k p p0 n0 d) as [[e He]|(j & He & Ha & Hb)]; rewrite He in *; cbn [fst snd] in *; [congruence|].
    cbn [with_ents k_ents] in B. rewrite ent_find_del in B. destruct (name_eqb_spec n n0); congruence.
Qed.

Lemma appears_locked s e s' n i :
  reachable s -> step s e s' -> is_staging n = false ->
  ent_find n (k_ents (s_kernel s)) = None -> ent_find n (k_ents (s_kernel s')) = Some i ->
  exists p pd a, e = Ev_call p (C_rename pd a n) R_ok /\ k_dirs (s_kernel s') i = [] /\
    locks_pindir (s_kernel s') p L_WRITE /\ locks_dir (s_kernel s') p i L_WRITE.
Proof.
  intros R H SN A B. pose proof (reachable_sinv _ R) as HS. pose proof (proj1 HS) as K.
  destruct H; cbn [s_kernel with_fds k_ents] in *; try congruence.
  pose proof (next_allowed s p c HS (ex_intro _ _ H)) as AL.
  destruct (ksys_ent_new _ _ _ _ _ _ A B) as [(pd & -> & X)|(pd & a & -> & X & Y)]; cbn [allowed] in AL.
  - destruct AL as [_ AL]. congruence.
  - destruct AL as ((g & PX) & SA & j & EJ & (h & DX) & EM). replace j with i in * by congruence.
    exists p, pd, a. rewrite X. split; [reflexivity|].
    rewrite ksys_dirs by reflexivity. split; [exact EM|].
    split; [exists g|exists h]; (split; [|discriminate]); (rewrite ksys_desc; [assumption| |reflexivity]);
      [apply desc_of_find in PX; exact (ki_fd _ K _ _ PX)|apply desc_of_find in DX; exact (ki_fd _ K _ _ DX)].
Qed.

Lemma ksys_ent_gone k p c d n i :
  ent_find n (k_ents k) = Some i -> ent_find n (k_ents (fst (ksys k p c d))) <> Some i -> kinv k ->
  (exists pd, c = C_rmdir pd n /\ snd (ksys k p c d) = R_ok /\ k_dirs k i = []) \/
  (exists pd b, c = C_rename pd n b /\ snd (ksys k p c d) = R_ok).
Proof.
  intros A B K. destruct (is_entcall c) eqn:L; [|rewrite ksys_ents in B by exact L; congruence].
  destruct c; try discriminate L.
  - destruct (mkdir_cases k p p0 n0 d) as [[e He]|[He Hn]]; rewrite He in *; cbn [fst snd] in *; [congruence|].
    cbn [with_next with_dir with_ents k_ents ent_find] in B.
    destruct (name_eqb_spec n n0) as [->|]; congruence.
  - destruct (rename_cases k p p0 a b d) as [[e He]|(j & He & Ha & Hb)]; rewrite He in *; cbn [fst snd] in *; [congruence|].
    right. cbn [with_ents k_ents ent_find] in B. rewrite ent_find_del in B.
    destruct (name_eqb_spec n b) as [->|]; [congruence|].
    destruct (name_eqb_spec n a) as [->|]; [|congruence]. exists p0, b. split; reflexivity.
  - destruct (rmdir_cases k p p0 n0 d) as [[e He]|(j & He & Ha & Hb)]; rewrite He in *; cbn [fst snd] in *; [congruence|].
    cbn [with_ents k_ents] in B. rewrite ent_find_del in B. destruct (name_eqb_spec n n0) as [->|]; [|congruence].
    left. exists p0. split; [reflexivity|]. split; [reflexivity|]. congruence.
Qed.

Lemma disappears_free s e s' n i :
  reachable s -> step s e s' -> is_staging n = false ->
  ent_find n (k_ents (s_kernel s)) = Some i -> ent_find n (k_ents (s_kernel s')) <> Some i ->
  exists p pd, e = Ev_call p (C_rmdir pd n) R_ok /\ k_dirs (s_kernel s) i = [] /\
    forall q, q <> p -> (forall m, ~ locks_dir (s_kernel s) q i m) /\ ~ locks_pindir (s_kernel s) q L_WRITE.
Proof.
  intros R H SN A B. pose proof (reachable_sinv _ R) as HS. pose proof (proj1 HS) as K.
  destruct H; cbn [s_kernel with_fds k_ents] in *; try congruence; try contradiction.
  pose proof (next_allowed s p c HS (ex_intro _ _ H)) as AL.
  destruct (ksys_ent_gone _ _ _ _ _ _ A B K) as [(pd & -> & X & E)|(pd & b & -> & X)]; cbn [allowed] in AL.
  - exists p, pd. rewrite X. split; [reflexivity|]. split; [exact E|]. destruct AL as [PL AL].
    intros q NQ. split.
    + intros m L. specialize (AL _ A). destruct AL as [DX|[PX AL]].
      * eapply dir_excl; [exact K| |exact DX|exact (locks_dir_locked _ _ _ _ L)]. congruence.
      * destruct L as (f' & D & _). apply NQ. exact (AL _ _ _ D).
    + intros L. eapply pin_excl; [exact K|exact NQ|exact (locks_pindir_ex _ _ L)|exact PL].
  - destruct AL as (_ & SA & _). congruence.
Qed.

(** Any removal, of staging directories too. *)
Lemma rmdir_free s p pd n s' :
  reachable s -> step s (Ev_call p (C_rmdir pd n) R_ok) s' ->
  exists i, ent_find n (k_ents (s_kernel s)) = Some i /\ k_dirs (s_kernel s) i = [] /\
    forall q, q <> p -> (forall m, ~ locks_dir (s_kernel s) q i m) /\ ~ locks_pindir (s_kernel s) q L_WRITE.
Proof.
  intros R H. pose proof (reachable_sinv _ R) as HS. pose proof (proj1 HS) as K.
  pose proof (next_allowed s p _ HS (step_call_next _ _ _ _ _ H)) as AL. cbn [allowed] in AL. destruct AL as [PL AL].
  inversion H; subst.
  destruct (rmdir_cases (s_kernel s) p pd n d) as [[e He]|(i & He & Ha & Hb)]; [rewrite He in *; discriminate|].
  exists i. split; [exact Ha|]. split; [exact Hb|]. intros q NQ. split.
  + intros m L. specialize (AL _ Ha). destruct AL as [DX|[PX AL]].
    * eapply dir_excl; [exact K| |exact DX|exact (locks_dir_locked _ _ _ _ L)]. congruence.
    * destruct L as (g & D & _). apply NQ. exact (AL _ _ _ D).
  + intros L. eapply pin_excl; [exact K|exact NQ|exact (locks_pindir_ex _ _ L)|exact PL].
Qed.

Lemma execution_cons s e s' : step s e s' -> forall l t, execution s' l t -> execution s (e :: l) t.
Proof.
  intros H l t E. induction E as [|l t a t' E IH HS].
  - change [e] with ([] ++ [e]). econstructor; [constructor|exact H].
  - change (e :: l ++ [a]) with ((e :: l) ++ [a]). econstructor; eassumption.
Qed.

(** Between two creations of the same name there is a removal. *)
Lemma rename_ok s p pd a n s' : step s (Ev_call p (C_rename pd a n) R_ok) s' ->
  ent_find n (k_ents (s_kernel s)) = None /\ exists i, ent_find n (k_ents (s_kernel s')) = Some i.
Proof.
  intros H. inversion H; subst. destruct (rename_cases (s_kernel s) p pd a n d) as [[e He]|(i & He & Ha & Hb)].
  - rewrite He in *. discriminate.
  - split; [exact Hb|]. exists i. rewrite He. cbn [s_kernel fst with_ents k_ents ent_find]. rewrite name_eqb_refl. reflexivity.
Qed.

Lemma bound_until_removed s1 l s2 n i :
  reachable s1 -> is_staging n = false -> execution s1 l s2 -> ent_find n (k_ents (s_kernel s1)) = Some i ->
  ent_find n (k_ents (s_kernel s2)) = Some i \/ exists p pd, In (Ev_call p (C_rmdir pd n) R_ok) l.
Proof.
  intros R SN E B. induction E as [|l s e s' E IH H]; [left; exact B|].
  destruct IH as [IH|(p & pd & IH)]; [|right; exists p, pd; apply in_or_app; left; exact IH].
  pose proof (reachable_execution _ _ _ R E) as RS.
  assert (DEC : forall a b : option ino, {a = b} + {a <> b}) by (decide equality; apply N.eq_dec).
  destruct (DEC (ent_find n (k_ents (s_kernel s'))) (Some i)) as [X|X]; [left; exact X|right].
  destruct (disappears_free _ _ _ _ _ RS H SN IH X) as (p & pd & -> & _).
  exists p, pd. apply in_or_app. right. left. reflexivity.
Qed.

Lemma two_creations s1 p1 pd1 a1 n s2 l s3 p2 pd2 a2 s4 :
  reachable s1 -> is_staging n = false ->
  step s1 (Ev_call p1 (C_rename pd1 a1 n) R_ok) s2 -> execution s2 l s3 ->
  step s3 (Ev_call p2 (C_rename pd2 a2 n) R_ok) s4 ->
  exists p pd, In (Ev_call p (C_rmdir pd n) R_ok) l.
Proof.
  intros R SN H1 E H2. destruct (rename_ok _ _ _ _ _ _ H1) as [_ [i B]]. destruct (rename_ok _ _ _ _ _ _ H2) as [A _].
  destruct (bound_until_removed _ _ _ _ _ (reachable_step _ _ _ R H1) SN E B) as [X|X]; [congruence|exact X].
Qed.

(** ** A function that runs while others act *)
Definition oinv (p : pid) (s : system) : Prop :=
  kinv (s_kernel s) /\ forall q m, q <> p -> s_proc s q = Inside m -> wpc q m (done q) (s_kernel s).

Lemma sinv_oinv p s : sinv s -> oinv p s.
Proof. intros [K I]. split; [exact K|]. intros q m _. apply I. Qed.

Lemma ostep_rely s e s' p : oinv p s -> step s e s' -> actor e <> p -> rely p (s_kernel s) (s_kernel s').
Proof.
  intros [K I] H N. destruct H; cbn [s_kernel actor] in *; try apply rely_refl.
  - apply rely_sys; [exact K|congruence|]. specialize (I _ _ N H). cbn [wpc] in I. apply (I _ (rely_refl _ _)).
  - eapply rely_close with (q := p0); [congruence|]. exists d. exact H0.
Qed.

Lemma ostep_oinv s e s' p : oinv p s -> step s e s' -> actor e <> p -> oinv p s'.
Proof.
  intros HI H N. pose proof HI as [K I]. split.
  - destruct H; cbn [s_kernel]; try exact K; [apply ksys_kinv, K|apply kinv_del, K].
  - intros q m NQ Hq.
    destruct (N.eq_dec (actor e) q) as [E|E].
    + destruct H; cbn [actor s_kernel s_proc set_proc] in *; subst q; unfold set_proc, updN in Hq; try rewrite N.eqb_refl in Hq.
      * injection Hq as <-. apply wpc_api, K.
      * injection Hq as <-. specialize (I _ _ NQ H). cbn [wpc] in I. apply (I _ (rely_refl _ _)).
      * discriminate Hq.
      * discriminate Hq.
      * congruence.
    + assert (R : rely q (s_kernel s) (s_kernel s')).
      { destruct H; cbn [s_kernel actor] in *; try apply rely_refl.
        - apply rely_sys; [exact K|congruence|]. specialize (I _ _ N H). cbn [wpc] in I. apply (I _ (rely_refl _ _)).
        - eapply rely_close with (q := p0); [congruence|]. exists d. exact H0. }
      apply wpc_rely with (k := s_kernel s); [exact R|].
      apply I; [exact NQ|]. rewrite <- Hq. symmetry. destruct H; cbn [actor s_proc set_proc] in *; unfold set_proc, updN; try reflexivity;
        (destruct (N.eqb_spec q p0) as [->|]; [congruence|reflexivity]).
Qed.

Lemma own_oinv p s c d : oinv p s -> allowed (s_kernel s) p c -> oinv p (mkSys (fst (ksys (s_kernel s) p c d)) (s_proc s)).
Proof.
  intros [K I] A. split; cbn [s_kernel s_proc]; [apply ksys_kinv, K|]. intros q m NQ Hq.
  apply wpc_rely with (k := s_kernel s); [|apply I; assumption]. apply rely_sys; auto.
Qed.

Lemma runs_wpc {A} p (m : prog A) s a t : runs p m s a t -> forall Q,
  oinv p s -> wpc p m Q (s_kernel s) -> Q a (s_kernel t) /\ oinv p t.
Proof.
  induction 1 as [a s|m s e s' a t H N HR IH|c f d s a t HR IH]; intros Q HO HW.
  - split; [exact (HW _ (rely_refl _ _))|exact HO].
  - apply IH; [eapply ostep_oinv; eauto|]. eapply wpc_rely; [eapply ostep_rely; eauto|exact HW].
  - cbn [wpc] in HW. destruct (HW _ (rely_refl _ _)) as [AL HF].
    apply IH; [apply own_oinv; assumption|apply HF].
Qed.

Lemma holds_st p lk k : kinv k -> holds_pindir k p lk -> st p lk (fun _ => False) k.
Proof.
  intros K (NC & b & f & B & DB & F & DF). constructor; [exact K| |intros g []].
  constructor; intros; congruence.
Qed.

Lemma create_outcome p lk n s r t :
  reachable s -> holds_pindir (s_kernel s) p lk -> lk_pinmode lk = L_WRITE ->
  runs p (acquire_chain lk n L_WRITE true) s r t ->
  match r with
  | Ok lk' => exists f i, lk' = mkLk (lk_bpffs lk) (lk_pin lk) (lk_pinmode lk) (Some (f, n, L_WRITE)) /\
      desc_of (s_kernel t) p f = Some (D_dir i L_WRITE) /\
      ent_find n (k_ents (s_kernel s)) = None /\
      k_ents (s_kernel t) = (n, i) :: k_ents (s_kernel s) /\ k_dirs (s_kernel t) i = []
  | Er _ => k_ents (s_kernel t) = k_ents (s_kernel s)
  end /\
  forall m i, ent_find m (k_ents (s_kernel s)) = Some i -> k_dirs (s_kernel t) i = k_dirs (s_kernel s) i.
Proof.
  intros R HP W HR. pose proof (sinv_oinv p _ (reachable_sinv _ R)) as HO. pose proof HO as [K _].
  assert (RL : rl lk).
  { split; [|rewrite W; discriminate]. destruct HP as (_ & b & f & _ & _ & F & _). congruence. }
  destruct (runs_wpc _ _ _ _ _ HR _ HO (wpc_acquire p lk _ _ n L_WRITE true (holds_st _ _ _ K HP) RL ltac:(discriminate))) as [B _].
  destruct r as [lk'|e].
  - destruct B as (f & -> & NC & H & _ & B). destruct (B eq_refl) as (_ & _ & i & E1 & E2 & E3 & E4 & E5).
    destruct (hl_chain _ _ _ (st_held _ _ _ _ H) _ _ _ eq_refl) as (_ & _ & _ & j & D & F).
    rewrite E1 in F. cbn [ent_find] in F. rewrite name_eqb_refl in F. injection F as <-.
    split; [exists f, i; repeat split; assumption|].
    intros m x X. apply E4. exact (ki_ent _ K _ _ X).
  - destruct B as [H B]. specialize (B ltac:(split; [apply RL|exact W])). split; [exact (to_ents _ _ B)|].
    intros m x X. apply (to_dirs _ _ B). exact (ki_ent _ K _ _ X).
Qed.

Lemma acquire_live p lk n m s lk' t :
  reachable s -> holds_pindir (s_kernel s) p lk -> lk_pinmode lk <> L_NONE -> m <> L_NONE ->
  runs p (acquire_chain lk n m false) s (Ok lk') t ->
  exists f i, lk' = mkLk (lk_bpffs lk) (lk_pin lk) (lk_pinmode lk) (Some (f, n, m)) /\
    desc_of (s_kernel t) p f = Some (D_dir i m) /\ ent_find n (k_ents (s_kernel t)) = Some i /\
    (* and this stays so while the others act *)
    forall t', runs p (Ret tt) t tt t' ->
      desc_of (s_kernel t') p f = Some (D_dir i m) /\ ent_find n (k_ents (s_kernel t')) = Some i /\
      k_dirs (s_kernel t') i = k_dirs (s_kernel t) i.
Proof.
  intros R HP W M HR. pose proof (sinv_oinv p _ (reachable_sinv _ R)) as HO. pose proof HO as [K _].
  assert (RL : rl lk).
  { split; [|exact W]. destruct HP as (_ & b & f & _ & _ & F & _). congruence. }
  destruct (runs_wpc _ _ _ _ _ HR _ HO (wpc_acquire p lk _ _ n m false (holds_st _ _ _ K HP) RL M)) as [B HO'].
  destruct B as (f & -> & NC & H & _ & _).
  destruct (hl_chain _ _ _ (st_held _ _ _ _ H) _ _ _ eq_refl) as (_ & _ & _ & i & D & F).
  exists f, i. split; [reflexivity|]. split; [exact D|]. split; [exact F|].
  intros t' HR'.
  assert (X : rely p (s_kernel t) (s_kernel t')).
  { pose (Q := fun (_ : unit) k => rely p (s_kernel t) k).
    destruct (runs_wpc _ _ _ _ _ HR' Q HO') as [Y _]; [|exact Y]. intros k1 R1. exact R1. }
  rewrite (re_desc _ _ _ X). split; [exact D|].
  assert (PL : pin_locked (s_kernel t) p).
  { exact (st_locked _ _ _ _ H RL). }
  assert (DL : dir_locked (s_kernel t) p i) by (exists f, m; split; assumption).
  destruct (re_lock _ _ _ X (proj1 HO') PL i DL) as [E1 E2]. split; [apply E2, F|exact E1].
Qed.

(** The common start of every operation on one existing chain. *)
Lemma init_live p n pm cm s lk t :
  reachable s -> pm <> L_NONE -> cm <> L_NONE ->
  runs p (lock_init_for_chain n pm cm false) s (Ok lk) t ->
  exists b d f i, lk = mkLk (Some b) (Some d) pm (Some (f, n, cm)) /\
    desc_of (s_kernel t) p d = Some (D_pindir pm) /\
    desc_of (s_kernel t) p f = Some (D_dir i cm) /\ ent_find n (k_ents (s_kernel t)) = Some i /\
    forall t', runs p (Ret tt) t tt t' ->
      desc_of (s_kernel t') p f = Some (D_dir i cm) /\ ent_find n (k_ents (s_kernel t')) = Some i /\
      k_dirs (s_kernel t') i = k_dirs (s_kernel t) i.
Proof.
  intros R Hp Hc HR. pose proof (sinv_oinv p _ (reachable_sinv _ R)) as HO. pose proof HO as [K _].
  assert (H0 : st p empty_lock (fun _ => False) (s_kernel s)).
  { constructor; [exact K| |intros g []]. constructor; intros; discriminate. }
  destruct (runs_wpc _ _ _ _ _ HR _ HO (wpc_init_for_chain p _ _ n pm cm false H0 Hp Hc)) as [B HO'].
  destruct B as (f & B1 & B2 & B3 & B4 & H).
  destruct lk as [[b|] [d|] pm' c']; cbn [lk_bpffs lk_pin lk_pinmode lk_chain] in *; try contradiction. subst pm' c'.
  destruct (hl_chain _ _ _ (st_held _ _ _ _ H) _ _ _ eq_refl) as (_ & _ & _ & i & D & F).
  pose proof (hl_pin _ _ _ (st_held _ _ _ _ H) d eq_refl) as PD. cbn [lk_pinmode] in PD.
  exists b, d, f, i. split; [reflexivity|]. split; [exact PD|]. split; [exact D|]. split; [exact F|].
  intros t' HR'.
  assert (X : rely p (s_kernel t) (s_kernel t')).
  { pose (Q := fun (_ : unit) k => rely p (s_kernel t) k).
    destruct (runs_wpc _ _ _ _ _ HR' Q HO') as [Y _]; [|exact Y]. intros k1 R1. exact R1. }
  rewrite (re_desc _ _ _ X). split; [exact D|].
  assert (PL : pin_locked (s_kernel t) p) by (exists d, pm; split; assumption).
  assert (DL : dir_locked (s_kernel t) p i) by (exists f, cm; split; assumption).
  destruct (re_lock _ _ _ X (proj1 HO') PL i DL) as [E1 E2]. split; [apply E2, F|exact E1].
Qed.
