(** Acquiring, releasing and setting up locks; the sweep of staging directories. *)
From Coq Require Import NArith ZArith List Bool Lia.
From Verif Require Import Bytes Types World BpfModel GenModel BytesFacts StrModel SetModel PackModel HookModel KernModel LockModel CtlModel SysSpec SysFacts RelyFacts LockFacts.
Import ListNotations.
Local Open Scope N_scope.

Lemma st_pin_neq p lk S k pd f i m : st p lk S k -> lk_pin lk = Some pd -> desc_of k p f = Some (D_dir i m) -> lk_pin lk <> Some f.
Proof. intros H E D X. apply (hl_pin _ _ _ (st_held _ _ _ _ H)) in X. congruence. Qed.

Lemma ksys_desc_plain k p c d f : kinv k -> is_plain c = true -> f < k_next k -> desc_of (fst (ksys k p c d)) p f = desc_of k p f.
Proof.
  intros K P H. unfold is_plain in P. apply andb_prop in P. destruct P as [P _]. apply andb_prop in P. destruct P as [P _].
  apply negb_true_iff in P. apply ksys_desc; assumption.
Qed.

Lemma fstat_cases k p f i m d : desc_of k p f = Some (D_dir i m) ->
  (exists e, ksys k p (C_fstat f) d = (k, R_err e)) \/ ksys k p (C_fstat f) d = (k, R_ino i).
Proof. intros H. destruct d as [|e|s]; cbn [ksys can_fail kdo]; unfold dir_of; rewrite ?H; eauto. Qed.

Lemma stat_cases k p pd n d :
  (exists e, ksys k p (C_stat pd n) d = (k, R_err e)) \/
  (exists i, ksys k p (C_stat pd n) d = (k, R_ino i) /\ ent_find n (k_ents k) = Some i).
Proof.
  assert (G : forall s, (exists e, kdo k p (C_stat pd n) s = (k, R_err e)) \/
    (exists i, kdo k p (C_stat pd n) s = (k, R_ino i) /\ ent_find n (k_ents k) = Some i)).
  { intros s. cbn [kdo]. destruct (negb (is_pindir k p pd)); [eauto|]. destruct (ent_find n (k_ents k)); eauto. }
  destruct d as [|e|s]; cbn [ksys can_fail]; [apply G|left; eauto|apply G].
Qed.

Lemma wpc_open_existing p lk S pd nm m : rl lk -> m <> L_NONE -> forall n k,
  st p lk S k ->
  wpc p (open_existing n pd nm m)
    (fun r k' => st p lk S k' /\ same p lk k k' /\
       match r with
       | Ok f => not_held lk f /\ exists i, desc_of k' p f = Some (D_dir i m) /\ ent_find nm (k_ents k') = Some i
       | Er _ => True
       end) k.
Proof.
  intros W Hm. induction n as [|n IH]; intros k H; cbn [open_existing].
  - eapply wpc_ret_st; [exact H|]. intros k1 H1 E1 _. auto.
  - apply wpc_bind. eapply wpc_post; [|exact (wpc_opendir p lk S k pd nm H W)].
    intros [f|e] k1 (H1 & E1 & B).
    2:{ eapply wpc_ret_st; [exact H1|]. intros k2 H2 E2 _. split; [exact H2|].
        split; [eapply same_trans; eassumption|exact Logic.I]. }
    destruct B as (NH & i & Hd & _).
    apply wpc_bind. eapply wpc_post; [|exact (wpc_flock p lk S k1 f m i H1 NH Hd)].
    intros [[]|e] k2 (H2 & E2 & B); pose proof (same_trans _ _ _ _ _ E1 E2) as E12.
    2:{ eapply wpc_close'; [exact NH|exact H2|]. intros k3 H3 E3. eapply wpc_ret_st; [exact H3|].
        intros k4 H4 E4 _. split; [exact H4|]. split; [|exact Logic.I].
        eapply same_trans; [exact E12|eapply same_trans; eassumption]. }
    apply wpc_do. intros k3 R. pose proof (st_rely _ _ _ _ _ R H2) as H3. pose proof (same_rely _ _ _ _ _ H2 R) as E3.
    rewrite <- (re_desc _ _ _ R) in B. pose proof (same_trans _ _ _ _ _ E12 E3) as E13.
    split; [exact Logic.I|]. intros d.
    assert (CL : forall (e : N) k', st p lk S k' -> same p lk k k' ->
       wpc p (pbind (sys_ (C_close f)) (fun _ => Ret (Er e)))
         (fun (r : res fd) k' => st p lk S k' /\ same p lk k k' /\
       match r with
       | Ok f => not_held lk f /\ exists i, desc_of k' p f = Some (D_dir i m) /\ ent_find nm (k_ents k') = Some i
       | Er _ => True
       end) k').
    { intros e k' H' E'. eapply wpc_close'; [exact NH|exact H'|]. intros k4 H4 E4. eapply wpc_ret_st; [exact H4|].
      intros k5 H5 E5 _. split; [exact H5|]. split; [|exact Logic.I].
      eapply same_trans; [exact E'|eapply same_trans; eassumption]. }
    assert (RT : forall k', st p lk S k' -> same p lk k k' ->
       wpc p (pbind (sys_ (C_close f)) (fun _ => open_existing n pd nm m))
         (fun (r : res fd) k' => st p lk S k' /\ same p lk k k' /\
       match r with
       | Ok f => not_held lk f /\ exists i, desc_of k' p f = Some (D_dir i m) /\ ent_find nm (k_ents k') = Some i
       | Er _ => True
       end) k').
    { intros k' H' E'. eapply wpc_close'; [exact NH|exact H'|]. intros k4 H4 E4.
      eapply wpc_post; [|apply IH; exact H4]. intros r k5 (A5 & B5 & C5). split; [exact A5|]. split; [|exact C5].
      eapply same_trans; [exact E'|eapply same_trans; eassumption]. }
    destruct (fstat_cases k3 p f i m d B) as [[e He]|He]; rewrite He; cbn [fst snd]; [apply CL; assumption|].
    apply wpc_do. intros k4 R4. pose proof (st_rely _ _ _ _ _ R4 H3) as H4. pose proof (same_rely _ _ _ _ _ H3 R4) as E4.
    rewrite <- (re_desc _ _ _ R4) in B. pose proof (same_trans _ _ _ _ _ E13 E4) as E14.
    split; [exact Logic.I|]. intros d4.
    destruct (stat_cases k4 p pd nm d4) as [[e4 He4]|(j & He4 & Hj)]; rewrite He4; cbn [fst snd]; [apply RT; assumption|].
    destruct (N.eqb_spec i j) as [Eij|Eij]; [|apply RT; assumption]. subst j.
    eapply wpc_ret_st; [exact H4|]. intros k5 H5 E5 R5.
    split; [exact H5|]. split; [eapply same_trans; eassumption|]. split; [exact NH|].
    exists i. rewrite (re_desc _ _ _ R5). split; [exact B|].
    destruct (re_lock _ _ _ R5 (st_inv _ _ _ _ H4) (st_locked _ _ _ _ H4 W) i) as [_ X].
    + exists f, m. split; assumption.
    + apply X, Hj.
Qed.

Definition lk_with (lk : lock) (c : option (fd * name * lmode)) : lock := mkLk (lk_bpffs lk) (lk_pin lk) (lk_pinmode lk) c.

Lemma st_with_chain p lk S k f n m i :
  st p lk S k -> rl lk -> m <> L_NONE -> desc_of k p f = Some (D_dir i m) -> ent_find n (k_ents k) = Some i ->
  st p (lk_with lk (Some (f, n, m))) S k.
Proof.
  intros [K H N] [W1 W2] Hm D E. constructor; auto. destruct H as [A B C]. constructor; auto.
  intros g x y X. cbn [lk_with lk_chain] in X. injection X as <- <- <-. eauto 10.
Qed.

Lemma st_without_chain p lk S k : st p lk S k -> st p (lk_with lk None) S k.
Proof. intros [K H N]. constructor; auto. destruct H as [A B C]. constructor; auto. intros g x y X. discriminate X. Qed.

Lemma wpc_alloc p lk S k : st p lk S k -> wpc p (sys_unit C_alloc) (fun _ k' => st p lk S k' /\ same p lk k k') k.
Proof.
  intros H. unfold sys_unit. eapply wpc_plain; [reflexivity|exact H|intros; exact Logic.I|].
  intros k1 d H1 E1 H2 E2.
  assert (G : forall a : res unit, wpc p (Ret a) (fun _ k' => st p lk S k' /\ same p lk k k') (fst (ksys k1 p C_alloc d))).
  { intros a. eapply wpc_ret_st; [exact H2|]. intros k3 H3 E3 _. split; [exact H3|]. eapply same_trans; eassumption. }
  destruct (snd (ksys k1 p C_alloc d)); apply G.
Qed.

(** What a successful acquisition gives. *)
Lemma wpc_acquire p lk S k n m create :
  st p lk S k -> rl lk -> m <> L_NONE ->
  wpc p (acquire_chain lk n m create)
    (fun r k' =>
       match r with
       | Ok lk' => exists f, lk' = lk_with lk (Some (f, n, m)) /\ lk_chain lk = None /\ st p lk' S k' /\
                   (create = false -> same p lk k k') /\
                   (create = true -> wl lk /\ m = L_WRITE /\ exists i, k_ents k' = (n, i) :: k_ents k /\ ent_find n (k_ents k) = None /\
                      k_dirs k' i = [] /\ (forall j, j < k_next k -> k_dirs k' j = k_dirs k j) /\ k_next k <= i)
       | Er _ => st p lk S k' /\ (wl lk -> treeold k k')
       end) k.
Proof.
  intros H W Hm. unfold acquire_chain.
  assert (ER : forall e k', st p lk S k' -> same p lk k k' ->
    wpc p (Ret (Er e)) (fun (r : res lock) k' =>
       match r with
       | Ok lk' => exists f, lk' = lk_with lk (Some (f, n, m)) /\ lk_chain lk = None /\ st p lk' S k' /\
                   (create = false -> same p lk k k') /\
                   (create = true -> wl lk /\ m = L_WRITE /\ exists i, k_ents k' = (n, i) :: k_ents k /\ ent_find n (k_ents k) = None /\
                      k_dirs k' i = [] /\ (forall j, j < k_next k -> k_dirs k' j = k_dirs k j) /\ k_next k <= i)
       | Er _ => st p lk S k' /\ (wl lk -> treeold k k')
       end) k').
  { intros e k' H' E'. eapply wpc_ret_st; [exact H'|]. intros k1 H1 E1 _. split; [exact H1|].
    intros X. eapply treeq_old. exact (same_trans _ _ _ _ _ E' E1 X). }
  destruct (lk_bpffs lk) as [b|] eqn:Eb; [|apply ER; [exact H|apply same_refl]].
  destruct (lk_pin lk) as [pd|] eqn:Ep; [|apply ER; [exact H|apply same_refl]].
  destruct (lk_chain lk) as [x|] eqn:Ec; [apply ER; [exact H|apply same_refl]|].
  destruct (create && negb (is_write m)) eqn:E1; [apply ER; [exact H|apply same_refl]|].
  destruct (create && negb (is_write (lk_pinmode lk))) eqn:E2; [apply ER; [exact H|apply same_refl]|].
  apply wpc_bind. eapply wpc_post; [|exact (wpc_alloc p lk S k H)].
  intros [[]|e] k1 (H1 & EQ1); [|apply ER; assumption].
  apply wpc_bind. destruct create.
  - assert (WL : wl lk).
    { split; [rewrite Ep; discriminate|]. destruct (lk_pinmode lk); [discriminate E2|discriminate E2|reflexivity]. }
    assert (Em : m = L_WRITE) by (destruct m; [discriminate E1|discriminate E1|reflexivity]).
    eapply wpc_post; [|exact (wpc_stage_and_publish p lk S k1 pd n WL Ec Ep H1)].
    specialize (EQ1 WL).
    intros [f|e] k2 (H2 & B).
    + destruct B as (NH & i & D & A1 & A2 & A3 & A4 & A5).
      assert (EF : ent_find n (k_ents k2) = Some i) by (rewrite A1; cbn [ent_find]; rewrite name_eqb_refl; reflexivity).
      rewrite <- Em in D.
      pose proof (st_with_chain p lk S k2 f n m i H2 W Hm D EF) as H2'.
      rewrite <- Eb, <- Ep. eapply wpc_ret_st; [exact H2'|]. intros k3 H3 E3 _.
      assert (WL' : wl (lk_with lk (Some (f, n, m)))) by exact WL. specialize (E3 WL').
      exists f. split; [reflexivity|]. split; [reflexivity|]. split; [exact H3|]. split; [discriminate|].
      intros _. split; [exact WL|]. split; [exact Em|]. exists i.
      rewrite (tq_ents _ _ _ E3), (tq_dirs _ _ _ E3), A1, (tq_ents _ _ _ EQ1).
      split; [reflexivity|]. split; [rewrite <- (tq_ents _ _ _ EQ1); exact A2|]. split; [exact A3|].
      pose proof (tq_next _ _ _ EQ1). split; [|lia].
      intros j Hj. rewrite (tq_dirs _ _ _ E3), A4 by lia. apply (tq_dirs _ _ _ EQ1).
    + eapply wpc_ret_st; [exact H2|]. intros k3 H3 E3 _. split; [exact H3|]. intros X.
      eapply treeold_trans; [eapply treeq_old, EQ1|]. eapply treeold_trans; [exact B|eapply treeq_old, E3, X].
  - eapply wpc_post; [|exact (wpc_open_existing p lk S pd n m W Hm 8 k1 H1)].
    intros [f|e] k2 (H2 & E2' & B).
    + destruct B as (NH & i & D & EF).
      pose proof (st_with_chain p lk S k2 f n m i H2 W Hm D EF) as H2'.
      rewrite <- Eb, <- Ep. eapply wpc_ret_st; [exact H2'|]. intros k3 H3 E3 _.
      exists f. split; [reflexivity|]. split; [reflexivity|]. split; [exact H3|]. split; [|discriminate].
      intros _. eapply same_trans; [exact EQ1|]. eapply same_trans; [exact E2'|]. exact E3.
    + apply ER; [exact H2|]. eapply same_trans; eassumption.
Qed.

(** Releasing a chain: an empty directory is removed, anything else is left alone. *)
Record released (k k' : kst) (n : name) : Prop := {
  rs_other : forall x, x <> n -> ent_find x (k_ents k') = ent_find x (k_ents k);
  rs_this : forall i, ent_find n (k_ents k) = Some i -> k_dirs k i <> [] -> k_ents k' = k_ents k;
  rs_dirs : forall i, k_dirs k' i = k_dirs k i;
  rs_next : k_next k <= k_next k'
}.

Lemma wpc_release p lk S k :
  st p lk S k ->
  wpc p (release_chain lk) (fun lk' k' => (lk' = lk_with lk None \/ (lk' = lk /\ (lk_bpffs lk = None \/ lk_pin lk = None \/ lk_chain lk = None))) /\ st p lk' S k' /\
     (wl lk -> lk_bpffs lk <> None -> forall f n m, lk_chain lk = Some (f, n, m) -> released k k' n)) k.
Proof.
  intros H. unfold release_chain.
  destruct (lk_bpffs lk) as [b|] eqn:Eb.
  2:{ eapply wpc_ret_st; [exact H|]. intros k1 H1 E1 _. split; [right; tauto|]. split; [exact H1|]. intros _ X; congruence. }
  destruct (lk_pin lk) as [pd|] eqn:Ep.
  2:{ eapply wpc_ret_st; [exact H|]. intros k1 H1 E1 _. split; [right; tauto|]. split; [exact H1|].
      intros _ _ f n m X. destruct (hl_chain _ _ _ (st_held _ _ _ _ H) _ _ _ X) as (_ & _ & Y & _). congruence. }
  destruct (lk_chain lk) as [[[f n] m]|] eqn:Ec.
  2:{ eapply wpc_ret_st; [exact H|]. intros k1 H1 E1 _. split; [right; tauto|]. split; [exact H1|]. discriminate. }
  apply wpc_bind.
  assert (NH : not_held (lk_with lk None) f).
  { destruct (hl_chain _ _ _ (st_held _ _ _ _ H) _ _ _ Ec) as (_ & _ & _ & i & D & _).
    repeat split; cbn [lk_with lk_bpffs lk_pin lk_chain].
    - intros X. apply (hl_bpffs _ _ _ (st_held _ _ _ _ H)) in X. congruence.
    - intros X. apply (hl_pin _ _ _ (st_held _ _ _ _ H)) in X. congruence.
    - discriminate. }
  assert (G : forall k1, st p (lk_with lk None) S k1 -> (wl lk -> released k k1 n) ->
     wpc p (pbind (sys_ (C_close f)) (fun _ => Ret (mkLk (Some b) (Some pd) (lk_pinmode lk) None)))
      (fun lk' k' => (lk' = lk_with lk None \/ (lk' = lk /\ (Some b = None \/ Some pd = None \/ Some (f, n, m) = None))) /\ st p lk' S k' /\
     (wl lk -> Some b <> None -> forall f0 n0 m0, Some (f, n, m) = Some (f0, n0, m0) -> released k k' n0)) k1).
  { intros k1 H1 R1. eapply wpc_close'; [exact NH|exact H1|]. intros k2 H2 E2.
    assert (X : mkLk (Some b) (Some pd) (lk_pinmode lk) None = lk_with lk None) by (unfold lk_with; congruence).
    rewrite X. eapply wpc_ret_st; [exact H2|]. intros k3 H3 E3 _.
    split; [left; reflexivity|]. split; [exact H3|]. intros WL _ f0 n0 m0 Y. injection Y as _ <- _.
    pose proof (R1 WL) as [A B C D]. assert (WL' : wl (lk_with lk None)) by exact WL.
    pose proof (same_trans _ _ _ _ _ E2 E3 WL') as [A' B' C' D'].
    constructor.
    - intros x Hx. rewrite A'. apply A, Hx.
    - intros i Hi Hn. rewrite A'. eapply B; eauto.
    - intros i. rewrite B'. apply C.
    - lia. }
  assert (GN : m <> L_WRITE -> forall k1, st p lk S k1 -> same p lk k k1 -> wpc p (Ret tt) (fun _ k2 => wpc p (pbind (sys_ (C_close f)) (fun _ => Ret (mkLk (Some b) (Some pd) (lk_pinmode lk) None)))
      (fun lk' k' => (lk' = lk_with lk None \/ (lk' = lk /\ (Some b = None \/ Some pd = None \/ Some (f, n, m) = None))) /\ st p lk' S k' /\
     (wl lk -> Some b <> None -> forall f0 n0 m0, Some (f, n, m) = Some (f0, n0, m0) -> released k k' n0)) k2) k1).
  { intros _ k1 H1 E1. eapply wpc_ret_st; [exact H1|]. intros k2 H2 E2 _. apply G; [apply st_without_chain, H2|].
    intros WL. pose proof (same_trans _ _ _ _ _ E1 E2 WL) as [A B C D].
    constructor; intros; rewrite ?A, ?B; auto. }
  destruct m; [apply GN; [discriminate|exact H|apply same_refl]|apply GN; [discriminate|exact H|apply same_refl]|].
  apply wpc_do. intros k1 R. pose proof (st_rely _ _ _ _ _ R H) as H1.
  destruct (hl_chain _ _ _ (st_held _ _ _ _ H1) _ _ _ Ec) as (A & B & C & i & D & F).
  split.
  - split; [exact (held_pin_locked _ _ _ (st_held _ _ _ _ H1) C B)|]. intros j Hj. left. exists f. congruence.
  - intros d. pose proof (st_sys_nochain p (lk_with lk None) S k1 (C_rmdir pd n) d eq_refl eq_refl (st_without_chain _ _ _ _ H1)) as H2.
    eapply wpc_ret_st; [exact H2|]. intros k2 H3 E3 _. apply G; [exact H3|].
    intros WL. assert (WL' : wl (lk_with lk None)) by exact WL. specialize (E3 WL').
    pose proof (same_rely _ _ _ _ _ H R WL) as E1.
    destruct (rmdir_cases k1 p pd n d) as [[e He]|(j & He & Hj & Hemp)]; rewrite He in *; cbn [fst] in *.
    + destruct (treeq_trans _ _ _ _ E1 E3) as [X1 X2 X3 X4]. constructor; intros; rewrite ?X1, ?X2; auto.
    + destruct E1 as [X1 X2 X3 X4]. destruct E3 as [Y1 Y2 Y3 Y4]. cbn [with_ents k_ents k_dirs k_next] in *.
      constructor.
      * intros x Hx. rewrite Y1, ent_find_del_other by exact Hx. rewrite X1. reflexivity.
      * intros i0 Hi Hne. exfalso. apply Hne. rewrite <- X2. rewrite <- X1 in Hi. congruence.
      * intros i0. rewrite Y2. apply X2.
      * lia.
Qed.

Definition empty_lock : lock := mkLk None None L_NONE None.

Lemma st_empty p lk S k : st p lk S k -> st p empty_lock S k.
Proof. intros [K H N]. constructor; auto. constructor; discriminate. Qed.

(** Closing everything. *)
Lemma wpc_cleanup p lk S k : st p lk S k -> wpc p (lock_cleanup lk) (fun _ k' => st p empty_lock S k') k.
Proof.
  intros H. unfold lock_cleanup. destruct (lk_bpffs lk) as [b|] eqn:Eb.
  2:{ eapply wpc_ret_st; [exact H|]. intros k1 H1 _ _. eapply st_empty; eauto. }
  apply wpc_bind. eapply wpc_post; [|exact (wpc_release p lk S k H)].
  intros lk' k1 (_ & H1 & _). apply wpc_bind.
  assert (NE : forall f, not_held empty_lock f) by (intros f; repeat split; discriminate).
  unfold close_opt. destruct (lk_pin lk') as [pf|].
  - eapply wpc_post; [|exact (wpc_close p empty_lock S k1 pf (NE _) (st_empty _ _ _ _ H1))].
    intros [] k2 H2. apply wpc_close; auto.
  - eapply wpc_ret_st; [exact (st_empty _ _ _ _ H1)|]. intros k2 H2 _ _. apply wpc_close; auto.
Qed.

Lemma new_fd_cases k p c d :
  (c = C_open_bpffs \/ exists b, c = C_open_pindir b) ->
  (exists e, ksys k p c d = (k, R_err e)) \/
  ksys k p c d = new_fd k p (match c with C_open_bpffs => D_bpffs | _ => D_pindir L_NONE end).
Proof.
  intros Hc.
  assert (G : forall s, (exists e, kdo k p c s = (k, R_err e)) \/
     kdo k p c s = new_fd k p (match c with C_open_bpffs => D_bpffs | _ => D_pindir L_NONE end)).
  { intros s. destruct Hc as [->|[b ->]]; cbn [kdo]; [right; reflexivity|].
    destruct (desc_of k p b) as [[]|]; eauto. destruct (k_pindir k); eauto. }
  destruct d as [|e|s]; cbn [ksys]; [apply G| |apply G]. destruct (can_fail c); [eauto|apply G].
Qed.

(** Opening the pin directory, creating it if needed. *)
Lemma wpc_opendir_pindir p lk S b : forall n k, st p lk S k ->
  wpc p (opendir_pindir n b)
   (fun r k' => st p lk S k' /\ match r with Ok f => not_held lk f /\ desc_of k' p f = Some (D_pindir L_NONE) | Er _ => True end) k.
Proof.
  induction n as [|n IH]; intros k H; cbn [opendir_pindir].
  - eapply wpc_ret_st; [exact H|]. auto.
  - eapply wpc_plain; [reflexivity|exact H|intros; exact Logic.I|].
    intros k1 d H1 E1 H2 E2.
    destruct (new_fd_cases k1 p (C_open_pindir b) d ltac:(right; eauto)) as [[e He]|He]; rewrite He in *; cbn [fst snd new_fd pbind] in *.
    + destruct (e =? ENOENT); [|eapply wpc_ret_st; [exact H2|]; auto].
      eapply wpc_plain; [reflexivity|exact H2|intros; exact Logic.I|].
      intros k3 d3 H3 _ H4 _. destruct (snd (ksys k3 p (C_mk_pindir b) d3)); cbn [pbind];
        try (apply IH; exact H4). eapply wpc_ret_st; [exact H4|]. auto.
    + eapply wpc_ret_st; [exact H2|]. intros k2 H3 _ R. split; [exact H3|].
      split; [eapply fresh_not_held; [exact H1|lia]|].
      rewrite (re_desc _ _ _ R). unfold desc_of. cbn [with_next with_fds k_fds fd_find]. rewrite !N.eqb_refl. reflexivity.
Qed.

Lemma st_bare p (S : fd -> Prop) k : kinv k -> (forall f, S f -> neutral k p f) -> st p empty_lock S k.
Proof. intros K N. constructor; auto. constructor; discriminate. Qed.

Lemma wpc_lock_init p S k m :
  st p empty_lock S k ->
  wpc p (lock_init m)
    (fun r k' => match r with
                 | Ok lk => lk_bpffs lk <> None /\ lk_pin lk <> None /\ lk_pinmode lk = m /\ lk_chain lk = None /\ st p lk S k'
                 | Er _ => st p empty_lock S k'
                 end) k.
Proof.
  intros H. unfold lock_init. eapply wpc_plain; [reflexivity|exact H|intros; exact Logic.I|].
  intros k1 d H1 _ H2 _.
  destruct (new_fd_cases k1 p C_open_bpffs d ltac:(left; reflexivity)) as [[e He]|He]; rewrite He in *; cbn [fst snd new_fd pbind] in *.
  { eapply wpc_ret_st; [exact H2|]. auto. }
  set (b := k_next k1) in *. set (k2 := with_next _) in *.
  assert (Db : desc_of k2 p b = Some D_bpffs).
  { subst k2 b. unfold desc_of. cbn [with_next with_fds k_fds fd_find]. rewrite !N.eqb_refl. reflexivity. }
  clearbody k2. clear He.
  assert (HB : st p (mkLk (Some b) None L_NONE None) S k2).
  { constructor; [exact (st_inv _ _ _ _ H2)| |exact (st_neutral _ _ _ _ H2)].
    constructor; cbn [lk_bpffs lk_pin lk_chain]; try discriminate. intros x X. injection X as <-. exact Db. }
  apply wpc_bind. eapply wpc_post; [|exact (wpc_opendir_pindir p _ S b 2 k2 HB)].
  intros [pf|e] k3 (H3 & B).
  2:{ apply wpc_bind. eapply wpc_post; [|exact (wpc_cleanup p _ S k3 H3)]. intros [] k4 H4.
      eapply wpc_ret_st; [exact H4|]. auto. }
  destruct B as [NH Dp].
  assert (HP : forall k', st p (mkLk (Some b) None L_NONE None) S k' -> forall x, desc_of k' p pf = Some (D_pindir x) -> st p (mkLk (Some b) (Some pf) x None) S k').
  { intros k' H' x D'. constructor; [exact (st_inv _ _ _ _ H')| |exact (st_neutral _ _ _ _ H')].
    constructor; cbn [lk_bpffs lk_pin lk_chain lk_pinmode]; try discriminate.
    - exact (hl_bpffs _ _ _ (st_held _ _ _ _ H')).
    - intros y Y. injection Y as <-. exact D'. }
  assert (FIN : forall x k', st p (mkLk (Some b) (Some pf) x None) S k' ->
    wpc p (Ret (Ok (mkLk (Some b) (Some pf) x None)))
      (fun r k' => match r with
                 | Ok lk => lk_bpffs lk <> None /\ lk_pin lk <> None /\ lk_pinmode lk = x /\ lk_chain lk = None /\ st p lk S k'
                 | Er _ => st p empty_lock S k'
                 end) k').
  { intros x k' H'. eapply wpc_ret_st; [exact H'|]. intros k4 H4 _ _. cbn.
    split; [discriminate|]. split; [discriminate|]. split; [reflexivity|]. split; [reflexivity|exact H4]. }
  apply wpc_bind. unfold flock.
  assert (LK : wpc p (sys_unit (C_flock pf m))
      (fun r k' => wpc p (match r with
          | Ok _ => Ret (Ok (mkLk (Some b) (Some pf) m None))
          | Er e => pbind (lock_cleanup (mkLk (Some b) (Some pf) L_NONE None)) (fun _ => Ret (Er e)) end)
        (fun r k' => match r with
                 | Ok lk => lk_bpffs lk <> None /\ lk_pin lk <> None /\ lk_pinmode lk = m /\ lk_chain lk = None /\ st p lk S k'
                 | Er _ => st p empty_lock S k'
                 end) k') k3).
  { apply wpc_do. intros k4 R. pose proof (st_rely _ _ _ _ _ R H3) as H4. rewrite <- (re_desc _ _ _ R) in Dp.
    split. { intros y Y. rewrite Dp in Y. injection Y as <-. reflexivity. }
    intros d4. pose proof (st_flock _ _ _ _ pf m d4 NH H4) as H5.
    destruct (flock_cases k4 p pf m d4 (st_inv _ _ _ _ H4)) as [[e He]|(de & He & Hd)]; rewrite He in *; cbn [fst snd] in *.
    - eapply wpc_ret_st; [exact H4|]. intros k5 H6 _ R5. apply wpc_bind.
      assert (D5 : desc_of k5 p pf = Some (D_pindir L_NONE)) by (rewrite (re_desc _ _ _ R5); exact Dp).
      eapply wpc_post; [|exact (wpc_cleanup p _ S k5 (HP _ H6 _ D5))]. intros [] k6 H7. eapply wpc_ret_st; [exact H7|]. auto.
    - rewrite Dp in Hd. injection Hd as <-.
      eapply wpc_ret_st; [exact H5|]. intros k5 H6 _ R5. apply FIN, HP; [exact H6|].
      rewrite (re_desc _ _ _ R5), (desc_of_set _ _ _ _ _ _ _ Dp), !N.eqb_refl. reflexivity. }
  destruct m; [|exact LK|exact LK].
  eapply wpc_ret_st; [exact H3|]. intros k4 H4 _ R. apply FIN, HP; [exact H4|]. rewrite (re_desc _ _ _ R). exact Dp.
Qed.

Lemma wpc_init_for_chain p S k n pm cm create :
  st p empty_lock S k -> pm <> L_NONE -> cm <> L_NONE ->
  wpc p (lock_init_for_chain n pm cm create)
    (fun r k' => match r with
                 | Ok lk => exists f, lk_bpffs lk <> None /\ lk_pin lk <> None /\ lk_pinmode lk = pm /\
                                      lk_chain lk = Some (f, n, cm) /\ st p lk S k'
                 | Er _ => st p empty_lock S k'
                 end) k.
Proof.
  intros H Hp Hc. unfold lock_init_for_chain.
  destruct (create && negb (is_write pm)); [eapply wpc_ret_st; [exact H|]; auto|].
  apply wpc_bind. eapply wpc_post; [|exact (wpc_lock_init p S k pm H)].
  intros [lk|e] k1 B; [|eapply wpc_ret_st; [exact B|]; auto].
  destruct B as (B1 & B2 & B3 & B4 & H1).
  assert (W : rl lk) by (split; [exact B2|rewrite B3; exact Hp]).
  apply wpc_bind. eapply wpc_post; [|exact (wpc_acquire p lk S k1 n cm create H1 W Hc)].
  intros [lk'|e] k2 B.
  - destruct B as (f & -> & _ & H2 & _). eapply wpc_ret_st; [exact H2|]. intros k3 H3 _ _.
    exists f. cbn [lk_with lk_bpffs lk_pin lk_pinmode lk_chain]. auto.
  - destruct B as [H2 _]. apply wpc_bind. eapply wpc_post; [|exact (wpc_cleanup p _ S k2 H2)]. intros [] k3 H3.
    eapply wpc_ret_st; [exact H3|]. auto.
Qed.
