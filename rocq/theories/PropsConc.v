(** C25, C26, C27, C46: locks, creation of chains, staging directories, in every
    interleaving of any number of processes that may die at any point.

    [reachable], [execution], [step], [runs], [solo], [stops], [locks_dir], ... are
    defined in SysSpec.v; the code of the library is in LockModel.v and CtlModel.v. *)
From Coq Require Import NArith ZArith List Bool.
From Verif Require Import Bytes Types World BpfModel GenModel StrModel SetModel PackModel HookModel KernModel LockModel CtlModel SysSpec SysFacts ApiFacts ConcFacts StageFacts PropsPack.
Import ListNotations.
Local Open Scope N_scope.

(** ** A concrete history for the examples: process [p] inside an API call makes its
    next [n] calls and nothing fails. *)
Fixpoint drive (n : nat) (p : pid) (s : system) : system :=
  match n, s_proc s p with
  | S n', Inside (Do c f) =>
      drive n' p (mkSys (fst (ksys (s_kernel s) p c E_none)) (set_proc s p (Inside (f (snd (ksys (s_kernel s) p c E_none))))))
  | _, _ => s
  end.
Definition enter (p : pid) (a : api) (s : system) : system := mkSys (s_kernel s) (set_proc s p (Inside (run_api a))).
Definition now (s : system) (p : pid) : option call :=
  match s_proc s p with Inside (Do c _) => Some c | _ => None end.

Lemma drive_reachable n p : forall s, reachable s -> reachable (drive n p s).
Proof.
  induction n as [|n IH]; intros s R; cbn [drive]; [exact R|].
  destruct (s_proc s p) as [|[a|c f]|] eqn:E; try exact R.
  apply IH. eapply reachable_step; [exact R|]. exact (St_call s p c f E_none E).
Qed.
Lemma enter_reachable p a s : s_proc s p = Idle -> reachable s -> reachable (enter p a s).
Proof. intros E R. eapply reachable_step; [exact R|]. exact (St_enter s p a E). Qed.
Lemma now_next s p c : now s p = Some c -> next_call s p c.
Proof.
  unfold now, next_call. destruct (s_proc s p) as [|[a|c' f]|]; try discriminate. intros H. injection H as ->. exists f. reflexivity.
Qed.

Lemma not_dead x : match x with Dead => False | _ => True end -> x <> Dead.
Proof. intros H ->. exact H. Qed.

Definition ex_mem : mem := mkMem (fun i j => Some (10 * i + j)%nat) (fun _ => true).
Definition ex_k0 : kst := mkK false [] (fun _ => []) (fun _ => None) [] 10 2.
Definition ex_s0 : system := mkSys ex_k0 (fun _ => Idle).
Definition ex_edge : name := nc_name ex_nchain.
Lemma ex_s0_reachable : reachable ex_s0.
Proof.
  exists ex_s0, []. split; [|constructor]. split; [reflexivity|]. split; [reflexivity|].
  split; [constructor|]. split; [constructor|]. intros n i [].
Qed.
(** Process 1 loads a chain; it is about to pin its program (25 calls made). *)
Definition ex_s1 : system := drive 25 1 (enter 1 (A_chain_load ex_mem ex_nchain) ex_s0).
Lemma ex_s1_reachable : reachable ex_s1.
Proof. apply drive_reachable, enter_reachable; [reflexivity|apply ex_s0_reachable]. Qed.

(** ** C25 *)

(** A holder of the write lock is alone. *)
Theorem C25_write_excludes : forall s p q i m,
  reachable s -> p <> q -> locks_dir (s_kernel s) p i L_WRITE -> locks_dir (s_kernel s) q i m -> False.
Proof. exact dir_exclusion. Qed.
Print Assumptions C25_write_excludes.

Theorem C25_pindir_excludes : forall s p q m,
  reachable s -> p <> q -> locks_pindir (s_kernel s) p L_WRITE -> locks_pindir (s_kernel s) q m -> False.
Proof. exact pindir_exclusion. Qed.
Print Assumptions C25_pindir_excludes.

Example C25_holder : reachable ex_s1 /\ locks_dir (s_kernel ex_s1) 1 12 L_WRITE /\ locks_pindir (s_kernel ex_s1) 1 L_WRITE.
Proof.
  split; [apply ex_s1_reachable|]. split; [exists 13|exists 11]; (split; [vm_compute; reflexivity|discriminate]).
Qed.

(** Nobody reads or changes the contents of a chain directory without holding a lock on
    it and on the pin directory; nobody changes it without the write lock. *)
Theorem C25_touch_needs_lock : forall s p c d, reachable s -> next_call s p c -> touches c d ->
  exists i m, desc_of (s_kernel s) p d = Some (D_dir i m) /\
    (exists mp, locks_pindir (s_kernel s) p mp) /\ (exists md, locks_dir (s_kernel s) p i md).
Proof. exact touch_locked. Qed.
Print Assumptions C25_touch_needs_lock.

Theorem C25_write_needs_write_lock : forall s p c d, reachable s -> next_call s p c -> writes c d ->
  exists i m, desc_of (s_kernel s) p d = Some (D_dir i m) /\
    (exists mp, locks_pindir (s_kernel s) p mp) /\ locks_dir (s_kernel s) p i L_WRITE.
Proof. exact write_locked. Qed.
Print Assumptions C25_write_needs_write_lock.

(** Two processes are never about to change, or to change and to read, the contents of
    the same directory. *)
Theorem C25_no_race : forall s p q c1 c2 d1 d2 i m1 m2,
  reachable s -> next_call s p c1 -> next_call s q c2 -> writes c1 d1 -> touches c2 d2 ->
  desc_of (s_kernel s) p d1 = Some (D_dir i m1) -> desc_of (s_kernel s) q d2 = Some (D_dir i m2) -> p = q.
Proof. exact no_race. Qed.
Print Assumptions C25_no_race.

Example C25_pinning : next_call ex_s1 1 (C_pin 13 P_prog 25) /\ writes (C_pin 13 P_prog 25) 13 /\
  desc_of (s_kernel ex_s1) 1 13 = Some (D_dir 12 L_WRITE).
Proof. split; [apply now_next; vm_compute; reflexivity|]. split; vm_compute; reflexivity. Qed.

(** Operations do not overlap: from the moment [p] has locked a chain directory through
    descriptor [f] until it closes [f], no other process changes the directory, and if
    the lock is a write lock no other process reads it either. *)
Theorem C25_section_exclusive : forall s1 l1 s q c r s' l2 s2 p f i m d m',
  reachable s1 -> execution s1 l1 s -> step s (Ev_call q c r) s' -> execution s' l2 s2 ->
  desc_of (s_kernel s1) p f = Some (D_dir i m) -> m <> L_NONE -> desc_of (s_kernel s2) p f <> None ->
  q <> p -> desc_of (s_kernel s) q d = Some (D_dir i m') ->
  (m = L_WRITE -> ~ touches c d) /\ ~ writes c d.
Proof. exact section_exclusive. Qed.
Print Assumptions C25_section_exclusive.

(** Between any two accesses of [p] through one descriptor, no other process changes the
    directory; if one of the two accesses is a change, no other process reads it. *)
Theorem C25_operation_atomic : forall s1 l1 s q c r s' l2 s2 p d i m c1 c2 e m',
  reachable s1 -> execution s1 l1 s -> step s (Ev_call q c r) s' -> execution s' l2 s2 ->
  next_call s1 p c1 -> touches c1 d -> next_call s2 p c2 -> touches c2 d ->
  desc_of (s_kernel s1) p d = Some (D_dir i m) -> m <> L_NONE ->
  q <> p -> desc_of (s_kernel s) q e = Some (D_dir i m') ->
  (writes c1 d \/ writes c2 d -> ~ touches c e) /\ ~ writes c e.
Proof. exact operation_atomic. Qed.
Print Assumptions C25_operation_atomic.

(** What a lock holder sees does not change under it. *)
Theorem C25_holder_stable : forall s e s' p i m mp,
  reachable s -> step s e s' -> actor e <> p ->
  locks_pindir (s_kernel s) p mp -> locks_dir (s_kernel s) p i m ->
  k_dirs (s_kernel s') i = k_dirs (s_kernel s) i /\
  forall n, ent_find n (k_ents (s_kernel s)) = Some i <-> ent_find n (k_ents (s_kernel s')) = Some i.
Proof. exact holder_stable. Qed.
Print Assumptions C25_holder_stable.

(** Two readers do share: both hold the read lock of the same directory. *)
Lemma drive_done n p s : match s_proc (drive n p s) p with Inside (Ret tt) => True | _ => False end ->
  reachable s -> reachable (mkSys (s_kernel (drive n p s)) (set_proc (drive n p s) p Idle)).
Proof.
  intros H R. pose proof (drive_reachable n p s R) as R'. destruct (s_proc (drive n p s) p) as [|[[]|]|] eqn:E; try contradiction.
  eapply reachable_step; [exact R'|]. exact (St_leave _ p E).
Qed.
Definition ex_loaded : system :=
  let s := drive 100 1 (enter 1 (A_chain_load ex_mem ex_nchain) ex_s0) in mkSys (s_kernel s) (set_proc s 1 Idle).
Lemma ex_loaded_reachable : reachable ex_loaded.
Proof.
  apply drive_done; [vm_compute; exact Logic.I|]. apply enter_reachable; [reflexivity|apply ex_s0_reachable].
Qed.
Definition ex_readers : system :=
  drive 8 3 (enter 3 (A_chain_get ex_mem ex_edge) (drive 8 2 (enter 2 (A_chain_get ex_mem ex_edge) ex_loaded))).
Example C25_readers_share : reachable ex_readers /\
  locks_dir (s_kernel ex_readers) 2 12 L_READ /\ locks_dir (s_kernel ex_readers) 3 12 L_READ /\
  now ex_readers 2 = Some (C_get 30 P_ctx) /\ now ex_readers 3 = Some (C_get 33 P_ctx).
Proof.
  split.
  { apply drive_reachable, enter_reachable; [vm_compute; reflexivity|].
    apply drive_reachable, enter_reachable; [vm_compute; reflexivity|apply ex_loaded_reachable]. }
  split; [exists 30; split; [vm_compute; reflexivity|discriminate]|].
  split; [exists 33; split; [vm_compute; reflexivity|discriminate]|]. split; vm_compute; reflexivity.
Qed.

(** ** C26 *)

(** A name of a chain appears in the pin directory only by the rename of a creator that
    holds the write lock on the directory, which is empty. *)
Theorem C26_appears_locked : forall s e s' n i,
  reachable s -> step s e s' -> is_staging n = false ->
  ent_find n (k_ents (s_kernel s)) = None -> ent_find n (k_ents (s_kernel s')) = Some i ->
  exists p pd a, e = Ev_call p (C_rename pd a n) R_ok /\ k_dirs (s_kernel s') i = [] /\
    locks_pindir (s_kernel s') p L_WRITE /\ locks_dir (s_kernel s') p i L_WRITE.
Proof. exact appears_locked. Qed.
Print Assumptions C26_appears_locked.

(** Two creations of the same name succeed only with a removal between them. *)
Theorem C26_one_winner : forall s1 p1 pd1 a1 n s2 l s3 p2 pd2 a2 s4,
  reachable s1 -> is_staging n = false ->
  step s1 (Ev_call p1 (C_rename pd1 a1 n) R_ok) s2 -> execution s2 l s3 ->
  step s3 (Ev_call p2 (C_rename pd2 a2 n) R_ok) s4 ->
  exists p pd, In (Ev_call p (C_rmdir pd n) R_ok) l.
Proof. exact two_creations. Qed.
Print Assumptions C26_one_winner.

(** bf_lock_acquire_chain with create, while others act: it succeeds only if the name was
    free, and then the name is bound to a new, empty directory that the caller has
    locked; if it fails the names are as before.  In no case are the contents of an
    existing directory changed: a loser does not touch the winner's directory. *)
Theorem C26_create_outcome : forall p lk n s r t,
  reachable s -> holds_pindir (s_kernel s) p lk -> lk_pinmode lk = L_WRITE ->
  runs p (acquire_chain lk n L_WRITE true) s r t ->
  match r with
  | Ok lk' => exists f i, lk' = mkLk (lk_bpffs lk) (lk_pin lk) (lk_pinmode lk) (Some (f, n, L_WRITE)) /\
      desc_of (s_kernel t) p f = Some (D_dir i L_WRITE) /\
      ent_find n (k_ents (s_kernel s)) = None /\
      k_ents (s_kernel t) = (n, i) :: k_ents (s_kernel s) /\ k_dirs (s_kernel t) i = []
  | Er _ => k_ents (s_kernel t) = k_ents (s_kernel s)
  end /\
  forall m i, ent_find m (k_ents (s_kernel s)) = Some i -> k_dirs (s_kernel t) i = k_dirs (s_kernel s) i.
Proof. exact create_outcome. Qed.
Print Assumptions C26_create_outcome.

(** A directory that another process has locked is never removed, nor any directory while
    another process holds the write lock of the pin directory. *)
Theorem C26_removal_is_free : forall s p pd n s',
  reachable s -> step s (Ev_call p (C_rmdir pd n) R_ok) s' ->
  exists i, ent_find n (k_ents (s_kernel s)) = Some i /\ k_dirs (s_kernel s) i = [] /\
    forall q, q <> p -> (forall m, ~ locks_dir (s_kernel s) q i m) /\ ~ locks_pindir (s_kernel s) q L_WRITE.
Proof. exact rmdir_free. Qed.
Print Assumptions C26_removal_is_free.

(** The steps around the rename of the load of "edge" (10 calls made), and a loser: a
    second process fails with EEXIST and the first chain stays. *)
Definition ex_before : system := drive 10 1 (enter 1 (A_chain_load ex_mem ex_nchain) ex_s0).
Example C26_publish : reachable ex_before /\ now ex_before 1 = Some (C_rename 11 staging_prefix ex_edge) /\
  ent_find ex_edge (k_ents (s_kernel ex_before)) = None /\
  ent_find ex_edge (k_ents (s_kernel (drive 1 1 ex_before))) = Some 12.
Proof.
  split; [apply drive_reachable, enter_reachable; [reflexivity|apply ex_s0_reachable]|].
  split; [vm_compute; reflexivity|]. split; vm_compute; reflexivity.
Qed.
Example C26_loser : fst (solo 2 (chain_load ex_mem ex_nchain) (s_kernel ex_loaded)) = Er EEXIST /\
  k_ents (snd (solo 2 (chain_load ex_mem ex_nchain) (s_kernel ex_loaded))) = [(ex_edge, 12)].
Proof. split; vm_compute; reflexivity. Qed.
(** A state in which process 2 holds the pin directory with a write lock. *)
Definition ex_lk2 : lock := mkLk (Some 28) (Some 29) L_WRITE None.
Definition ex_creator : system := drive 3 2 (enter 2 (A_chain_load ex_mem ex_nchain) ex_loaded).
Example C26_holds : reachable ex_creator /\ holds_pindir (s_kernel ex_creator) 2 ex_lk2 /\ lk_pinmode ex_lk2 = L_WRITE.
Proof.
  split; [apply drive_reachable, enter_reachable; [reflexivity|apply ex_loaded_reachable]|].
  split; [|reflexivity]. split; [reflexivity|]. exists 28, 29. repeat split; vm_compute; reflexivity.
Qed.

(** ** C27 *)

(** The lock returned by bf_lock_acquire_chain is on the directory that the name denotes
    when the call returns, and while the holder keeps it, whatever the others do, the
    name denotes this directory and its contents do not change. *)
Theorem C27_lock_is_live : forall p lk n m s lk' t,
  reachable s -> holds_pindir (s_kernel s) p lk -> lk_pinmode lk <> L_NONE -> m <> L_NONE ->
  runs p (acquire_chain lk n m false) s (Ok lk') t ->
  exists f i, lk' = mkLk (lk_bpffs lk) (lk_pin lk) (lk_pinmode lk) (Some (f, n, m)) /\
    desc_of (s_kernel t) p f = Some (D_dir i m) /\ ent_find n (k_ents (s_kernel t)) = Some i /\
    forall t', runs p (Ret tt) t tt t' ->
      desc_of (s_kernel t') p f = Some (D_dir i m) /\ ent_find n (k_ents (s_kernel t')) = Some i /\
      k_dirs (s_kernel t') i = k_dirs (s_kernel t) i.
Proof. exact acquire_live. Qed.
Print Assumptions C27_lock_is_live.

(** The same of bf_lock_init_for_chain, with which the operations on one chain begin. *)
Theorem C27_init_is_live : forall p n pm cm s lk t,
  reachable s -> pm <> L_NONE -> cm <> L_NONE ->
  runs p (lock_init_for_chain n pm cm false) s (Ok lk) t ->
  exists b d f i, lk = mkLk (Some b) (Some d) pm (Some (f, n, cm)) /\
    desc_of (s_kernel t) p d = Some (D_pindir pm) /\
    desc_of (s_kernel t) p f = Some (D_dir i cm) /\ ent_find n (k_ents (s_kernel t)) = Some i /\
    forall t', runs p (Ret tt) t tt t' ->
      desc_of (s_kernel t') p f = Some (D_dir i cm) /\ ent_find n (k_ents (s_kernel t')) = Some i /\
      k_dirs (s_kernel t') i = k_dirs (s_kernel t) i.
Proof. exact init_live. Qed.
Print Assumptions C27_init_is_live.

(** Runs of one process alone are runs. *)
Lemma solo_runs {A} p (m : prog A) : forall s, runs p m s (fst (solo p m (s_kernel s))) (mkSys (snd (solo p m (s_kernel s))) (s_proc s)).
Proof.
  induction m as [a|c f IH]; intros s; cbn [solo fst snd].
  - destruct s as [k pr]. apply Rn_ret.
  - apply Rn_own with (d := E_none). exact (IH _ (mkSys (fst (ksys (s_kernel s) p c E_none)) (s_proc s))).
Qed.
Example C27_example : exists t, runs 2 (lock_init_for_chain ex_edge L_READ L_WRITE false) ex_loaded
  (Ok (mkLk (Some 28) (Some 29) L_READ (Some (30, ex_edge, L_WRITE)))) t.
Proof.
  eexists. pose proof (solo_runs 2 (lock_init_for_chain ex_edge L_READ L_WRITE false) ex_loaded) as H.
  replace (fst (solo 2 (lock_init_for_chain ex_edge L_READ L_WRITE false) (s_kernel ex_loaded)))
    with (@Ok lock (mkLk (Some 28) (Some 29) L_READ (Some (30, ex_edge, L_WRITE)))) in H by (vm_compute; reflexivity).
  exact H.
Qed.

(** ** C46 *)

(** The listing of chains never opens a staging directory, whatever the kernel answers. *)
Theorem C46_never_listed : forall mm pd n, can_call (ruleset_get mm) (C_opendir pd n) -> is_staging n = false.
Proof. exact listing_skips. Qed.
Print Assumptions C46_never_listed.

(** Wherever a creation is stopped, and whatever fails, the pin directory has its old
    entries and at most one more, an empty directory under the requested name or a
    staging name. *)
Theorem C46_creation_crash : forall F p pd n k k', stops F p (stage_and_publish pd n) k k' ->
  k_ents k' = k_ents k \/
  exists m i, (m = n \/ is_staging m = true) /\ k_ents k' = (m, i) :: k_ents k /\ k_dirs k' i = [].
Proof. exact creation_crash. Qed.
Print Assumptions C46_creation_crash.

(** The next set-up that nobody disturbs removes the staging directories that nobody has
    locked, keeps the others, and touches nothing else. *)
Theorem C46_swept : forall s p,
  reachable s -> pindir_unlocked (s_kernel s) -> pins_distinct (s_kernel s) ->
  exists k', solo p sweep_staging (s_kernel s) = (tt, k') /\ k_fds k' = k_fds (s_kernel s) /\
    (forall n, ent_find n (k_ents k') = match ent_find n (k_ents (s_kernel s)) with
       | Some i => if is_staging n && negb (busy (s_kernel s) i) then None else Some i
       | None => None
       end) /\
    (forall n i, ent_find n (k_ents k') = Some i -> k_dirs k' i = k_dirs (s_kernel s) i) /\
    (forall o, k_objs k' o = k_objs (s_kernel s) o).
Proof. intros s p R. exact (sweep_complete p _ (proj1 (reachable_sinv _ R))). Qed.
Print Assumptions C46_swept.

(** A staging directory whose creator is alive is not removed by another process, in any
    interleaving: the creator holds the write lock of the pin directory. *)
Theorem C46_live_creator_safe : forall s p pd n s' q,
  reachable s -> step s (Ev_call p (C_rmdir pd n) R_ok) s' -> is_staging n = true ->
  q <> p -> ~ locks_pindir (s_kernel s) q L_WRITE.
Proof. intros s p pd n s' q R H _ N. destruct (rmdir_free _ _ _ _ _ R H) as (i & _ & _ & X). exact (proj2 (X q N)). Qed.
Print Assumptions C46_live_creator_safe.

(** Process 1 dies with a staging directory just made (8 calls); its descriptors are
    closed; process 2 sets up. *)
Definition ex_dead : system :=
  let s := drive 8 1 (enter 1 (A_chain_load ex_mem ex_nchain) ex_s0) in mkSys (s_kernel s) (set_proc s 1 Dead).
Definition close_dead (p : pid) (f : fd) (s : system) : system :=
  mkSys (with_fds (s_kernel s) (fd_del f (k_fds (s_kernel s)))) (s_proc s).
Definition ex_orphan : system := close_dead 1 10 (close_dead 1 11 ex_dead).
Example C46_orphan : reachable ex_orphan /\ k_ents (s_kernel ex_orphan) = [(staging_prefix, 12)] /\
  pindir_unlocked (s_kernel ex_orphan) /\ pins_distinct (s_kernel ex_orphan) /\
  k_ents (snd (solo 2 sweep_staging (s_kernel ex_orphan))) = [].
Proof.
  split.
  { assert (R : reachable ex_dead).
    { eapply reachable_step; [apply (drive_reachable 8 1), enter_reachable; [|apply ex_s0_reachable]; reflexivity|].
      apply (St_die _ 1). apply not_dead. vm_compute. exact Logic.I. }
    eapply reachable_step; [eapply reachable_step; [exact R|]|].
    - refine (St_close ex_dead 1 11 (D_pindir L_WRITE) _ _); vm_compute; reflexivity.
    - refine (St_close (close_dead 1 11 ex_dead) 1 10 D_bpffs _ _); vm_compute; reflexivity. }
  split; [vm_compute; reflexivity|]. split; [intros f q m H; vm_compute in H; destruct H|].
  split; [|vm_compute; reflexivity].
  intros i. replace (k_dirs (s_kernel ex_orphan) i) with (@nil (pname * oid)); [constructor|].
  change (k_dirs (s_kernel ex_orphan) i) with (updN (fun _ : ino => @nil (pname * oid)) 12 [] i).
  unfold updN. destruct (i =? 12); reflexivity.
Qed.

(** What is refuted: a chain whose own name starts with the staging prefix is accepted,
    loaded, never listed, and destroyed by the next set-up. *)
Definition ex_badname : nchain := mkNC (staging_prefix ++ [120]) (nc_sets ex_nchain) (nc_chain ex_nchain).
Definition ex_bad_kernel : kst := snd (solo 1 (chain_load ex_mem ex_badname) ex_k0).
Theorem C46_user_chain_swept_refuted :
  fst (solo 1 (chain_load ex_mem ex_badname) ex_k0) = Ok tt /\
  fst (solo 1 (ruleset_get (fun _ => ex_mem)) ex_bad_kernel) = Ok [] /\
  (exists i, ent_find (nc_name ex_badname) (k_ents ex_bad_kernel) = Some i /\ k_dirs ex_bad_kernel i <> []) /\
  k_ents (snd (solo 2 sweep_staging ex_bad_kernel)) = [].
Proof.
  split; [vm_compute; reflexivity|]. split; [vm_compute; reflexivity|].
  split; [exists 12; split; [vm_compute; reflexivity|vm_compute; discriminate]|vm_compute; reflexivity].
Qed.
Print Assumptions C46_user_chain_swept_refuted.
