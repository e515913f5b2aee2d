(** Staging directories: not listed, swept. *)
From Coq Require Import NArith ZArith List Bool Lia.
From Verif Require Import Bytes Types World BpfModel GenModel BytesFacts StrModel SetModel PackModel HookModel KernModel LockModel CtlModel SysSpec SysFacts RelyFacts LockFacts SeqFacts.
Import ListNotations.
Local Open Scope N_scope.

(** ** Listing never opens a staging directory *)
Definition nostage (c : call) : Prop := match c with C_opendir _ n => is_staging n = false | _ => True end.
Notation ns := (allc nostage).

Ltac ns_step :=
  match goal with
  | |- allc _ (pbind _ _) => apply allc_bind; [|intros ?]
  | |- allc _ (Ret _) => exact Logic.I
  | |- True => exact Logic.I
  | |- allc _ (Do _ _) => cbn [allc]; split; [cbn [nostage]; try exact Logic.I|intros ?]
  | |- allc _ (match ?x with _ => _ end) => destruct x
  | |- allc _ (if ?x then _ else _) => destruct x
  | |- allc _ (let '(_, _) := ?x in _) => destruct x
  | |- allc _ (sys _) => unfold sys
  | |- allc _ (sys_ _) => unfold sys_
  | |- allc _ (sys_fd _) => unfold sys_fd
  | |- allc _ (sys_unit _) => unfold sys_unit
  end.
Ltac nsa := repeat ns_step.

Lemma ns_close_opt o : ns (close_opt o).
Proof. destruct o; unfold close_opt; nsa. Qed.
Lemma ns_release lk : ns (release_chain lk).
Proof. unfold release_chain. nsa. Qed.
Lemma ns_cleanup lk : ns (lock_cleanup lk).
Proof. unfold lock_cleanup. nsa; first [apply ns_release|apply ns_close_opt]. Qed.
Lemma ns_opendir_pindir n b : ns (opendir_pindir n b).
Proof. induction n; cbn [opendir_pindir]; nsa; assumption. Qed.
Lemma ns_flock f m : ns (flock f m).
Proof. unfold flock. nsa. Qed.
Lemma ns_lock_init m : ns (lock_init m).
Proof. unfold lock_init. nsa; first [apply ns_opendir_pindir|apply ns_cleanup|apply ns_flock]. Qed.
Lemma ns_open_existing n p nm m : is_staging nm = false -> ns (open_existing n p nm m).
Proof.
  intros H. induction n; cbn [open_existing]; nsa; first [exact H|assumption|apply ns_flock].
Qed.
Lemma ns_acquire lk n m : is_staging n = false -> ns (acquire_chain lk n m false).
Proof. intros H. unfold acquire_chain. cbn [andb]. nsa. apply ns_open_existing, H. Qed.
Lemma ns_close_all l : ns (close_all l).
Proof. induction l; cbn [close_all]; nsa. assumption. Qed.
Lemma ns_link_free l : ns (link_free l).
Proof. unfold link_free. nsa. apply ns_close_opt. Qed.
Lemma ns_handle_free h : ns (handle_free h).
Proof. unfold handle_free. nsa; first [apply ns_close_opt|apply ns_link_free|apply ns_close_all]. Qed.
Lemma ns_link_restore d hk o : ns (link_restore d hk o).
Proof. unfold link_restore. nsa. Qed.
Lemma ns_map_restore d q b : ns (map_restore d q b).
Proof. unfold map_restore. nsa. Qed.
Lemma ns_sets_restore d l : forall h, ns (sets_restore d l h).
Proof. induction l; intros h; cbn [sets_restore]; nsa; first [apply ns_map_restore|apply ns_handle_free|apply IHl]. Qed.
Lemma ns_handle_restore d hd : ns (handle_restore d hd).
Proof.
  unfold handle_restore. cbv zeta.
  repeat first [ns_step|apply ns_handle_free|apply ns_map_restore|apply ns_sets_restore|apply ns_link_restore].
Qed.
Lemma ns_cgen_restore mm d : ns (cgen_restore mm d).
Proof. unfold cgen_restore. nsa. apply ns_handle_restore. Qed.
Lemma ns_get_cgen mm lk : ns (get_cgen mm lk).
Proof. unfold get_cgen. nsa. apply ns_cgen_restore. Qed.
Lemma ns_cgen_free g : ns (cgen_free g).
Proof. apply ns_handle_free. Qed.
Lemma ns_restore_entries mm lk l : forall i acc, ns (restore_entries mm lk i l acc).
Proof.
  induction l as [|n l IH]; intros i acc; cbn [restore_entries]; [exact Logic.I|].
  destruct (is_staging n) eqn:E; [apply IH|].
  repeat first [ns_step|apply IH|apply ns_acquire, E|apply ns_get_cgen|apply ns_release|apply ns_cgen_free].
Qed.
Lemma ns_get_cgens mm lk : ns (get_cgens mm lk).
Proof. unfold get_cgens. repeat first [ns_step|apply ns_restore_entries]. Qed.
Lemma ns_get_counter g i : ns (cgen_get_counter g i).
Proof. unfold cgen_get_counter, handle_get_counter. nsa. Qed.
Lemma ns_rule_counters g l : ns (load_rule_counters g l).
Proof. induction l; cbn [load_rule_counters]; repeat first [ns_step|apply IHl|apply ns_get_counter]. Qed.
Lemma ns_load_counters g : ns (load_counters g).
Proof. unfold load_counters. repeat first [ns_step|apply ns_rule_counters|apply ns_get_counter]. Qed.
Lemma ns_get_rules l : ns (get_rules l).
Proof. induction l; cbn [get_rules]; repeat first [ns_step|apply IHl|apply ns_load_counters]. Qed.
Lemma ns_free_cgens l : ns (free_cgens l).
Proof. induction l; cbn [free_cgens]; repeat first [ns_step|apply IHl|apply ns_cgen_free]. Qed.
Lemma ns_ruleset_get mm : ns (ruleset_get mm).
Proof.
  unfold ruleset_get.
  repeat first [ns_step|apply ns_lock_init|apply ns_get_cgens|apply ns_cleanup|apply ns_get_rules|apply ns_free_cgens].
Qed.

Lemma listing_skips mm pd n : can_call (ruleset_get mm) (C_opendir pd n) -> is_staging n = false.
Proof. intros H. exact (allc_can nostage _ _ H (ns_ruleset_get mm)). Qed.

(** ** The sweep *)
Lemma pname_eqb_spec a b : reflect (a = b) (pname_eqb a b).
Proof.
  destruct a; destruct b; cbn [pname_eqb]; try (constructor; congruence).
  destruct (N.eqb_spec i i0); constructor; congruence.
Qed.
Lemma pin_find_in q l : In q (map fst l) -> exists o, pin_find q l = Some o.
Proof.
  induction l as [|[a o] l IH]; cbn [map fst pin_find In]; [intros []|].
  destruct (pname_eqb_spec q a); [eauto|]. intros [E|E]; [congruence|auto].
Qed.
Lemma pin_del_in q a l : In a (map fst (pin_del q l)) <-> In a (map fst l) /\ a <> q.
Proof.
  unfold pin_del. induction l as [|[b o] l IH]; cbn [filter map fst In]; [tauto|].
  destruct (pname_eqb_spec q b) as [->|]; cbn [negb map fst In]; rewrite IH; intuition congruence.
Qed.

Lemma sys_none {A} p c (f : reply -> prog A) k :
  solo p (Do c f) k = solo p (f (snd (kdo k p c []))) (fst (kdo k p c [])).
Proof. reflexivity. Qed.

Lemma solo_sys_ p c k : solo p (sys_ c) k = (tt, fst (kdo k p c [])).
Proof. reflexivity. Qed.

Lemma solo_fd {A} p c (g : res fd -> prog A) k f k' :
  kdo k p c [] = (k', R_fd f) -> solo p (pbind (sys_fd c) g) k = solo p (g (Ok f)) k'.
Proof. intros H. unfold sys_fd. cbn [pbind solo ksys]. rewrite H. reflexivity. Qed.
Lemma solo_fd_err {A} p c (g : res fd -> prog A) k e k' :
  kdo k p c [] = (k', R_err e) -> solo p (pbind (sys_fd c) g) k = solo p (g (Er e)) k'.
Proof. intros H. unfold sys_fd. cbn [pbind solo ksys]. rewrite H. reflexivity. Qed.
Lemma solo_unit {A} p c (g : res unit -> prog A) k k' :
  kdo k p c [] = (k', R_ok) -> solo p (pbind (sys_unit c) g) k = solo p (g (Ok tt)) k'.
Proof. intros H. unfold sys_unit. cbn [pbind solo ksys]. rewrite H. reflexivity. Qed.

Record same_but_dir (k k' : kst) (i : ino) : Prop := {
  sb_fds : k_fds k' = k_fds k;
  sb_ents : k_ents k' = k_ents k;
  sb_next : k_next k' = k_next k;
  sb_objs : k_objs k' = k_objs k;
  sb_pin : k_pindir k' = k_pindir k;
  sb_cpus : k_cpus k' = k_cpus k;
  sb_dirs : forall j, j <> i -> k_dirs k' j = k_dirs k j
}.

Lemma solo_unlink_all p d i m : forall l k,
  desc_of k p d = Some (D_dir i m) -> NoDup l -> (forall q, In q (map fst (k_dirs k i)) <-> In q l) ->
  exists k', solo p (unlink_all d l) k = (Ok tt, k') /\ same_but_dir k k' i /\ k_dirs k' i = [].
Proof.
  induction l as [|q l IH]; intros k D N H; cbn [unlink_all].
  - exists k. split; [reflexivity|]. split; [constructor; auto|].
    destruct (k_dirs k i) as [|[a o] r]; [reflexivity|]. exfalso. apply (H a). left. reflexivity.
  - rewrite solo_bind. unfold sys_unit. rewrite sys_none. cbn [kdo]. unfold dir_of. rewrite D.
    destruct (pin_find_in q (k_dirs k i)) as [o Ho]; [apply H; left; reflexivity|]. rewrite Ho. cbn [fst snd solo].
    inversion N as [|? ? N1 N2]; subst.
    destruct (IH (with_dir k i (pin_del q (k_dirs k i)))) as (k' & E & S & Z).
    + exact D.
    + exact N2.
    + intros a. cbn [with_dir k_dirs]. unfold updN. rewrite N.eqb_refl. rewrite pin_del_in, H. cbn [In]. intuition congruence.
    + exists k'. split; [exact E|]. split; [|exact Z]. destruct S as [S1 S2 S3 S4 S5 S6 S7]. constructor; try assumption.
      intros j Hj. rewrite (S7 j Hj). cbn [with_dir k_dirs]. unfold updN. destruct (N.eqb_spec j i); [contradiction|reflexivity].
Qed.

Lemma fd_del_fresh f l : fd_find f l = None -> fd_del f l = l.
Proof.
  unfold fd_del. induction l as [|[g x] l IH]; cbn [fd_find filter fst]; [reflexivity|].
  destruct (f =? g); [discriminate|]. cbn [negb]. intros H. rewrite IH by exact H. reflexivity.
Qed.
Lemma set_fresh f y l : fd_find f l = None -> map (fun x : fd * (pid * desc) => if fst x =? f then y else x) l = l.
Proof.
  induction l as [|[g x] l IH]; cbn [fd_find map fst]; [reflexivity|].
  destruct (N.eqb_spec f g) as [->|E]; [discriminate|]. destruct (N.eqb_spec g f); [congruence|].
  intros H. rewrite IH by exact H. reflexivity.
Qed.
Lemma kinv_fresh k f : kinv k -> k_next k <= f -> fd_find f (k_fds k) = None.
Proof. intros K H. destruct (fd_find f (k_fds k)) eqn:E; [|reflexivity]. pose proof (ki_fd _ K _ _ E). lia. Qed.

(** Nobody holds a lock on directory [i], on the pin directory. *)
Definition dir_unlocked (k : kst) (i : ino) : Prop := forall f q m, In (f, (q, D_dir i m)) (k_fds k) -> m = L_NONE.
Lemma fd_none_in f x l : fd_find f l = None -> ~ In (f, x) l.
Proof.
  induction l as [|[g y] l IH]; cbn [fd_find]; [intros _ []|]. destruct (N.eqb_spec f g); [discriminate|].
  intros H [E|E]; [injection E; congruence|exact (IH H E)].
Qed.
Lemma busy_unlocked k i : busy k i = false -> dir_unlocked k i.
Proof.
  unfold busy. intros H f q m HI. destruct m; [reflexivity| |];
    (exfalso; rewrite <- not_true_iff_false in H; apply H; apply existsb_exists; eexists; split; [exact HI|];
     cbn [snd]; apply N.eqb_refl).
Qed.

Lemma fd_find_head f x l : fd_find f ((f, x) :: l) = Some x.
Proof. cbn [fd_find]. rewrite N.eqb_refl. reflexivity. Qed.

Definition sweep_body (pd : fd) (n : name) : prog unit :=
  ro <~ sys_fd (C_opendir pd n) ;;
  match ro with
  | Er _ => Ret tt
  | Ok s =>
      rf <~ sys_unit (C_flock s L_WRITE) ;;
      match rf with
      | Er _ => sys_ (C_close s)
      | Ok _ => rmdir_recursive pd n ;;; sys_ (C_close s)
      end
  end.

Lemma desc_older k p f d fds next g x :
  desc_of k p f = Some d -> kinv k -> k_next k <= g -> k_fds k = fds ->
  desc_of (mkK (k_pindir k) (k_ents k) (k_dirs k) (k_objs k) ((g, x) :: fds) next (k_cpus k)) p f = Some d.
Proof.
  intros D K H <-. unfold desc_of in *. cbn [k_fds fd_find].
  destruct (N.eqb_spec f g) as [->|]; [|exact D].
  rewrite kinv_fresh in D by assumption. discriminate D.
Qed.

Lemma sweep_one p k pd n i m :
  kinv k -> desc_of k p pd = Some (D_pindir m) -> ent_find n (k_ents k) = Some i ->
  dir_unlocked k i -> NoDup (map fst (k_dirs k i)) ->
  exists k', solo p (sweep_body pd n) k = (tt, k') /\
    k_fds k' = k_fds k /\ k_ents k' = ent_del n (k_ents k) /\ k_next k <= k_next k' /\ k_pindir k' = k_pindir k /\
    (forall j, j <> i -> k_dirs k' j = k_dirs k j) /\ k_dirs k' i = [] /\ (forall o, k_objs k' o = k_objs k o).
Proof.
  intros K PD B U ND.
  set (s := k_next k).
  assert (LT : pd < k_next k) by (apply desc_of_find in PD; exact (ki_fd _ K _ _ PD)).
  assert (FS : fd_find s (k_fds k) = None) by (apply kinv_fresh; [exact K|unfold s; lia]).
  assert (FS1 : fd_find (s + 1) (k_fds k) = None) by (apply kinv_fresh; [exact K|unfold s; lia]).
  assert (PDF : fd_find pd (k_fds k) = Some (p, D_pindir m)) by (apply desc_of_find; exact PD).
  unfold sweep_body. rewrite solo_bind. unfold sys_fd at 1 2. rewrite sys_none. cbn [kdo]. unfold is_pindir. rewrite PD. cbn [negb].
  rewrite B. cbn [new_fd fst snd solo].
  fold s. set (k1 := with_next _).
  assert (D1 : desc_of k1 p s = Some (D_dir i L_NONE)).
  { unfold desc_of, k1. cbn [with_next with_fds k_fds]. rewrite fd_find_head, N.eqb_refl. reflexivity. }
  rewrite solo_bind. unfold sys_unit at 1 2. rewrite sys_none. cbn [kdo]. rewrite D1.
  assert (NC : contended k1 s (D_dir i L_NONE) L_WRITE = false).
  { unfold contended, k1. cbn [with_next with_fds k_fds existsb fst snd]. rewrite N.eqb_refl. cbn [negb andb orb].
    apply not_true_is_false. intros H. apply existsb_exists in H. destruct H as ([f [q e]] & HI & H).
    cbn [fst snd] in H. apply andb_prop in H. destruct H as [H H3]. apply andb_prop in H. destruct H as [_ H2].
    destruct e; cbn [same_place] in H2; try discriminate H2. apply N.eqb_eq in H2. subst i0.
    rewrite (U _ _ _ HI) in H3. discriminate H3. }
  rewrite NC. cbn [fst snd solo with_mode].
  set (k2 := set_desc _ _ _ _).
  assert (F2 : k_fds k2 = (s, (p, D_dir i L_WRITE)) :: k_fds k).
  { unfold k2, set_desc, k1. cbn [with_next with_fds k_fds map fst]. rewrite N.eqb_refl. f_equal. apply set_fresh, FS. }
  rewrite solo_bind. unfold rmdir_recursive. rewrite solo_bind. unfold sys_fd at 1 2. rewrite sys_none. cbn [kdo].
  assert (P2 : desc_of k2 p pd = Some (D_pindir m)).
  { unfold desc_of. rewrite F2. cbn [fd_find]. destruct (N.eqb_spec pd s); [unfold s in *; lia|]. rewrite PDF, N.eqb_refl. reflexivity. }
  unfold is_pindir. rewrite P2. cbn [negb].
  assert (E2 : k_ents k2 = k_ents k) by reflexivity.
  assert (N2 : k_next k2 = s + 1) by reflexivity.
  rewrite E2, B. cbn [new_fd fst snd solo]. rewrite N2. set (k3 := with_next _).
  assert (F3 : k_fds k3 = (s + 1, (p, D_dir i L_NONE)) :: (s, (p, D_dir i L_WRITE)) :: k_fds k).
  { unfold k3. cbn [with_next with_fds k_fds]. rewrite F2. reflexivity. }
  assert (D3 : desc_of k3 p (s + 1) = Some (D_dir i L_NONE)).
  { unfold desc_of. rewrite F3, fd_find_head, N.eqb_refl. reflexivity. }
  cbn [ksys kdo]. unfold dir_of. rewrite D3. cbn [fst snd].
  rewrite solo_bind.
  destruct (solo_unlink_all p (s + 1) i L_NONE (map fst (k_dirs k3 i)) k3 D3 ND) as (k4 & E4 & S4 & Z4); [tauto|].
  rewrite E4. cbn [fst snd]. destruct S4 as [S1 S2 S3 S5 S6 S7 S8].
  rewrite solo_bind. rewrite (solo_sys_ p (C_close (s + 1)) k4). cbn [kdo fst snd].
  assert (D4 : desc_of k4 p (s + 1) = Some (D_dir i L_NONE)) by (unfold desc_of; rewrite S1; exact D3).
  rewrite D4. cbn [fst snd solo]. set (k5 := with_fds k4 _).
  assert (F5 : k_fds k5 = (s, (p, D_dir i L_WRITE)) :: k_fds k).
  { unfold k5. cbn [with_fds k_fds]. rewrite S1, F3. cbn [fd_del filter fst]. rewrite N.eqb_refl. cbn [negb].
    destruct (N.eqb_spec (s + 1) s); [lia|]. cbn [negb]. f_equal. apply fd_del_fresh, FS1. }
  assert (P5 : desc_of k5 p pd = Some (D_pindir m)).
  { unfold desc_of. rewrite F5. cbn [fd_find]. destruct (N.eqb_spec pd s); [unfold s in *; lia|]. rewrite PDF, N.eqb_refl. reflexivity. }
  rewrite (solo_sys_ p (C_rmdir pd n) k5). cbn [kdo fst snd]. unfold is_pindir. rewrite P5. cbn [negb].
  assert (E5 : k_ents k5 = k_ents k) by (unfold k5; cbn [with_fds k_ents]; rewrite S2; reflexivity).
  assert (Z5 : k_dirs k5 i = []) by exact Z4.
  rewrite E5, B, Z5. cbn [fst snd solo]. set (k6 := with_ents k5 _).
  rewrite (solo_sys_ p (C_close s) k6). cbn [kdo fst snd].
  assert (D6 : desc_of k6 p s = Some (D_dir i L_WRITE)).
  { unfold desc_of, k6. cbn [with_ents k_fds]. rewrite F5, fd_find_head, N.eqb_refl. reflexivity. }
  rewrite D6. cbn [fst snd solo]. eexists. split; [reflexivity|].
  cbn [with_fds k_fds k_ents k_next k_pindir k_dirs k_objs].
  split; [|split; [|split; [|split; [|split; [|split]]]]].
  - unfold k6. cbn [with_ents k_fds]. rewrite F5. cbn [fd_del filter fst]. rewrite N.eqb_refl. cbn [negb]. apply fd_del_fresh, FS.
  - unfold k6. cbn [with_ents k_ents]. reflexivity.
  - unfold k6, k5. cbn [with_ents with_fds k_next]. rewrite S3. unfold k3. cbn [with_next k_next with_fds]. rewrite N2. unfold s. lia.
  - unfold k6, k5. cbn [with_ents with_fds k_pindir]. rewrite S6. reflexivity.
  - intros j Hj. unfold k6, k5. cbn [with_ents with_fds k_dirs]. rewrite (S8 j Hj). reflexivity.
  - exact Z4.
  - intros o. unfold k6, k5. cbn [with_ents with_fds k_objs]. rewrite S5. reflexivity.
Qed.

Lemma solo_kinv {A} p (m : prog A) : forall k, kinv k -> kinv (snd (solo p m k)).
Proof. induction m as [a|c f IH]; intros k K; cbn [solo snd]; [exact K|]. apply IH, ksys_kinv, K. Qed.

Lemma filter_filter' {A} (f g : A -> bool) l : filter g (filter f l) = filter (fun x => f x && g x) l.
Proof.
  induction l as [|a l IH]; cbn [filter]; [reflexivity|]. destruct (f a); cbn [andb filter]; [destruct (g a); rewrite IH; reflexivity|exact IH].
Qed.

Lemma sweep_entries_cons pd n l :
  sweep_entries pd (n :: l) = pbind (if is_staging n then sweep_body pd n else Ret tt) (fun _ => sweep_entries pd l).
Proof. reflexivity. Qed.

(** The pin directory can be locked. *)
Lemma solo_lock_init p k :
  kinv k -> pindir_unlocked k ->
  exists k' b f, solo p (lock_init L_WRITE) k = (Ok (mkLk (Some b) (Some f) L_WRITE None), k') /\
    kinv k' /\ k_fds k' = (f, (p, D_pindir L_WRITE)) :: (b, (p, D_bpffs)) :: k_fds k /\ f <> b /\
    fd_find f (k_fds k) = None /\ fd_find b (k_fds k) = None /\
    k_ents k' = k_ents k /\ k_dirs k' = k_dirs k /\ k_objs k' = k_objs k /\ k_pindir k' = true /\
    k_next k <= b /\ k_next k <= f.
Proof.
  intros K U.
  pose proof (solo_kinv p (lock_init L_WRITE) k K) as K'.
  assert (X : exists k' b f, solo p (lock_init L_WRITE) k = (Ok (mkLk (Some b) (Some f) L_WRITE None), k') /\
    k_fds k' = (f, (p, D_pindir L_WRITE)) :: (b, (p, D_bpffs)) :: k_fds k /\ b = k_next k /\ f = k_next k + 1 /\
    k_ents k' = k_ents k /\ k_dirs k' = k_dirs k /\ k_objs k' = k_objs k /\ k_pindir k' = true).
  { clear K'. set (b := k_next k). set (f := b + 1).
    assert (FB : fd_find b (k_fds k) = None) by (apply kinv_fresh; [exact K|unfold b; lia]).
    assert (FF : fd_find f (k_fds k) = None) by (apply kinv_fresh; [exact K|unfold f, b; lia]).
    assert (G : forall k2, k_fds k2 = (f, (p, D_pindir L_NONE)) :: (b, (p, D_bpffs)) :: k_fds k ->
      ksys k2 p (C_flock f L_WRITE) E_none =
      (with_fds k2 ((f, (p, D_pindir L_WRITE)) :: (b, (p, D_bpffs)) :: k_fds k), R_ok)).
    { intros k2 F2. cbn [ksys kdo].
      assert (D2 : desc_of k2 p f = Some (D_pindir L_NONE)).
      { unfold desc_of. rewrite F2, fd_find_head, N.eqb_refl. reflexivity. }
      rewrite D2.
      assert (NC : contended k2 f (D_pindir L_NONE) L_WRITE = false).
      { unfold contended. rewrite F2. cbn [existsb fst snd]. rewrite N.eqb_refl. cbn [negb andb orb same_place].
        rewrite andb_false_r. cbn [andb orb].
        apply not_true_is_false. intros H. apply existsb_exists in H. destruct H as ([g [q e]] & HI & H).
        cbn [fst snd] in H. apply andb_prop in H. destruct H as [H H3]. apply andb_prop in H. destruct H as [_ H2].
        destruct e; cbn [same_place] in H2; try discriminate H2. rewrite (U _ _ _ HI) in H3. discriminate H3. }
      rewrite NC. cbn [with_mode]. unfold set_desc. rewrite F2. cbn [map fst]. rewrite N.eqb_refl.
      assert (b =? f = false) as -> by (apply N.eqb_neq; unfold f; lia).
      rewrite (set_fresh f _ _ FF). reflexivity. }
    unfold lock_init. rewrite solo_bind. unfold sys_fd at 1 2. rewrite sys_none. cbn [kdo new_fd fst snd solo]. fold b.
    set (k1 := with_next _).
    assert (D1 : desc_of k1 p b = Some D_bpffs).
    { unfold desc_of, k1. cbn [with_next with_fds k_fds]. rewrite fd_find_head, N.eqb_refl. reflexivity. }
    rewrite solo_bind.
    assert (O : exists k2, solo p (opendir_pindir 2 b) k1 = (Ok f, k2) /\
      k_fds k2 = (f, (p, D_pindir L_NONE)) :: (b, (p, D_bpffs)) :: k_fds k /\
      k_ents k2 = k_ents k /\ k_dirs k2 = k_dirs k /\ k_objs k2 = k_objs k /\ k_pindir k2 = true).
    { cbn [opendir_pindir]. destruct (k_pindir k1) eqn:EP.
      - eexists. split; [erewrite solo_fd by (cbn [kdo]; rewrite D1, EP; reflexivity); reflexivity|].
        repeat split. exact EP.
      - set (k1' := mkK true (k_ents k1) (k_dirs k1) (k_objs k1) (k_fds k1) (k_next k1) (k_cpus k1)).
        assert (D1' : desc_of k1' p b = Some D_bpffs) by exact D1.
        eexists. split.
        + erewrite solo_fd_err by (cbn [kdo]; rewrite D1, EP; reflexivity). rewrite N.eqb_refl.
          erewrite solo_unit by (cbn [kdo]; rewrite D1, EP; reflexivity). fold k1'.
          erewrite solo_fd by (cbn [kdo]; rewrite D1'; reflexivity). reflexivity.
        + repeat split. }
    destruct O as (k2 & E2 & F2 & O1 & O2 & O3 & O4). rewrite E2. cbn [fst snd]. rewrite solo_bind.
    unfold flock, sys_unit. cbn [solo]. rewrite (G k2 F2). cbn [fst snd].
    cbn [solo fst snd]. eexists. exists b, f. split; [reflexivity|]. cbn [with_fds k_fds k_ents k_dirs k_objs k_pindir]. auto 10. }
  destruct X as (k' & b & f & E & F & -> & -> & A1 & A2 & A3 & A4). rewrite E in K'. cbn [snd] in K'.
  exists k', (k_next k), (k_next k + 1). split; [exact E|]. split; [exact K'|]. split; [exact F|]. split; [lia|].
  split; [apply kinv_fresh; [exact K|lia]|]. split; [apply kinv_fresh; [exact K|lia]|].
  split; [exact A1|]. split; [exact A2|]. split; [exact A3|]. split; [exact A4|]. lia.
Qed.

(** A locked staging directory is left alone. *)
Lemma sweep_busy p k pd n i m :
  kinv k -> desc_of k p pd = Some (D_pindir m) -> ent_find n (k_ents k) = Some i -> busy k i = true ->
  exists k', solo p (sweep_body pd n) k = (tt, k') /\
    k_fds k' = k_fds k /\ k_ents k' = k_ents k /\ k_pindir k' = k_pindir k /\
    k_dirs k' = k_dirs k /\ k_objs k' = k_objs k.
Proof.
  intros K PD B H.
  set (s := k_next k).
  assert (FS : fd_find s (k_fds k) = None) by (apply kinv_fresh; [exact K|unfold s; lia]).
  unfold sweep_body. rewrite solo_bind. unfold sys_fd at 1 2. rewrite sys_none. cbn [kdo]. unfold is_pindir. rewrite PD. cbn [negb].
  rewrite B. cbn [new_fd fst snd solo].
  fold s. set (k1 := with_next _).
  assert (D1 : desc_of k1 p s = Some (D_dir i L_NONE)).
  { unfold desc_of, k1. cbn [with_next with_fds k_fds]. rewrite fd_find_head, N.eqb_refl. reflexivity. }
  rewrite solo_bind. unfold sys_unit at 1 2. rewrite sys_none. cbn [kdo]. rewrite D1.
  assert (NC : contended k1 s (D_dir i L_NONE) L_WRITE = true).
  { unfold contended, k1. cbn [with_next with_fds k_fds existsb fst snd]. apply orb_true_intro. right.
    unfold busy in H. apply existsb_exists in H. destruct H as ([f [q e]] & HI & H). apply existsb_exists.
    exists (f, (q, e)). split; [exact HI|]. cbn [fst snd] in *.
    destruct (N.eqb_spec f s) as [->|]; [exfalso; eapply fd_none_in; [exact FS|exact HI]|].
    destruct e as [| |j []| |]; try discriminate H; apply N.eqb_eq in H; subst j; cbn [same_place mode_of conflict negb andb];
      rewrite N.eqb_refl; reflexivity. }
  rewrite NC. cbn [fst snd solo]. rewrite (solo_sys_ p (C_close s) k1). cbn [kdo fst snd]. rewrite D1. cbn [fst snd].
  eexists. split; [reflexivity|]. cbn [with_fds k_fds k_ents k_pindir k_dirs k_objs].
  split; [|unfold k1; cbn [with_next with_fds k_ents k_pindir k_dirs k_objs]; auto].
  unfold k1. cbn [with_next with_fds k_fds fd_del filter fst]. rewrite N.eqb_refl. cbn [negb]. apply fd_del_fresh, FS.
Qed.

Definition after_sweep (k : kst) (l : list name) (n : name) : option ino :=
  match ent_find n (k_ents k) with
  | Some i => if is_staging n && existsb (bytes_eqb n) l && negb (busy k i) then None else Some i
  | None => None
  end.

Lemma busy_fds k k' i : k_fds k' = k_fds k -> busy k' i = busy k i.
Proof. intros H. unfold busy. rewrite H. reflexivity. Qed.

Lemma sweep_loop_busy p pd m : forall l k,
  kinv k -> desc_of k p pd = Some (D_pindir m) -> pins_distinct k ->
  exists k', solo p (sweep_entries pd l) k = (tt, k') /\ k_fds k' = k_fds k /\
    (forall n, ent_find n (k_ents k') = after_sweep k l n) /\ k_pindir k' = k_pindir k /\ kinv k' /\
    (forall n i, ent_find n (k_ents k') = Some i -> k_dirs k' i = k_dirs k i) /\
    (forall o, k_objs k' o = k_objs k o).
Proof.
  induction l as [|n l IH]; intros k K PD SW.
  - exists k. cbn [sweep_entries solo]. split; [reflexivity|]. split; [reflexivity|]. split.
    { intros n. unfold after_sweep. cbn [existsb]. rewrite andb_false_r. cbn [andb]. destruct (ent_find n (k_ents k)); reflexivity. }
    split; [reflexivity|]. split; [exact K|]. split; auto.
  - rewrite sweep_entries_cons, solo_bind.
    assert (SKIP : forall k1, k_fds k1 = k_fds k -> k_ents k1 = k_ents k -> k_pindir k1 = k_pindir k ->
       k_dirs k1 = k_dirs k -> k_objs k1 = k_objs k -> kinv k1 ->
       (is_staging n = true -> forall i, ent_find n (k_ents k) = Some i -> busy k i = true) ->
       exists k', solo p (sweep_entries pd l) k1 = (tt, k') /\ k_fds k' = k_fds k /\
         (forall m0, ent_find m0 (k_ents k') = after_sweep k (n :: l) m0) /\ k_pindir k' = k_pindir k /\ kinv k' /\
         (forall n i, ent_find n (k_ents k') = Some i -> k_dirs k' i = k_dirs k i) /\ (forall o, k_objs k' o = k_objs k o)).
    { intros k1 E1 E2 E3 E4 E5 K1 HL.
      destruct (IH k1 K1) as (k' & E & A1 & A2 & A3 & A4 & A5 & A6).
      { unfold desc_of in *. rewrite E1. exact PD. } { unfold pins_distinct. rewrite E4. exact SW. }
      exists k'. split; [exact E|]. split; [congruence|]. split.
      { intros m0. rewrite A2. unfold after_sweep. rewrite E2. cbn [existsb].
        destruct (name_eqb_spec m0 n) as [->|]; [|cbn [orb]; destruct (ent_find m0 (k_ents k)) as [j|]; [rewrite (busy_fds _ _ j E1)|]; reflexivity].
        destruct (ent_find n (k_ents k)) as [j|] eqn:Bn; [|reflexivity]. rewrite (busy_fds _ _ j E1).
        destruct (is_staging n) eqn:Sn; [|reflexivity]. rewrite (HL eq_refl j eq_refl). cbn [negb andb]. rewrite !andb_false_r. reflexivity. }
      split; [congruence|]. split; [exact A4|]. split; [|intros o; rewrite A6, E5; reflexivity].
      intros n' i' H'. rewrite (A5 _ _ H'), E4. reflexivity. }
    destruct (is_staging n) eqn:S.
    2:{ cbn [solo fst snd]. apply SKIP; auto; discriminate. }
    destruct (ent_find n (k_ents k)) as [i|] eqn:B.
    + destruct (busy k i) eqn:HD.
      { destruct (sweep_busy p k pd n i m K PD B HD) as (k1 & E1 & B1 & B2 & B3 & B4 & B5).
        pose proof (solo_kinv p (sweep_body pd n) k K) as K1. rewrite E1 in *. cbn [fst snd] in *.
        apply SKIP; auto. intros _ j Hj. congruence. }
      pose proof (busy_unlocked _ _ HD) as U. pose proof (SW i) as ND.
      destruct (sweep_one p k pd n i m K PD B U ND) as (k1 & E1 & B1 & B2 & B3 & B4 & B5 & B6 & B7).
      pose proof (solo_kinv p (sweep_body pd n) k K) as K1. rewrite E1 in *. cbn [fst snd] in *.
      destruct (IH k1 K1) as (k' & E & A1 & A2 & A3 & A4 & A5 & A6).
      * unfold desc_of in *. rewrite B1. exact PD.
      * intros j. destruct (N.eq_dec j i) as [->|Hj]; [rewrite B6; constructor|rewrite (B5 _ Hj); apply SW].
      * exists k'. split; [exact E|]. split; [congruence|]. split.
        { intros m0. rewrite A2. unfold after_sweep. rewrite B2, ent_find_del. cbn [existsb].
          destruct (name_eqb_spec m0 n) as [->|]; cbn [orb andb].
          - rewrite B, S, HD. reflexivity.
          - destruct (ent_find m0 (k_ents k)) as [j|]; [rewrite (busy_fds _ _ j B1)|]; reflexivity. }
        split; [congruence|]. split; [exact A4|]. split; [|intros o; rewrite A6; apply B7].
        intros n' i' F'. rewrite (A5 _ _ F'). apply B5. intros ->.
        rewrite A2 in F'. unfold after_sweep in F'. rewrite B2, ent_find_del in F'.
        destruct (bytes_eqb n' n) eqn:EQ; [discriminate F'|].
        destruct (ent_find n' (k_ents k)) as [j|] eqn:B'; [|discriminate F'].
        assert (j = i) as -> by (destruct (is_staging n' && existsb (bytes_eqb n') l && negb (busy k1 j)); [discriminate F'|injection F'; auto]).
        rewrite (ki_inj _ K _ _ _ B' B) in EQ. rewrite name_eqb_refl in EQ. discriminate EQ.
    + assert (E1 : solo p (sweep_body pd n) k = (tt, k)).
      { unfold sweep_body. rewrite solo_bind. unfold sys_fd. rewrite sys_none. cbn [kdo]. unfold is_pindir. rewrite PD. cbn [negb].
        rewrite B. reflexivity. }
      rewrite E1. cbn [fst snd]. apply SKIP; auto. discriminate.
Qed.

(** A context set-up that nobody disturbs removes every staging directory that is not
    locked, and nothing else. *)
Lemma sweep_complete p k :
  kinv k -> pindir_unlocked k -> pins_distinct k ->
  exists k', solo p sweep_staging k = (tt, k') /\ k_fds k' = k_fds k /\
    (forall n, ent_find n (k_ents k') = match ent_find n (k_ents k) with
       | Some i => if is_staging n && negb (busy k i) then None else Some i
       | None => None
       end) /\
    (forall n i, ent_find n (k_ents k') = Some i -> k_dirs k' i = k_dirs k i) /\
    (forall o, k_objs k' o = k_objs k o).
Proof.
  intros K U SW. unfold sweep_staging. rewrite solo_bind.
  destruct (solo_lock_init p k K U) as (k1 & b & f & E & K1 & F & NB & FF & FB & A1 & A2 & A3 & A4 & _). rewrite E. cbn [fst snd lk_pin].
  assert (D1 : desc_of k1 p f = Some (D_pindir L_WRITE)).
  { unfold desc_of. rewrite F, fd_find_head, N.eqb_refl. reflexivity. }
  rewrite sys_none. cbn [kdo]. unfold is_pindir. rewrite D1. cbn [fst snd]. rewrite solo_bind.
  destruct (sweep_loop_busy p f L_WRITE (names_of k1) k1 K1 D1) as (k2 & E2 & B1 & B2 & B3 & B4 & B5 & B6).
  { unfold pins_distinct. rewrite A2. exact SW. }
  rewrite E2. cbn [fst snd]. unfold lock_cleanup. cbn [lk_bpffs]. rewrite solo_bind.
  unfold release_chain. cbn [lk_bpffs lk_pin lk_chain solo fst snd]. rewrite solo_bind. unfold close_opt. cbn [lk_pin].
  rewrite (solo_sys_ p (C_close f) k2). cbn [kdo fst snd].
  assert (D2 : desc_of k2 p f = Some (D_pindir L_WRITE)) by (unfold desc_of in *; rewrite B1; exact D1).
  rewrite D2. cbn [fst snd]. set (k3 := with_fds k2 _).
  assert (F3 : k_fds k3 = (b, (p, D_bpffs)) :: k_fds k).
  { unfold k3. cbn [with_fds k_fds]. rewrite B1, F. cbn [fd_del filter fst]. rewrite N.eqb_refl. cbn [negb].
    destruct (N.eqb_spec f b); [contradiction|]. cbn [negb]. f_equal. apply fd_del_fresh, FF. }
  rewrite (solo_sys_ p (C_close b) k3). cbn [kdo fst snd].
  assert (D3 : desc_of k3 p b = Some D_bpffs) by (unfold desc_of; rewrite F3, fd_find_head, N.eqb_refl; reflexivity).
  rewrite D3. cbn [fst snd]. eexists. split; [reflexivity|]. cbn [with_fds k_fds k_ents k_dirs k_objs].
  split; [rewrite F3; cbn [fd_del filter fst]; rewrite N.eqb_refl; cbn [negb]; apply fd_del_fresh, FB|].
  split.
  { intros n. unfold k3. cbn [with_fds k_ents]. rewrite B2. unfold after_sweep, names_of. rewrite A1.
    destruct (ent_find n (k_ents k)) as [i|] eqn:Bn; [|reflexivity].
    replace (existsb (bytes_eqb n) (map fst (k_ents k))) with true.
    2:{ symmetry. apply existsb_exists. exists n. split; [apply (in_map fst _ (n, i)), ent_find_in, Bn|apply name_eqb_refl]. }
    rewrite andb_true_r. replace (busy k1 i) with (busy k i); [reflexivity|].
    unfold busy. rewrite F. cbn [existsb snd]. reflexivity. }
  split; [|intros o; unfold k3; cbn [with_fds k_objs]; rewrite B6, A3; reflexivity].
  intros n i H. unfold k3 in *. cbn [with_fds k_dirs k_ents] in *. rewrite (B5 n i H), A2. reflexivity.
Qed.

(** ** Crash points of a creation *)
Definition creation_point (k0 : kst) (n : name) (k : kst) : Prop :=
  k_ents k = k_ents k0 \/
  exists m i, (m = n \/ is_staging m = true) /\ k_ents k = (m, i) :: k_ents k0 /\ k_dirs k i = [].

Definition stg (k0 : kst) (s : name) (i : ino) (k : kst) : Prop :=
  is_staging s = true /\ ent_find s (k_ents k0) = None /\ k_ents k = (s, i) :: k_ents k0 /\ k_dirs k i = [].
Lemma stg_point k0 n s i k : stg k0 s i k -> creation_point k0 n k.
Proof. intros (A & B & C & D). right. exists s, i. auto. Qed.
Lemma stg_sys k0 s i k p c d : is_entcall c = false -> is_dircall c = false -> stg k0 s i k -> stg k0 s i (fst (ksys k p c d)).
Proof. intros E D (A & B & C & F). repeat split; auto; [rewrite ksys_ents|rewrite ksys_dirs]; assumption. Qed.
Lemma old_sys k0 k p c d : is_entcall c = false -> k_ents k = k_ents k0 -> k_ents (fst (ksys k p c d)) = k_ents k0.
Proof. intros E H. rewrite ksys_ents; assumption. Qed.

Lemma wps_old {A} F p k0 n (m : prog A) : (forall c, can_call m c -> is_entcall c = false) ->
  forall k, k_ents k = k_ents k0 -> wps F p (creation_point k0 n) m (fun _ _ => True) k.
Proof.
  induction m as [a|c f IH]; intros H k E; cbn [wps]; (split; [left; exact E|]); [exact Logic.I|].
  intros d _. apply IH; [intros c' Hc; apply H; eapply Cc_next; exact Hc|]. apply old_sys; [apply H; constructor|exact E].
Qed.

Lemma wps_make_staging F p k0 n pd : forall fuel k, k_ents k = k_ents k0 ->
  wps F p (creation_point k0 n) (make_staging fuel pd)
    (fun r k' => match r with Ok s => exists i, stg k0 s i k' | Er _ => k_ents k' = k_ents k0 end) k.
Proof.
  induction fuel as [|fuel IH]; intros k E; cbn [make_staging]; [split; [left; exact E|exact E]|].
  apply wps_do; [left; exact E|]. intros d _.
  assert (E1 : k_ents (fst (ksys k p C_staging_name d)) = k_ents k0) by (apply old_sys; [reflexivity|exact E]).
  assert (X : exists s, snd (ksys k p C_staging_name d) = R_name (staging_prefix ++ s)).
  { destruct d as [|e|s]; cbn [ksys can_fail kdo snd]; eauto. }
  destruct X as [s ->]. set (k1 := fst (ksys k p C_staging_name d)) in *. clearbody k1.
  apply wps_bind. unfold sys_unit. apply wps_do; [left; exact E1|]. intros d1 _.
  destruct (mkdir_cases k1 p pd (staging_prefix ++ s) d1) as [[e He]|[He Hn]]; rewrite He; cbn [fst snd].
  - apply wps_ret; [left; exact E1|]. destruct (e =? EEXIST); [apply IH, E1|split; [left; exact E1|exact E1]].
  - assert (G : stg k0 (staging_prefix ++ s) (k_next k1) (with_next (with_dir (with_ents k1 ((staging_prefix ++ s, k_next k1) :: k_ents k1)) (k_next k1) []))).
    { split; [apply staging_prefix_ok|]. split; [rewrite <- E1; exact Hn|]. split.
      - cbn [with_next with_dir with_ents k_ents]. rewrite E1. reflexivity.
      - cbn [with_next with_dir with_ents k_dirs]. unfold updN. rewrite N.eqb_refl. reflexivity. }
    apply wps_ret; [eapply stg_point; exact G|]. apply wps_ret; [eapply stg_point; exact G|]. eexists. exact G.
Qed.

Lemma wps_unstage {A} F p k0 n pd s i (m : prog A) :
  (forall c, can_call m c -> is_entcall c = false /\ is_dircall c = false) ->
  forall k, stg k0 s i k -> wps F p (creation_point k0 n) (pbind (sys_ (C_rmdir pd s)) (fun _ => m)) (fun _ _ => True) k.
Proof.
  intros HM k G. apply wps_do; [eapply stg_point; exact G|]. intros d _. cbn [pbind].
  destruct (rmdir_cases k p pd s d) as [[e He]|(j & He & Ha & Hb)]; rewrite He; cbn [fst snd].
  - revert G. generalize k. clear - HM. induction m as [a|c f IH]; intros k G; cbn [wps]; (split; [eapply stg_point; exact G|]); [exact Logic.I|].
    intros d _. apply IH; [intros c' Hc; apply HM; eapply Cc_next; exact Hc|].
    destruct (HM c (Cc_here _ _)). apply stg_sys; assumption.
  - apply wps_old; [intros c Hc; apply HM, Hc|]. cbn [with_ents k_ents]. destruct G as (_ & G2 & G3 & _). rewrite G3.
    cbn [ent_del filter fst]. rewrite name_eqb_refl. cbn [negb]. apply ent_del_none, G2.
Qed.

Lemma create_points F p k0 n pd : forall k, k_ents k = k_ents k0 ->
  wps F p (creation_point k0 n) (stage_and_publish pd n) (fun _ _ => True) k.
Proof.
  intros k E. unfold stage_and_publish. apply wps_bind.
  eapply wps_post; [| |exact (wps_make_staging F p k0 n pd 4 k E)]; [auto|].
  intros [s|e] k1 B; [|apply wps_ret; [left; exact B|exact Logic.I]].
  destruct B as [i G].
  assert (CL : forall f (e : N), forall c, can_call (sys_ (C_close f) ;;; Ret (Er e : res fd)) c -> is_entcall c = false /\ is_dircall c = false).
  { intros f e c H. inversion H as [|? ? ? ? X]; subst; [split; reflexivity|]. cbn [pbind] in X. inversion X. }
  assert (RT : forall (e : N) c, can_call (Ret (Er e : res fd)) c -> is_entcall c = false /\ is_dircall c = false) by (intros e c H; inversion H).
  apply wps_bind. unfold sys_fd. apply wps_do; [eapply stg_point; exact G|]. intros d _.
  pose proof (stg_sys k0 s i k1 p (C_opendir pd s) d eq_refl eq_refl G) as G2.
  set (k2 := fst (ksys k1 p (C_opendir pd s) d)) in *. clearbody k2.
  assert (ERR : forall e k, stg k0 s i k -> wps F p (creation_point k0 n) (sys_ (C_rmdir pd s) ;;; Ret (Er e : res fd)) (fun _ _ => True) k)
    by (intros; eapply wps_unstage; [apply RT|eassumption]).
  assert (ERR2 : forall f e k, stg k0 s i k -> wps F p (creation_point k0 n) (sys_ (C_rmdir pd s) ;;; sys_ (C_close f) ;;; Ret (Er e : res fd)) (fun _ _ => True) k)
    by (intros; eapply wps_unstage; [apply CL|eassumption]).
  destruct (snd (ksys k1 p (C_opendir pd s) d)); (apply wps_ret; [eapply stg_point; exact G2|]); try (apply ERR, G2).
  apply wps_bind. unfold flock, sys_unit. apply wps_do; [eapply stg_point; exact G2|]. intros d2 _.
  pose proof (stg_sys k0 s i k2 p (C_flock f L_WRITE) d2 eq_refl eq_refl G2) as G3.
  set (k3 := fst (ksys k2 p (C_flock f L_WRITE) d2)) in *. clearbody k3.
  assert (REST : wps F p (creation_point k0 n)
    (rr <~ Do (C_rename pd s n) (fun r => match r with R_err e => Ret (Er e) | _ => Ret (Ok tt) end) ;;
     match rr with Er e => sys_ (C_rmdir pd s) ;;; sys_ (C_close f) ;;; Ret (Er e) | Ok _ => Ret (Ok f) end) (fun _ _ => True) k3).
  { apply wps_bind. apply wps_do; [eapply stg_point; exact G3|]. intros d3 _.
    destruct (rename_cases k3 p pd s n d3) as [[e He]|(j & He & Ha & Hb)]; rewrite He; cbn [fst snd].
    - apply wps_ret; [eapply stg_point; exact G3|]. apply ERR2, G3.
    - assert (PT : creation_point k0 n (with_ents k3 ((n, j) :: ent_del s (k_ents k3)))).
      { destruct G3 as (_ & G32 & G33 & G34). right. exists n, i. split; [auto|]. cbn [with_ents k_ents k_dirs].
        rewrite G33 in *. cbn [ent_find] in Ha. rewrite name_eqb_refl in Ha. injection Ha as <-.
        split; [|exact G34]. cbn [ent_del filter fst]. rewrite name_eqb_refl. cbn [negb]. f_equal. apply (ent_del_none s), G32. }
      apply wps_ret; [exact PT|]. apply wps_ret; [exact PT|exact Logic.I]. }
  destruct (snd (ksys k2 p (C_flock f L_WRITE) d2)); (apply wps_ret; [eapply stg_point; exact G3|]); first [exact REST|apply ERR2, G3].
Qed.

Lemma creation_crash F p pd n k k' : stops F p (stage_and_publish pd n) k k' -> creation_point k n k'.
Proof. intros H. eapply wps_stops; [exact H|]. apply create_points. reflexivity. Qed.
