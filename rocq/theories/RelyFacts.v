(** What processes may do, and what the others can count on. *)
From Coq Require Import NArith ZArith List Bool Lia.
From Verif Require Import Bytes Types World BpfModel GenModel BytesFacts StrModel SetModel PackModel HookModel KernModel LockModel CtlModel SysSpec SysFacts.
Import ListNotations.
Local Open Scope N_scope.

Definition pin_locked (k : kst) (p : pid) : Prop := exists f m, desc_of k p f = Some (D_pindir m) /\ m <> L_NONE.
Definition pin_ex (k : kst) (p : pid) : Prop := exists f, desc_of k p f = Some (D_pindir L_WRITE).
Definition dir_locked (k : kst) (p : pid) (i : ino) : Prop := exists f m, desc_of k p f = Some (D_dir i m) /\ m <> L_NONE.
Definition dir_ex (k : kst) (p : pid) (i : ino) : Prop := exists f, desc_of k p f = Some (D_dir i L_WRITE).
(** No other process has the directory open. *)
Definition alone (k : kst) (p : pid) (i : ino) : Prop := forall q f m, desc_of k q f = Some (D_dir i m) -> q = p.

Definition allowed (k : kst) (p : pid) (c : call) : Prop :=
  match c with
  | C_flock f m => forall d, desc_of k p f = Some d -> mode_of d = L_NONE
  | C_opendir _ _ => pin_locked k p
  | C_mkdir _ n => pin_ex k p /\ is_staging n = true
  | C_rename _ a b => pin_ex k p /\ is_staging a = true /\ exists i, ent_find a (k_ents k) = Some i /\ dir_ex k p i /\ k_dirs k i = []
  | C_rmdir _ n => pin_locked k p /\
      forall i, ent_find n (k_ents k) = Some i -> dir_ex k p i \/ (pin_ex k p /\ alone k p i)
  | C_unlink d _ | C_rename_pin d _ _ | C_pin d _ _ =>
      exists i m, desc_of k p d = Some (D_dir i m) /\ pin_locked k p /\ dir_ex k p i
  | C_get d _ | C_listdir d =>
      exists i m, desc_of k p d = Some (D_dir i m) /\ pin_locked k p /\ dir_locked k p i
  | _ => True
  end.

Record rely (p : pid) (k k' : kst) : Prop := {
  re_desc : forall f, desc_of k' p f = desc_of k p f;
  re_next : k_next k <= k_next k';
  re_inv : kinv k -> kinv k';
  re_ex : kinv k -> pin_ex k p ->
    k_ents k' = k_ents k /\ (forall i, k_dirs k' i = k_dirs k i) /\
    (forall q f i m, q <> p -> desc_of k' q f = Some (D_dir i m) -> exists m', desc_of k q f = Some (D_dir i m'));
  re_lock : kinv k -> pin_locked k p -> forall i, dir_locked k p i ->
    k_dirs k' i = k_dirs k i /\ (forall n, ent_find n (k_ents k) = Some i <-> ent_find n (k_ents k') = Some i)
}.

Lemma rely_pin_ex p k k' : rely p k k' -> pin_ex k p -> pin_ex k' p.
Proof. intros R [f H]. exists f. rewrite (re_desc _ _ _ R). exact H. Qed.
Lemma rely_pin_locked p k k' : rely p k k' -> pin_locked k p -> pin_locked k' p.
Proof. intros R (f & m & H & X). exists f, m. rewrite (re_desc _ _ _ R). split; assumption. Qed.
Lemma rely_dir_locked p k k' i : rely p k k' -> dir_locked k p i -> dir_locked k' p i.
Proof. intros R (f & m & H & X). exists f, m. rewrite (re_desc _ _ _ R). split; assumption. Qed.
Lemma rely_dir_ex p k k' i : rely p k k' -> dir_ex k p i -> dir_ex k' p i.
Proof. intros R [f H]. exists f. rewrite (re_desc _ _ _ R). exact H. Qed.

Lemma pin_ex_locked k p : pin_ex k p -> pin_locked k p.
Proof. intros [f H]. exists f, L_WRITE. split; [exact H|discriminate]. Qed.
Lemma dir_ex_locked k p i : dir_ex k p i -> dir_locked k p i.
Proof. intros [f H]. exists f, L_WRITE. split; [exact H|discriminate]. Qed.

Lemma rely_refl p k : rely p k k.
Proof. constructor; auto. - lia. - intros _ _. eauto. - intros. split; [reflexivity|tauto]. Qed.

Lemma rely_trans p a b c : rely p a b -> rely p b c -> rely p a c.
Proof.
  intros R S. constructor.
  - intros f. rewrite (re_desc _ _ _ S). apply (re_desc _ _ _ R).
  - pose proof (re_next _ _ _ R). pose proof (re_next _ _ _ S). lia.
  - intros K. apply (re_inv _ _ _ S), (re_inv _ _ _ R), K.
  - intros K H. destruct (re_ex _ _ _ R K H) as (A & B & C).
    destruct (re_ex _ _ _ S (re_inv _ _ _ R K) (rely_pin_ex _ _ _ R H)) as (A' & B' & C').
    split; [congruence|]. split; [intros i; rewrite B', B; reflexivity|].
    intros q f i m Hq Hd. destruct (C' _ _ _ _ Hq Hd) as [m' Hd']. exact (C _ _ _ _ Hq Hd').
  - intros K H i L. destruct (re_lock _ _ _ R K H i L) as (A & B).
    destruct (re_lock _ _ _ S (re_inv _ _ _ R K) (rely_pin_locked _ _ _ R H) i (rely_dir_locked _ _ _ _ R L)) as (A' & B').
    split; [congruence|]. intros n. rewrite B. apply B'.
Qed.

(** ** Locks exclude each other *)
Lemma pin_excl k p q : kinv k -> p <> q -> pin_ex k p -> pin_locked k q -> False.
Proof.
  intros K N [f Hf] (g & m & Hg & Hm).
  apply desc_of_find in Hf. apply desc_of_find in Hg.
  assert (f <> g) by (intros ->; congruence).
  pose proof (ki_lock _ K _ _ _ _ _ _ H Hf Hg eq_refl) as X. cbn in X.
  destruct m; [apply Hm; reflexivity|discriminate X|discriminate X].
Qed.
Lemma dir_excl k p q i : kinv k -> p <> q -> dir_ex k p i -> dir_locked k q i -> False.
Proof.
  intros K N [f Hf] (g & m & Hg & Hm).
  apply desc_of_find in Hf. apply desc_of_find in Hg.
  assert (f <> g) by (intros ->; congruence).
  assert (S : same_place (D_dir i L_WRITE) (D_dir i m) = true) by (cbn; apply N.eqb_refl).
  pose proof (ki_lock _ K _ _ _ _ _ _ H Hf Hg S) as X. cbn in X.
  destruct m; [apply Hm; reflexivity|discriminate X|discriminate X].
Qed.

(** ** A change that concerns only descriptors of [q] *)
Lemma desc_of_new_fd k p q d f :
  kinv k -> desc_of (fst (new_fd k q d)) p f =
            if f =? k_next k then (if p =? q then Some d else None) else desc_of k p f.
Proof.
  intros K. unfold desc_of. cbn [new_fd fst with_next with_fds k_fds fd_find].
  destruct (f =? k_next k); reflexivity.
Qed.

Lemma desc_of_fresh k p f : kinv k -> k_next k <= f -> desc_of k p f = None.
Proof.
  intros K H. unfold desc_of. destruct (fd_find f (k_fds k)) as [x|] eqn:E; [|reflexivity].
  pose proof (ki_fd _ K _ _ E). lia.
Qed.

Lemma desc_of_del k p f g : desc_of (with_fds k (fd_del g (k_fds k))) p f = if f =? g then None else desc_of k p f.
Proof.
  unfold desc_of. cbn [with_fds k_fds]. rewrite fd_find_del. destruct (f =? g); reflexivity.
Qed.

Lemma desc_of_set k p q f g d e :
  desc_of k q g = Some e ->
  desc_of (set_desc k q g d) p f = if f =? g then (if p =? q then Some d else None) else desc_of k p f.
Proof.
  intros H. apply desc_of_find in H. unfold desc_of. cbn [set_desc with_fds k_fds]. rewrite fd_find_set.
  destruct (f =? g); [rewrite H; reflexivity|reflexivity].
Qed.

(** Directories, entries and the other processes' descriptors of directories are
    untouched. *)
Lemma rely_local p k k' :
  (forall f, desc_of k' p f = desc_of k p f) -> k_next k <= k_next k' ->
  (kinv k -> kinv k') -> k_ents k' = k_ents k -> (forall i, k_dirs k' i = k_dirs k i) ->
  (pin_ex k p -> forall q f i m, q <> p -> desc_of k' q f = Some (D_dir i m) -> exists m', desc_of k q f = Some (D_dir i m')) ->
  rely p k k'.
Proof.
  intros A B C D E F. constructor; auto.
  { intros _ X. split; [exact D|]. split; [exact E|exact (F X)]. }
  intros _ _ i _. split; [apply E|]. intros n. rewrite D. tauto.
Qed.

Lemma rely_new_fd p q k d :
  kinv k -> p <> q -> kinv (fst (new_fd k q d)) -> (forall i m, d = D_dir i m -> pin_locked k q) ->
  rely p k (fst (new_fd k q d)).
Proof.
  intros K N K' Hd. apply rely_local; try reflexivity; try (intros; exact K').
  - intros f. rewrite desc_of_new_fd by exact K. destruct (N.eqb_spec f (k_next k)) as [->|X]; [|reflexivity].
    rewrite desc_of_fresh by (exact K || lia). destruct (N.eqb_spec p q); [contradiction|reflexivity].
  - cbn. lia.
  - intros Hx r f i m Hr Hf. rewrite desc_of_new_fd in Hf by exact K.
    destruct (f =? k_next k); [|eauto].
    destruct (N.eqb_spec r q) as [->|]; [|discriminate]. injection Hf as ->.
    exfalso. eapply pin_excl; [exact K|exact N|exact Hx|eapply Hd; reflexivity].
Qed.

Lemma rely_new_obj p q k v : kinv k -> p <> q -> rely p k (fst (new_obj k q v)).
Proof.
  intros K N. rewrite new_obj_eq.
  assert (K1 : kinv (with_next (with_obj k (k_next k) v))) by (apply (kinv_same k); cbn; auto; lia).
  apply rely_trans with (b := with_next (with_obj k (k_next k) v)).
  - apply rely_local; try reflexivity; auto. + cbn. lia. + eauto.
  - apply rely_new_fd; auto; [|discriminate]. apply kinv_new_fd; auto. discriminate.
Qed.

Lemma rely_obj p k o v : rely p k (with_obj k o v).
Proof.
  apply rely_local; try reflexivity.
  - intros K. apply (kinv_same k); auto; cbn; lia.
  - eauto.
Qed.

Lemma rely_close p q k f : p <> q -> (exists d, desc_of k q f = Some d) -> rely p k (with_fds k (fd_del f (k_fds k))).
Proof.
  intros N [d Hd]. apply rely_local; try reflexivity.
  - intros g. rewrite desc_of_del. destruct (N.eqb_spec g f) as [->|]; [|reflexivity].
    unfold desc_of in *. destruct (fd_find f (k_fds k)) as [[r e]|]; [|reflexivity].
    destruct (N.eqb_spec q r) as [->|]; [|discriminate]. destruct (N.eqb_spec p r); [congruence|reflexivity].
  - apply kinv_del.
  - intros _ r g i m _ H. rewrite desc_of_del in H. destruct (g =? f); [discriminate|eauto].
Qed.

Lemma rely_dir p q k i l :
  kinv k -> p <> q -> pin_locked k q /\ dir_ex k q i -> rely p k (with_dir k i l).
Proof.
  intros K N H. constructor; try reflexivity.
  - intros _. apply (kinv_same k); auto. cbn. lia.
  - intros _ X. exfalso. eapply pin_excl; [exact K|exact N|exact X|exact (proj1 H)].
  - intros _ X j L. split; [|tauto]. cbn [with_dir k_dirs]. unfold updN.
    destruct (N.eqb_spec j i) as [->|]; [|reflexivity]. exfalso.
    destruct H as [H Hd]. eapply dir_excl; [exact K| |exact Hd|exact L]. congruence.
Qed.

Lemma rely_sys p q k c d : kinv k -> p <> q -> allowed k q c -> rely p k (fst (ksys k q c d)).
Proof.
  intros K N A.
  assert (G : forall s, rely p k (fst (kdo k q c s))).
  { intros s. pose proof (kdo_kinv k q c s K) as K'.
    destruct c; cbn [kdo allowed] in *; try apply rely_refl.
    - apply rely_new_fd; auto. discriminate.
    - destruct (desc_of k q b) as [[]|]; try apply rely_refl. destruct (k_pindir k); [|apply rely_refl].
      apply rely_new_fd; auto. discriminate.
    - destruct (desc_of k q b) as [[]|]; try apply rely_refl. destruct (k_pindir k); [apply rely_refl|].
      apply rely_local; try reflexivity; auto. eauto.
    - destruct (desc_of k q f) as [e|] eqn:He; [|apply rely_refl].
      destruct (contended k f e m) eqn:Hc; [apply rely_refl|]. cbn [fst] in *.
      apply rely_local; try reflexivity; auto.
      + intros g. rewrite (desc_of_set _ _ _ _ _ _ _ He). destruct (N.eqb_spec g f) as [->|]; [|reflexivity].
        destruct (N.eqb_spec p q); [contradiction|]. unfold desc_of in *.
        destruct (fd_find f (k_fds k)) as [[r x]|]; [|reflexivity].
        destruct (N.eqb_spec q r) as [->|]; [|discriminate]. destruct (N.eqb_spec p r); [congruence|reflexivity].
      + intros _ r g i m' _ H. rewrite (desc_of_set _ _ _ _ _ _ _ He) in H.
        destruct (N.eqb_spec g f) as [->|]; [|eauto].
        destruct (N.eqb_spec r q) as [->|]; [|discriminate]. destruct e; cbn [with_mode] in H; try discriminate H.
        injection H as -> ->. eauto.
    - destruct (desc_of k q f) eqn:Hd; [|apply rely_refl]. apply rely_close with (q := q); eauto.
    - destruct (negb (is_pindir k q p0)); [apply rely_refl|].
      destruct (ent_find n (k_ents k)) eqn:Hn; [apply rely_refl|]. cbn [fst] in *. destruct A as [A _].
      constructor; auto.
      + cbn. lia.
      + intros _ X. exfalso. eapply pin_excl; [exact K|exact N|exact X|apply pin_ex_locked, A].
      + intros _ X. exfalso. eapply pin_excl; [exact K| |exact A|exact X]. congruence.
    - destruct (negb (is_pindir k q p0)); [apply rely_refl|].
      destruct (ent_find n (k_ents k)) eqn:Hn; [|apply rely_refl].
      apply rely_new_fd; auto.
    - destruct (dir_of k q f); apply rely_refl.
    - destruct (negb (is_pindir k q p0)); [apply rely_refl|]. destruct (ent_find n (k_ents k)); apply rely_refl.
    - destruct (negb (is_pindir k q p0)); [apply rely_refl|].
      destruct (ent_find a (k_ents k)); [|apply rely_refl]. destruct (ent_find b (k_ents k)); [apply rely_refl|].
      destruct A as [A _]. cbn [fst] in *.
      constructor; auto.
      + reflexivity.
      + intros _ X. exfalso. eapply pin_excl; [exact K|exact N|exact X|apply pin_ex_locked, A].
      + intros _ X. exfalso. eapply pin_excl; [exact K| |exact A|exact X]. congruence.
    - destruct (negb (is_pindir k q p0)); [apply rely_refl|].
      destruct (ent_find n (k_ents k)) as [i|] eqn:Hn; [|apply rely_refl].
      destruct (k_dirs k i) eqn:Hd; [|apply rely_refl]. cbn [fst] in *.
      destruct A as [A B]. specialize (B _ eq_refl).
      constructor; auto.
      + reflexivity.
      + intros _ X. exfalso. eapply pin_excl; [exact K|exact N|exact X|exact A].
      + intros _ X j L. split; [reflexivity|]. intros m. cbn [with_ents k_ents]. rewrite ent_find_del.
        destruct (name_eqb_spec m n) as [->|]; [|tauto]. rewrite Hn. split; [|discriminate].
        intros H. injection H as ->. exfalso. destruct B as [B|[_ B]].
        * eapply dir_excl; [exact K| |exact B|exact L]. congruence.
        * destruct L as (f & m' & L & _). apply N. eapply B. exact L.
    - destruct (is_pindir k q p0); apply rely_refl.
    - destruct (dir_of k q d0); apply rely_refl.
    - destruct A as (i & m & Hd & A). unfold dir_of. rewrite Hd.
      destruct (pin_find p0 (k_dirs k i)); [|apply rely_refl]. cbn [fst].
      eapply rely_dir with (q := q); eauto.
    - destruct A as (i & m & Hd & A). unfold dir_of. rewrite Hd.
      destruct (pin_find a (k_dirs k i)); [|apply rely_refl]. cbn [fst].
      eapply rely_dir with (q := q); eauto.
    - destruct A as (i & m & Hd & A). unfold dir_of. rewrite Hd.
      destruct (oid_of k q o); [|apply rely_refl].
      destruct (pin_find p0 (k_dirs k i)); [apply rely_refl|]. cbn [fst].
      eapply rely_dir with (q := q); eauto.
    - destruct A as (i & m & Hd & A). unfold dir_of in *. rewrite Hd in *.
      destruct (pin_find p0 (k_dirs k i)); [|apply rely_refl].
      apply rely_new_fd; auto. discriminate.
    - destruct o; try apply rely_refl; apply rely_new_obj; auto.
    - destruct (obj_of k q f) as [[o []]|]; try apply rely_refl. apply rely_obj.
    - destruct (obj_of k q f) as [[o []]|]; apply rely_refl.
    - destruct (obj_of k q f) as [[o []]|]; try apply rely_refl. apply rely_obj.
    - destruct (obj_of k q f) as [[o [| | |[?|]| |]]|]; apply rely_refl.
    - destruct (obj_of k q f) as [[o []]|]; try apply rely_refl. destruct (i <? n); apply rely_refl.
    - destruct (obj_of k q f) as [[o []]|]; try apply rely_refl. destruct (i <? n); [|apply rely_refl]. apply rely_obj.
    - destruct (all_some (oid_of k q) sets); [|apply rely_refl]. destruct (oid_of k q cmap); [|apply rely_refl].
      apply rely_new_obj; auto.
    - apply rely_new_fd; auto. discriminate.
    - destruct (obj_of k q prog) as [[o []]|]; try apply rely_refl. apply rely_new_obj; auto.
    - destruct (obj_of k q l) as [[o [| | | | |h t po []]]|]; try apply rely_refl.
      + destruct (obj_of k q prog); apply rely_refl.
      + destruct (obj_of k q prog) as [[? []]|]; try apply rely_refl. apply rely_obj.
    - destruct (obj_of k q l) as [[o []]|]; try apply rely_refl. apply rely_obj.
    - destruct (oid_of k q f); [|apply rely_refl]. apply rely_new_fd; auto. discriminate. }
  destruct d as [|e|s]; cbn [ksys]; [apply G| |apply G].
  destruct (can_fail c); [apply rely_refl|apply G].
Qed.

(** ** Programs that do only allowed things *)
Fixpoint wpc {A} (p : pid) (pr : prog A) (Q : A -> kst -> Prop) (k : kst) : Prop :=
  match pr with
  | Ret a => forall k1, rely p k k1 -> Q a k1
  | Do c f => forall k1, rely p k k1 ->
      allowed k1 p c /\ forall d, wpc p (f (snd (ksys k1 p c d))) Q (fst (ksys k1 p c d))
  end.

Lemma wpc_rely {A} p (pr : prog A) Q k k1 : rely p k k1 -> wpc p pr Q k -> wpc p pr Q k1.
Proof.
  intros R. destruct pr; cbn [wpc]; intros H k2 R2; apply H; eapply rely_trans; eassumption.
Qed.

Lemma wpc_bind {A B} p (m : prog A) (f : A -> prog B) Q : forall k,
  wpc p m (fun a k' => wpc p (f a) Q k') k -> wpc p (pbind m f) Q k.
Proof.
  induction m as [a|c g IH]; intros k; cbn [wpc pbind].
  - intros H. apply H, rely_refl.
  - intros H k1 R. destruct (H k1 R) as [A1 A2]. split; [exact A1|]. intros d. apply IH, A2.
Qed.

Lemma wpc_post {A} p (m : prog A) (Q Q' : A -> kst -> Prop) : (forall a k, Q a k -> Q' a k) -> forall k,
  wpc p m Q k -> wpc p m Q' k.
Proof.
  intros HQ. induction m as [a|c g IH]; intros k; cbn [wpc].
  - intros H k1 R. apply HQ, H, R.
  - intros H k1 R. destruct (H k1 R) as [A1 A2]. split; [exact A1|]. intros d. apply IH, A2.
Qed.
