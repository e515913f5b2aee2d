(** An operation reaches only the directories that it opens and the objects pinned there. *)
From Coq Require Import NArith ZArith List Bool Lia.
From Verif Require Import Bytes Types World BpfModel GenModel BytesFacts StrModel SetModel MapModel PackModel PackSpec HookModel KernModel LockModel CtlModel SysSpec SysFacts RelyFacts SeqFacts StageFacts EvoFacts CtlSpec LockSeqFacts.
Import ListNotations.
Local Open Scope N_scope.

Section Isol.
Context (k0 : kst) (p : pid) (OD : ino -> Prop) (OO : oid -> Prop).
(** Objects made after [k0] are the process's own. *)
Context (NEWO : forall o, k_next k0 <= o -> OO o).

Definition reach_ok (c : call) : Prop :=
  match c with
  | C_get _ _ => forall j q o, OD j -> dview k0 j q = Some o -> OO o
  | C_opendir _ m | C_rename _ m _ | C_rmdir _ m => forall j, ent_find m (k_ents k0) = Some j -> OD j
  | C_mkdir _ _ => forall j, k_next k0 <= j -> OD j
  | _ => True
  end.

Record reach (k : kst) : Prop := {
  rc_sane : sane k;
  rc_next : k_next k0 <= k_next k;
  rc_obj : forall f o, desc_of k p f = Some (D_obj o) -> OO o;
  rc_dir : forall f j m, desc_of k p f = Some (D_dir j m) -> OD j;
  rc_dirs : forall j, ~ OD j -> k_dirs k j = k_dirs k0 j;
  rc_pins : forall j q o, dview k j q = Some o -> (exists q', dview k0 j q' = Some o) \/ (OD j /\ OO o);
  rc_objs : forall o, ~ OO o -> k_objs k o = k_objs k0 o;
  rc_ents : forall m j, ent_find m (k_ents k) = Some j -> ent_find m (k_ents k0) = Some j \/ OD j;
  rc_keep : forall m j, ent_find m (k_ents k0) = Some j -> ~ OD j -> ent_find m (k_ents k) = Some j
}.

Lemma reach_start : sane k0 -> (forall f x, desc_of k0 p f <> Some x) -> reach k0.
Proof.
  intros S H. constructor; auto; try lia.
  - intros f o X. destruct (H _ _ X).
  - intros f j m X. destruct (H _ _ X).
  - intros j q o X. left. eauto.
Qed.

Lemma reach_new_fd k d : reach k -> sane (fst (new_fd k p d)) -> (forall o, d = D_obj o -> OO o) -> (forall j m, d = D_dir j m -> OD j) -> reach (fst (new_fd k p d)).
Proof.
  intros R S H1 H2. destruct R as [A B C D E F G H J]. constructor; auto.
  - cbn. lia.
  - intros f o. unfold desc_of. cbn. destruct (f =? k_next k).
    + rewrite N.eqb_refl. intros X. injection X as ->. apply H1; reflexivity.
    + apply C.
  - intros f j m. unfold desc_of. cbn. destruct (f =? k_next k).
    + rewrite N.eqb_refl. intros X. injection X as ->. eapply H2; reflexivity.
    + apply D.
Qed.
Lemma reach_put k o v : reach k -> OO o -> sane (with_obj k o v) -> reach (with_obj k o v).
Proof.
  intros R Ho S. destruct R as [A B C D E F G H J]. constructor; auto.
  intros o' X. cbn. unfold updN. destruct (N.eqb_spec o' o) as [->|]; [contradiction|auto].
Qed.
Lemma reach_new_obj k v : reach k -> sane (fst (new_obj k p v)) -> reach (fst (new_obj k p v)).
Proof.
  intros R S. destruct R as [A B C D E F G H J]. constructor; auto.
  - cbn. lia.
  - intros f o. unfold desc_of. cbn. destruct (f =? k_next k + 1).
    + rewrite N.eqb_refl. intros X. injection X as <-. apply NEWO, B.
    + apply C.
  - intros f j m. unfold desc_of. cbn. destruct (f =? k_next k + 1).
    + rewrite N.eqb_refl. discriminate.
    + apply D.
  - intros o X. cbn. unfold updN. destruct (N.eqb_spec o (k_next k)) as [->|]; [destruct (X (NEWO _ B))|auto].
Qed.
Lemma reach_dir k i l : reach k -> OD i -> sane (with_dir k i l) ->
  (forall q o, pin_find q l = Some o -> (exists q', dview k i q' = Some o) \/ OO o) -> reach (with_dir k i l).
Proof.
  intros R Hi S HL. destruct R as [A B C D E F G H J]. constructor; auto.
  - intros j X. cbn. unfold updN. destruct (N.eqb_spec j i) as [->|]; [contradiction|auto].
  - intros j q o. unfold dview at 1. cbn. unfold updN. destruct (N.eqb_spec j i) as [->|]; [|apply F].
    intros X. destruct (HL _ _ X) as [[q' Y]|Y]; [exact (F _ _ _ Y)|auto].
Qed.
Lemma dir_of_desc k f i : dir_of k p f = Some i -> exists m, desc_of k p f = Some (D_dir i m).
Proof. unfold dir_of. destruct (desc_of k p f) as [[]|]; try discriminate. intros H. injection H as ->. eauto. Qed.
Lemma oid_of_desc k f o : oid_of k p f = Some o -> desc_of k p f = Some (D_obj o).
Proof. unfold oid_of. destruct (desc_of k p f) as [[]|]; try discriminate. intros H. injection H as ->. reflexivity. Qed.

Lemma reach_kdo k c s : reach_ok c -> reach k -> reach (fst (kdo k p c s)).
Proof.
  intros HC R. pose proof (kdo_sane k p c s (rc_sane _ R)) as S. pose proof (rc_next _ R) as NX.
  destruct c; cbn [kdo reach_ok] in *; try exact R.
  - apply reach_new_fd; auto; discriminate.
  - destruct (desc_of k p b) as [[]|]; try exact R. destruct (k_pindir k); [|exact R]. apply reach_new_fd; auto; discriminate.
  - destruct (desc_of k p b) as [[]|]; try exact R. destruct (k_pindir k); [exact R|].
    destruct R as [A B C D E F G H J]. constructor; auto.
  - destruct (desc_of k p f) as [d|] eqn:Hd; [|exact R]. destruct (contended k f d m) eqn:Hc; [exact R|]. cbn [fst] in *.
    destruct R as [A B C D E F G H J]. apply desc_of_find in Hd. constructor; auto.
    + intros g o. unfold desc_of. cbn [set_desc with_fds k_fds]. rewrite fd_find_set. destruct (N.eqb_spec g f) as [->|]; [|apply C].
      rewrite Hd, N.eqb_refl. intros X. injection X as X. apply (C f). unfold desc_of. rewrite Hd, N.eqb_refl.
      destruct d; try discriminate X. cbn in X. congruence.
    + intros g j m0. unfold desc_of. cbn [set_desc with_fds k_fds]. rewrite fd_find_set. destruct (N.eqb_spec g f) as [->|]; [|apply D].
      rewrite Hd, N.eqb_refl. intros X. injection X as X. destruct d; try discriminate X. cbn in X. injection X as -> _. apply (D f j m1). unfold desc_of. rewrite Hd, N.eqb_refl. reflexivity.
  - destruct (desc_of k p f) eqn:Hd; [|exact R]. cbn [fst] in *. destruct R as [A B C D E F G H J]. constructor; auto.
    + intros g o. unfold desc_of. cbn [with_fds k_fds]. rewrite fd_find_del. destruct (g =? f); [discriminate|apply C].
    + intros g j m0. unfold desc_of. cbn [with_fds k_fds]. rewrite fd_find_del. destruct (g =? f); [discriminate|apply D].
  - destruct (negb (is_pindir k p p0)); [exact R|]. destruct (ent_find n (k_ents k)) eqn:Hn; [exact R|]. cbn [fst] in *.
    destruct R as [A B C D E F G H J]. constructor; auto.
    + cbn. lia.
    + intros j X. cbn. unfold updN. destruct (N.eqb_spec j (k_next k)) as [->|]; [destruct (X (HC _ B))|auto].
    + intros j q o. unfold dview at 1. cbn. unfold updN. destruct (N.eqb_spec j (k_next k)) as [->|]; [discriminate|apply F].
    + intros m j. cbn [with_next with_dir with_ents k_ents ent_find]. destruct (bytes_eqb m n); [|apply H]. intros X. injection X as <-. right. apply HC, B.
    + intros m j X Y. cbn [with_next with_dir with_ents k_ents ent_find]. pose proof (J _ _ X Y) as Z. destruct (name_eqb_spec m n); [congruence|exact Z].
  - destruct (negb (is_pindir k p p0)); [exact R|]. destruct (ent_find n (k_ents k)) eqn:Hn; [|exact R].
    apply reach_new_fd; auto; [discriminate|]. intros j m X. injection X as <- _. destruct (rc_ents _ R _ _ Hn) as [Y|Y]; [exact (HC _ Y)|exact Y].
  - destruct (dir_of k p f); exact R.
  - destruct (negb (is_pindir k p p0)); [exact R|]. destruct (ent_find n (k_ents k)); exact R.
  - destruct (negb (is_pindir k p p0)); [exact R|]. destruct (ent_find a (k_ents k)) eqn:Ha; [|exact R].
    destruct (ent_find b (k_ents k)) eqn:Hb; [exact R|]. cbn [fst] in *.
    destruct R as [A B C D E F G H J]. constructor; auto.
    + intros m j. cbn [with_ents k_ents ent_find]. destruct (bytes_eqb m b).
      * intros X. injection X as <-. destruct (H _ _ Ha) as [Y|Y]; [right; exact (HC _ Y)|auto].
      * rewrite ent_find_del. destruct (bytes_eqb m a); [discriminate|apply H].
    + intros m j X Y. cbn [with_ents k_ents ent_find]. pose proof (J _ _ X Y) as Z. destruct (name_eqb_spec m b); [congruence|].
      rewrite ent_find_del. destruct (name_eqb_spec m a) as [->|]; [destruct (Y (HC _ X))|exact Z].
  - destruct (negb (is_pindir k p p0)); [exact R|]. destruct (ent_find n (k_ents k)) eqn:Hn; [|exact R].
    destruct (k_dirs k i); [|exact R]. cbn [fst] in *.
    destruct R as [A B C D E F G H J]. constructor; auto.
    + intros m j. cbn [with_ents k_ents]. rewrite ent_find_del. destruct (bytes_eqb m n); [discriminate|apply H].
    + intros m j X Y. cbn [with_ents k_ents]. rewrite ent_find_del. destruct (name_eqb_spec m n) as [->|]; [destruct (Y (HC _ X))|exact (J _ _ X Y)].
  - destruct (is_pindir k p p0); exact R.
  - destruct (dir_of k p d); exact R.
  - destruct (dir_of k p d) eqn:Hd; [|exact R]. destruct (pin_find p0 (k_dirs k i)); [|exact R]. cbn [fst] in *.
    destruct (dir_of_desc _ _ _ Hd) as [m Hm]. apply reach_dir; auto; [exact (rc_dir _ R _ _ _ Hm)|].
    intros q x. rewrite pin_find_del. destruct (pname_eqb q p0); [discriminate|]. left. eauto.
  - destruct (dir_of k p d) eqn:Hd; [|exact R]. destruct (pin_find a (k_dirs k i)) as [o|] eqn:Ha; [|exact R]. cbn [fst] in *.
    destruct (dir_of_desc _ _ _ Hd) as [m Hm]. apply reach_dir; auto; [exact (rc_dir _ R _ _ _ Hm)|].
    intros q x. cbn [pin_find]. rewrite !pin_find_del. destruct (pname_eqb q b); [intros X; injection X as <-; left; eauto|].
    destruct (pname_eqb q a); [discriminate|]. left. eauto.
  - destruct (dir_of k p d) eqn:Hd; [|exact R]. destruct (oid_of k p o) as [x|] eqn:Ho; [|exact R].
    destruct (pin_find p0 (k_dirs k i)); [exact R|]. cbn [fst] in *.
    destruct (dir_of_desc _ _ _ Hd) as [m Hm]. apply reach_dir; auto; [exact (rc_dir _ R _ _ _ Hm)|].
    intros q y. cbn [pin_find]. destruct (pname_eqb q p0); [|left; eauto]. intros X. injection X as <-. right. exact (rc_obj _ R _ _ (oid_of_desc _ _ _ Ho)).
  - destruct (dir_of k p d) eqn:Hd; [|exact R]. destruct (pin_find p0 (k_dirs k i)) as [o|] eqn:E; [|exact R].
    destruct (dir_of_desc _ _ _ Hd) as [m Hm]. pose proof (rc_dir _ R _ _ _ Hm) as HI.
    apply reach_new_fd; auto; [|discriminate]. intros x X. injection X as <-.
    destruct (rc_pins _ R _ _ _ E) as [[q' Y]|[_ Y]]; [exact (HC _ _ _ HI Y)|exact Y].
  - destruct o; try exact R; apply reach_new_obj; auto.
  - destruct (obj_of k p f) as [[o []]|] eqn:E; try exact R. apply obj_of_obj in E. apply reach_put; auto. exact (rc_obj _ R _ _ (proj1 E)).
  - destruct (obj_of k p f) as [[o []]|]; exact R.
  - destruct (obj_of k p f) as [[o []]|] eqn:E; try exact R. apply obj_of_obj in E. apply reach_put; auto. exact (rc_obj _ R _ _ (proj1 E)).
  - destruct (obj_of k p f) as [[o [| | |[?|]| |]]|]; exact R.
  - destruct (obj_of k p f) as [[o []]|]; try exact R. destruct (i <? n); exact R.
  - destruct (obj_of k p f) as [[o []]|] eqn:E; try exact R. destruct (i <? n); [|exact R]. apply obj_of_obj in E. apply reach_put; auto. exact (rc_obj _ R _ _ (proj1 E)).
  - destruct (all_some (oid_of k p) sets); [|exact R]. destruct (oid_of k p cmap); [|exact R]. apply reach_new_obj; auto.
  - apply reach_new_fd; auto; discriminate.
  - destruct (obj_of k p prog) as [[o []]|]; try exact R. apply reach_new_obj; auto.
  - destruct (obj_of k p l) as [[o [| | | | |h t po []]]|] eqn:E; try exact R.
    + destruct (obj_of k p prog); exact R.
    + destruct (obj_of k p prog) as [[? []]|]; try exact R. apply obj_of_obj in E. apply reach_put; auto. exact (rc_obj _ R _ _ (proj1 E)).
  - destruct (obj_of k p l) as [[o []]|] eqn:E; try exact R. apply obj_of_obj in E. apply reach_put; auto. exact (rc_obj _ R _ _ (proj1 E)).
  - destruct (oid_of k p f) as [x|] eqn:E; try exact R. apply reach_new_fd; auto; [|discriminate].
    intros y X. injection X as <-. exact (rc_obj _ R _ _ (oid_of_desc _ _ _ E)).
Qed.

Lemma reach_ksys k c d : reach_ok c -> reach k -> reach (fst (ksys k p c d)).
Proof.
  intros HC R. destruct d as [|e|s]; cbn [ksys]; try (apply reach_kdo; assumption).
  destruct (can_fail c); [exact R|apply reach_kdo; assumption].
Qed.
Lemma reach_wps {A} F (m : prog A) : forall k, allc reach_ok m -> reach k -> wps F p reach m (fun _ k' => reach k') k.
Proof.
  induction m as [a|c f IH]; intros k AL R; cbn [wps allc] in *; (split; [exact R|]); [exact R|].
  intros d _. apply IH; [apply AL|]. apply reach_ksys; [apply AL|exact R].
Qed.
Lemma reach_stops {A} F (m : prog A) k k' : stops F p m k k' -> allc reach_ok m -> reach k -> reach k'.
Proof. induction 1; intros AL R; [exact R|]. cbn [allc] in AL. apply IHstops; [apply AL|]. apply reach_ksys; [apply AL|exact R]. Qed.
End Isol.

Fixpoint allr {A} (P : call -> Prop) (R : A -> Prop) (m : prog A) : Prop :=
  match m with Ret a => R a | Do c f => P c /\ forall r, allr P R (f r) end.
Lemma allr_bind {A B} P R (R' : B -> Prop) (m : prog A) (f : A -> prog B) : allr P R m -> (forall a, R a -> allr P R' (f a)) -> allr P R' (pbind m f).
Proof. induction m as [a|c g IH]; intros H HF; cbn [pbind allr] in *; [apply HF, H|]. destruct H as [H1 H2]. split; [exact H1|]. intros r. apply IH; auto. Qed.
Lemma allr_bindc {A B} P (R : A -> Prop) (m : prog A) (f : A -> prog B) : allr P R m -> (forall a, R a -> allc P (f a)) -> allc P (pbind m f).
Proof. induction m as [a|c g IH]; intros H HF; cbn [pbind allr] in *; [apply HF, H|]. destruct H as [H1 H2]. cbn [allc]. split; [exact H1|]. intros r. apply IH; auto. Qed.
Lemma allr_any {A} P (m : prog A) : allc P m -> allr P (fun _ => True) m.
Proof. induction m as [a|c g IH]; intros H; cbn [allr allc] in *; [exact Logic.I|]. destruct H as [H1 H2]. split; [exact H1|]. intros r. apply IH; auto. Qed.
Lemma allc_mono {A} (P P' : call -> Prop) (m : prog A) : (forall c, P c -> P' c) -> allc P m -> allc P' m.
Proof. intros HP. induction m as [a|c g IH]; intros H; cbn [allc] in *; [exact Logic.I|]. destruct H as [H1 H2]. auto. Qed.

(** ** The operations on one existing chain use only its name *)
Definition only (n : name) (c : call) : Prop :=
  match c with
  | C_opendir _ m | C_rmdir _ m => m = n
  | C_rename _ _ _ | C_mkdir _ _ => False
  | _ => True
  end.
Section Only.
Context (n : name).
Notation on := (allc (only n)).
Ltac on_step :=
  match goal with
  | |- allc _ (pbind _ _) => apply allc_bind; [|intros ?]
  | |- allc _ (Ret _) => exact Logic.I
  | |- True => exact Logic.I
  | |- allc _ (Do _ _) => cbn [allc]; split; [cbn [only]; try exact Logic.I; try reflexivity|intros ?]
  | |- allc _ (match ?x with _ => _ end) => destruct x
  | |- allc _ (if ?x then _ else _) => destruct x
  | |- allc _ (let '(_, _) := ?x in _) => destruct x
  | |- allc _ (sys _) => unfold sys
  | |- allc _ (sys_ _) => unfold sys_
  | |- allc _ (sys_fd _) => unfold sys_fd
  | |- allc _ (sys_unit _) => unfold sys_unit
  end.
Ltac ona := repeat on_step.
Create HintDb on.
Ltac onx := repeat first [on_step|solve [auto with on nocore]].

Definition lk_on (lk : lock) : Prop := match lk_chain lk with Some (_, m, _) => m = n | None => True end.
Lemma on_close_opt o : on (close_opt o).
Proof. destruct o; unfold close_opt; ona. Qed.
Hint Resolve on_close_opt : on.
Lemma on_release lk : lk_on lk -> on (release_chain lk).
Proof. intros H. unfold release_chain. unfold lk_on in H. destruct (lk_bpffs lk); [|exact Logic.I]. destruct (lk_pin lk); [|exact Logic.I]. destruct (lk_chain lk) as [[[]]|]; [|exact Logic.I]. subst. onx. Qed.
Lemma on_cleanup lk : lk_on lk -> on (lock_cleanup lk).
Proof. intros H. unfold lock_cleanup. onx. apply on_release, H. Qed.
Lemma on_opendir_pindir m b : on (opendir_pindir m b).
Proof. induction m; cbn [opendir_pindir]; ona; assumption. Qed.
Hint Resolve on_opendir_pindir : on.
Lemma on_flock f m : on (flock f m).
Proof. unfold flock. ona. Qed.
Hint Resolve on_flock : on.
Lemma on_lock_init m : on (lock_init m).
Proof. unfold lock_init. onx; apply on_cleanup; exact Logic.I. Qed.
Lemma on_open_existing a p m : on (open_existing a p n m).
Proof. induction a; cbn [open_existing]; onx; assumption. Qed.
Hint Resolve on_lock_init on_open_existing : on.
Lemma on_close_all l : on (close_all l).
Proof. induction l; cbn [close_all]; ona. assumption. Qed.
Hint Resolve on_close_all : on.
Lemma on_link_free l : on (link_free l).
Proof. unfold link_free. onx. Qed.
Hint Resolve on_link_free : on.
Lemma on_handle_free h : on (handle_free h).
Proof. unfold handle_free. onx. Qed.
Hint Resolve on_handle_free : on.
Lemma on_link_restore d hk o : on (link_restore d hk o).
Proof. unfold link_restore. onx. Qed.
Lemma on_map_restore d q b : on (map_restore d q b).
Proof. unfold map_restore. onx. Qed.
Hint Resolve on_link_restore on_map_restore : on.
Lemma on_sets_restore d l : forall h, on (sets_restore d l h).
Proof. induction l; intros h; cbn [sets_restore]; onx. Qed.
Hint Resolve on_sets_restore : on.
Lemma on_handle_restore d hd : on (handle_restore d hd).
Proof. unfold handle_restore. cbv zeta. onx. Qed.
Hint Resolve on_handle_restore : on.
Lemma on_cgen_restore mm d : on (cgen_restore mm d).
Proof. unfold cgen_restore. onx. Qed.
Hint Resolve on_cgen_restore : on.
Lemma on_get_cgen mm lk : on (get_cgen mm lk).
Proof. unfold get_cgen. onx. Qed.
Hint Resolve on_get_cgen : on.
Lemma on_cgen_free g : on (cgen_free g).
Proof. apply on_handle_free. Qed.
Hint Resolve on_cgen_free : on.
Lemma on_lock_ret m : allr (only n) (fun r : res lock => match r with Ok lk => lk_chain lk = None | Er _ => True end) (lock_init m).
Proof.
  unfold lock_init. apply allr_bind with (R := fun _ => True); [apply allr_any; ona|]. intros [b|e] _; [|exact Logic.I].
  apply allr_bind with (R := fun _ => True); [apply allr_any; onx|]. intros [pd|e] _.
  - apply allr_bind with (R := fun _ => True); [apply allr_any; onx|]. intros [[]|e] _; [reflexivity|].
    apply allr_bind with (R := fun _ => True); [apply allr_any, on_cleanup; exact Logic.I|]. intros [] _. exact Logic.I.
  - apply allr_bind with (R := fun _ => True); [apply allr_any, on_cleanup; exact Logic.I|]. intros [] _. exact Logic.I.
Qed.
Lemma on_acquire_ret lk m : lk_chain lk = None ->
  allr (only n) (fun r : res lock => match r with Ok lk => lk_on lk | Er _ => True end) (acquire_chain lk n m false).
Proof.
  intros H. unfold acquire_chain. cbn [andb]. destruct (lk_bpffs lk); [|exact Logic.I]. destruct (lk_pin lk); [|exact Logic.I]. rewrite H.
  apply allr_bind with (R := fun _ => True); [apply allr_any; onx|]. intros [[]|e] _; [|exact Logic.I].
  apply allr_bind with (R := fun _ => True); [apply allr_any; onx|]. intros [f'|e] _; [reflexivity|exact Logic.I].
Qed.
Lemma on_with_chain {A} mm pm cm (body : lock -> fd -> cgen -> prog (cgen * res A)) :
  (forall lk d g, on (body lk d g)) -> on (with_chain mm n pm cm body).
Proof.
  intros HB. unfold with_chain, lock_init_for_chain. cbn [andb].
  apply allr_bindc with (R := fun r : res lock => match r with Ok lk => lk_on lk | Er _ => True end).
  - apply allr_bind with (R := fun r : res lock => match r with Ok lk => lk_chain lk = None | Er _ => True end); [apply on_lock_ret|].
    intros [lk|e] H; [|exact Logic.I].
    apply allr_bind with (R := fun r : res lock => match r with Ok lk => lk_on lk | Er _ => True end); [apply on_acquire_ret, H|].
    intros [lk'|e] H'; [exact H'|]. apply allr_bind with (R := fun _ => True); [apply allr_any, on_cleanup|]; [unfold lk_on; rewrite H; exact Logic.I|].
    intros [] _. exact Logic.I.
  - intros [lk|e] H; [|exact Logic.I]. onx; try apply on_cleanup, H.
Qed.

Lemma on_get_counter g i : on (cgen_get_counter g i).
Proof. unfold cgen_get_counter, handle_get_counter. onx. Qed.
Hint Resolve on_get_counter : on.
Lemma on_rule_counters g l : on (load_rule_counters g l).
Proof. induction l; cbn [load_rule_counters]; onx. Qed.
Hint Resolve on_rule_counters : on.
Lemma on_load_counters g : on (load_counters g).
Proof. unfold load_counters. onx. Qed.
Hint Resolve on_load_counters : on.
Lemma on_copy_hookopts o : on (copy_hookopts o).
Proof. unfold copy_hookopts. onx. Qed.
Lemma on_copy_chain mm c : on (copy_chain mm c).
Proof. unfold copy_chain. onx. Qed.
Lemma on_copy_set mm c : on (copy_set mm c).
Proof. unfold copy_set. onx. Qed.
Hint Resolve on_copy_hookopts on_copy_chain on_copy_set : on.
Lemma on_chain_get mm : on (chain_get mm n).
Proof. apply on_with_chain. intros. onx. Qed.
Lemma on_chain_prog_fd mm : on (chain_prog_fd mm n).
Proof. apply on_with_chain. intros. onx. Qed.
Lemma on_chain_logs_fd mm : on (chain_logs_fd mm n).
Proof. apply on_with_chain. intros. onx. Qed.
Lemma on_link_new h o f : on (link_new h o f).
Proof. unfold link_new, try_attach_xdp. onx. Qed.
Hint Resolve on_link_new : on.
Lemma on_handle_attach h k o : on (handle_attach h k o).
Proof. unfold handle_attach. onx. Qed.
Hint Resolve on_handle_attach : on.
Lemma on_link_unpin d : on (link_unpin d).
Proof. unfold link_unpin. onx. Qed.
Hint Resolve on_link_unpin : on.
Lemma on_link_pin l d : on (link_pin l d).
Proof. unfold link_pin. onx. Qed.
Hint Resolve on_link_pin : on.
Lemma on_handle_detach h : on (handle_detach h).
Proof. unfold handle_detach. onx. Qed.
Hint Resolve on_handle_detach : on.
Lemma on_persist g d : on (persist g d).
Proof. unfold persist. onx. Qed.
Hint Resolve on_persist : on.
Lemma on_cgen_attach g o d : on (cgen_attach g o d).
Proof. unfold cgen_attach. cbv zeta. onx. Qed.
Hint Resolve on_cgen_attach : on.
Lemma on_chain_attach mm o : on (chain_attach mm n o).
Proof. apply on_with_chain. intros. onx. Qed.
Lemma on_unpin_maps d l : on (unpin_maps d l).
Proof. induction l; cbn [unpin_maps]; onx. Qed.
Hint Resolve on_unpin_maps : on.
Lemma on_handle_unpin h d : on (handle_unpin h d).
Proof. unfold handle_unpin. onx. Qed.
Hint Resolve on_handle_unpin : on.
Lemma on_handle_unload h : on (handle_unload h).
Proof. unfold handle_unload. onx. Qed.
Hint Resolve on_handle_unload : on.
Lemma on_chain_flush mm : on (chain_flush mm n).
Proof. apply on_with_chain. intros. unfold cgen_unload. onx. Qed.
Lemma on_pin_maps d l : on (pin_maps d l).
Proof. induction l; cbn [pin_maps]; onx. Qed.
Hint Resolve on_pin_maps : on.
Lemma on_handle_pin h d : on (handle_pin h d).
Proof. unfold handle_pin, pin_prog. onx. Qed.
Hint Resolve on_handle_pin : on.
Lemma on_load_sets s gs : forall i h, on (load_sets s i gs h).
Proof. induction gs; intros i h; cbn [load_sets]; cbv zeta; onx. Qed.
Hint Resolve on_load_sets : on.
Lemma on_build c h : on (build_program c h).
Proof. unfold build_program, program_load. cbv zeta. onx. Qed.
Hint Resolve on_build : on.
Lemma on_transfer ho hn m : forall i, on (transfer_slots ho hn m i).
Proof. induction m; intros i; cbn [transfer_slots]; [exact Logic.I|]. unfold handle_get_counter, handle_set_counter. onx. Qed.
Hint Resolve on_transfer : on.
Lemma on_link_update l f : on (link_update l f).
Proof. unfold link_update. cbv zeta. onx. Qed.
Hint Resolve on_link_update : on.
Lemma on_cgen_update g c b d : on (cgen_update g c b d).
Proof. unfold cgen_update, transfer_counters. cbv zeta. onx. Qed.
Hint Resolve on_cgen_update : on.
Lemma on_chain_update_set m1 m2 m3 m4 m5 a d : on (chain_update_set m1 m2 m3 m4 m5 n a d).
Proof. unfold chain_update_set. destruct (negb _); [exact Logic.I|]. apply on_with_chain. intros. onx. Qed.
Lemma on_chain_update m1 m2 c : nc_name c = n -> on (chain_update m1 m2 c).
Proof. intros E. unfold chain_update. rewrite E. apply on_with_chain. intros. onx. Qed.
End Only.

(** ** What it means for the other chains *)
Definition separate (k : kst) : Prop :=
  forall i j q q' o, dview k i q = Some o -> dview k j q' = Some o -> i = j.
Definition no_fds (k : kst) (p : pid) : Prop := forall f x, desc_of k p f <> Some x.

Definition own_dir (k0 : kst) (n : name) (j : ino) : Prop := ent_find n (k_ents k0) = Some j.
Definition own_obj (k0 : kst) (n : name) (o : oid) : Prop :=
  k_next k0 <= o \/ exists i q, ent_find n (k_ents k0) = Some i /\ dview k0 i q = Some o.

Lemma only_reach k0 n c : only n c -> reach_ok k0 (own_dir k0 n) (own_obj k0 n) c.
Proof.
  destruct c; cbn [only reach_ok]; auto; try tauto.
  - intros -> j H. exact H.
  - intros -> j H. exact H.
  - intros _ j q o H D. right. exists j, q. auto.
Qed.

Record confined (k0 : kst) (n : name) (k : kst) : Prop := {
  cf_sane : sane k;
  cf_next : k_next k0 <= k_next k;
  cf_ents : forall m j, ent_find m (k_ents k) = Some j -> ent_find m (k_ents k0) = Some j \/ ent_find n (k_ents k0) = Some j;
  cf_keep : forall m j, m <> n -> ent_find m (k_ents k0) = Some j -> ent_find m (k_ents k) = Some j;
  cf_dirs : forall j, ent_find n (k_ents k0) <> Some j -> k_dirs k j = k_dirs k0 j;
  cf_pins : forall i q o, ent_find n (k_ents k0) = Some i -> dview k i q = Some o -> k_next k0 <= o \/ exists q', dview k0 i q' = Some o;
  cf_objs : forall o, o < k_next k0 -> (forall i q, ent_find n (k_ents k0) = Some i -> dview k0 i q <> Some o) -> k_objs k o = k_objs k0 o
}.
Lemma reach_confined k0 p n k : sane k0 -> reach k0 p (own_dir k0 n) (own_obj k0 n) k -> confined k0 n k.
Proof.
  intros S0 R. destruct R as [A B C D E F G H J]. constructor; auto.
  - intros m j NM X. apply J; [exact X|]. unfold own_dir. intros Y. apply NM. exact (sane_inj _ S0 _ _ _ X Y).
  - intros i q o X Y. destruct (F _ _ _ Y) as [Z|[_ [Z|(i' & q' & Z & W)]]]; [auto|auto|].
    right. rewrite X in Z. injection Z as <-. eauto.
  - intros o L X. apply G. intros [Y|(i & q & Y & Z)]; [lia|]. exact (X _ _ Y Z).
Qed.
Lemma only_confined {A} F p n (m : prog A) k0 k : sane k0 -> no_fds k0 p -> allc (only n) m -> stops F p m k0 k -> confined k0 n k.
Proof.
  intros S0 NF AL ST. eapply reach_confined; [exact S0|].
  eapply (reach_stops k0 p (own_dir k0 n) (own_obj k0 n)); [intros o L; left; exact L|exact ST| |apply reach_start; assumption].
  eapply allc_mono; [apply only_reach|exact AL].
Qed.
Lemma sane_pin_lt k j q o : sane k -> dview k j q = Some o -> o < k_next k.
Proof. intros S H. destruct (sane_pin _ S _ _ _ H) as (v & V). exact (sane_obj _ S _ _ V). Qed.

Lemma separate_step k0 k i : sane k0 -> separate k0 -> (forall j, j <> i -> k_dirs k j = k_dirs k0 j) ->
  (forall q o, dview k i q = Some o -> k_next k0 <= o \/ exists q', dview k0 i q' = Some o) -> separate k.
Proof.
  intros S0 SE HD HP.
  assert (X : forall j q o, dview k j q = Some o -> (j = i /\ k_next k0 <= o) \/ exists q', dview k0 j q' = Some o).
  { intros j q o H. destruct (N.eq_dec j i) as [->|NE]; [destruct (HP _ _ H); auto|]. right. exists q. unfold dview in *. rewrite <- HD by exact NE. exact H. }
  intros a b q q' o H1 H2. apply X in H1, H2.
  destruct H1 as [[-> L1]|(q1 & H1)]; destruct H2 as [[-> L2]|(q2 & H2)].
  - reflexivity.
  - pose proof (sane_pin_lt _ _ _ _ S0 H2). lia.
  - pose proof (sane_pin_lt _ _ _ _ S0 H1). lia.
  - exact (SE _ _ _ _ _ H1 H2).
Qed.
Lemma confined_separate k0 n k : sane k0 -> separate k0 -> confined k0 n k -> separate k.
Proof.
  intros S0 SE C. destruct (ent_find n (k_ents k0)) as [i|] eqn:E.
  - apply (separate_step k0 k i); auto.
    + intros j NE. apply (cf_dirs _ _ _ C). congruence.
    + intros q o H. exact (cf_pins _ _ _ C _ _ _ E H).
  - assert (X : forall j q, dview k j q = dview k0 j q) by (intros; unfold dview; rewrite (cf_dirs _ _ _ C); [reflexivity|congruence]).
    intros a b q q' o. rewrite !X. apply SE.
Qed.
(** Another chain: the same name, directory, pins and pinned objects. *)
Lemma confined_other k0 n k m j : sane k0 -> separate k0 -> confined k0 n k -> m <> n -> ent_find m (k_ents k0) = Some j ->
  ent_find m (k_ents k) = Some j /\ k_dirs k j = k_dirs k0 j /\ forall q o, dview k0 j q = Some o -> k_objs k o = k_objs k0 o.
Proof.
  intros S0 SE C NM H. split; [exact (cf_keep _ _ _ C _ _ NM H)|]. split.
  - apply (cf_dirs _ _ _ C). intros X. apply NM. exact (sane_inj _ S0 _ _ _ H X).
  - intros q o X. apply (cf_objs _ _ _ C); [exact (sane_pin_lt _ _ _ _ S0 X)|].
    intros i q' Y Z. pose proof (SE _ _ _ _ _ X Z). subst i. apply NM. exact (sane_inj _ S0 _ _ _ H Y).
Qed.

(** ** Operations that also make a directory *)
Section Making.
Context (k0 : kst) (p : pid) (n : name) (F : call -> bool).
Definition own_dir2 (j : ino) : Prop := ent_find n (k_ents k0) = Some j \/ k_next k0 <= j.
Notation R := (reach k0 p own_dir2 (own_obj k0 n)).
Lemma own_new o : k_next k0 <= o -> own_obj k0 n o.
Proof. intros L. left. exact L. Qed.
Hypothesis (S0 : sane k0).
Lemma only_reach2 c : only n c -> reach_ok k0 own_dir2 (own_obj k0 n) c.
Proof.
  destruct c; cbn [only reach_ok]; auto; try tauto.
  - intros -> j H. left. exact H.
  - intros -> j H. left. exact H.
  - intros _ j q o [H|H] D; [right; exists j, q; auto|]. unfold dview in D. rewrite (sane_fresh _ S0 _ H) in D. discriminate D.
Qed.
Lemma only_wps2 {A} (m : prog A) k : allc (only n) m -> R k -> wps F p R m (fun _ k' => R k') k.
Proof. intros AL. apply reach_wps; [exact own_new|]. eapply allc_mono; [exact only_reach2|exact AL]. Qed.
Lemma bind_only2 {A B} (m : prog A) (f : A -> prog B) Q k : allc (only n) m -> R k ->
  (forall a k', R k' -> wps F p R (f a) Q k') -> wps F p R (pbind m f) Q k.
Proof. intros AL RK H. apply wps_bind. eapply wps_post with (I := R); [auto|intros a k' X; apply H, X|apply only_wps2; assumption]. Qed.

Lemma make_staging_in a pd : forall k, R k ->
  wps F p R (make_staging a pd) (fun r k' => R k' /\ match r with Ok s => forall j, ent_find s (k_ents k0) = Some j -> own_dir2 j | Er _ => True end) k.
Proof.
  induction a as [|a IH]; intros k RK; cbn [make_staging]; [apply wps_ret; auto|].
  apply wps_step; [exact RK|]. split; [|intros _ X; discriminate X]. intros s. cbn [kdo fst snd].
  apply wps_unit; [exact RK| |].
  - intros z. pose proof (reach_kdo k0 p own_dir2 (own_obj k0 n) own_new k (C_mkdir pd (staging_prefix ++ s)) z (fun j L => or_intror L) RK) as X.
    revert X. cbn [kdo]. destruct (negb (is_pindir k p pd)); [intros _; cbn; auto|].
    destruct (ent_find (staging_prefix ++ s) (k_ents k)) eqn:E; cbn [fst snd ures].
    + intros _. change (EEXIST =? EEXIST) with true. cbv iota. apply IH, RK.
    + intros X. apply wps_ret; [exact X|]. split; [exact X|]. intros j H.
      destruct (N.lt_ge_cases j (k_next k0)) as [L|L]; [|right; exact L].
      destruct (ent_find n (k_ents k0)) as [i|] eqn:EN; [destruct (N.eq_dec i j) as [->|NE]; [left; exact EN|]|].
      * exfalso. assert (Z : ent_find (staging_prefix ++ s) (k_ents k) = Some j); [|congruence].
        apply (rc_keep _ _ _ _ _ RK _ _ H). intros [Z|Z]; [congruence|lia].
      * exfalso. assert (Z : ent_find (staging_prefix ++ s) (k_ents k) = Some j); [|congruence].
        apply (rc_keep _ _ _ _ _ RK _ _ H). intros [Z|Z]; [congruence|lia].
  - intros _ _ e. destruct (e =? EEXIST); [apply IH, RK|apply wps_ret; auto].
Qed.
Lemma stage_in pd k : R k -> wps F p R (stage_and_publish pd n) (fun _ k' => R k') k.
Proof.
  intros RK. unfold stage_and_publish. apply wps_bind. eapply wps_post with (I := R); [auto| |apply make_staging_in, RK].
  intros [s|e] k1 [R1 H]; [|apply wps_ret; assumption].
  apply reach_wps; [exact own_new| |exact R1].
  unfold flock, sys_fd, sys_, sys_unit. repeat first
    [ exact Logic.I | exact H
    | match goal with
      | |- allc _ (sys_unit _) => unfold sys_unit
      | |- allc _ (pbind _ _) => apply allc_bind; [|intros ?]
      | |- allc _ (Do _ _) => cbn [allc reach_ok]; split; [|intros ?]
      | |- allc _ (match ?x with _ => _ end) => destruct x
      end ].
Qed.
Lemma acquire_in lk k : R k -> wps F p R (acquire_chain lk n L_WRITE true) (fun r k' => R k' /\ match r with Ok lk' => lk_on n lk' | Er _ => True end) k.
Proof.
  intros RK. unfold acquire_chain. destruct (lk_bpffs lk); [|apply wps_ret; auto]. destruct (lk_pin lk) as [pd|]; [|apply wps_ret; auto].
  destruct (lk_chain lk); [apply wps_ret; auto|]. cbn [andb negb is_write]. destruct (negb (is_write (lk_pinmode lk))); [apply wps_ret; auto|].
  apply bind_only2; [unfold sys_unit; cbn [allc only]; split; [exact Logic.I|intros []; exact Logic.I]|exact RK|]. intros [[]|e] k1 R1; [|apply wps_ret; auto].
  apply wps_bind. eapply wps_post with (I := R); [auto| |apply stage_in, R1].
  intros [f'|e] k2 R2; apply wps_ret; auto. split; [exact R2|reflexivity].
Qed.
Lemma on_cgen_set g o d : allc (only n) (cgen_set g o d).
Proof.
  unfold cgen_set. cbv zeta. apply allc_bind; [apply on_build|]. intros [h [[]|e]]; [|exact Logic.I].
  apply allc_bind; [destruct o; [apply on_handle_attach|exact Logic.I]|]. intros [h'|e]; [|exact Logic.I].
  apply allc_bind; [apply on_handle_pin|]. intros [[]|e]; [|exact Logic.I].
  apply allc_bind; [apply on_persist|]. intros [[]|e]; [exact Logic.I|]. apply allc_bind; [apply on_handle_unpin|]. intros; exact Logic.I.
Qed.
Lemma init_in m k : R k -> wps F p R (lock_init m) (fun r k' => R k' /\ match r with Ok lk => lk_chain lk = None | Er _ => True end) k.
Proof.
  intros RK. pose proof (on_lock_ret n m) as AL. revert k RK. induction (lock_init m) as [a|c f IH]; intros k RK; cbn [allr] in AL.
  - apply wps_ret; auto.
  - apply wps_do; [exact RK|]. intros d _. apply IH; [apply AL|]. apply reach_ksys; [exact own_new|apply only_reach2, AL|exact RK].
Qed.
Lemma lk_none lk : lk_chain lk = None -> lk_on n lk.
Proof. unfold lk_on. intros ->. exact Logic.I. Qed.

Lemma load_in mm c k : nc_name c = n -> R k -> wps F p R (chain_load mm c) (fun _ k' => R k') k.
Proof.
  intros HN RK. unfold chain_load, lock_init_for_chain. rewrite HN. cbn [is_write andb negb].
  apply wps_bind. apply wps_bind. eapply wps_post with (I := R); [auto| |apply init_in, RK].
  intros [lk|e] k1 [R1 H1]; [|apply wps_ret; [exact R1|apply wps_ret; exact R1]].
  apply wps_bind. eapply wps_post with (I := R); [auto| |apply acquire_in, R1].
  intros [lk'|e] k2 [R2 H2].
  - apply wps_ret; [exact R2|].
    apply bind_only2; [apply on_copy_chain|exact R2|]. intros [c'|e] k3 R3.
    2:{ apply only_wps2; [|exact R3]. apply allc_bind; [apply on_cleanup, H2|]. intros; exact Logic.I. }
    apply bind_only2; [unfold cgen_new; apply allc_bind; [unfold sys_unit; cbn; split; [exact Logic.I|intros []; exact Logic.I]|intros []; exact Logic.I]|exact R3|].
    intros [g|e] k4 R4.
    2:{ apply only_wps2; [|exact R4]. apply allc_bind; [apply on_cleanup, H2|]. intros; exact Logic.I. }
    destruct (chain_fd lk'); [|apply wps_ret; exact R4].
    apply only_wps2; [|exact R4]. apply allc_bind; [apply on_cgen_set|]. intros rs. apply allc_bind; [apply on_cgen_free|]. intros [].
    apply allc_bind; [apply on_cleanup, H2|]. intros; exact Logic.I.
  - apply bind_only2; [apply on_cleanup, lk_none, H1|exact R2|]. intros [] k3 R3. apply wps_ret; [exact R3|apply wps_ret; exact R3].
Qed.

Lemma install_in mm lk c o k : nc_name c = n -> lk_chain lk = None -> R k -> wps F p R (install mm lk c o) (fun _ k' => R k') k.
Proof.
  intros HN H1 RK. unfold install. rewrite HN.
  assert (CL : forall k e, R k -> wps F p R (lock_cleanup lk ;;; Ret (Er e)) (fun (_ : res unit) k' => R k') k).
  { intros k1 e R1. apply only_wps2; [|exact R1]. apply allc_bind; [apply on_cleanup, lk_none, H1|]. intros; exact Logic.I. }
  apply bind_only2; [apply on_copy_chain|exact RK|]. intros [c'|e] k3 R3; [|apply CL, R3].
  apply bind_only2; [apply on_copy_hookopts|exact R3|]. intros [[]|e] k5 R5; [|apply CL, R5].
  apply bind_only2; [unfold cgen_new; apply allc_bind; [unfold sys_unit; cbn; split; [exact Logic.I|intros []; exact Logic.I]|intros []; exact Logic.I]|exact R5|].
  intros [g|e] k4 R4; [|apply CL, R4].
  apply wps_bind. eapply wps_post with (I := R); [auto| |apply acquire_in, R4].
  intros [lk'|e] k2 [R2 H2].
  - destruct (chain_fd lk'); [|apply wps_ret; exact R2].
    apply only_wps2; [|exact R2]. apply allc_bind; [apply on_cgen_set|]. intros rs. apply allc_bind; [apply on_cgen_free|]. intros [].
    apply allc_bind; [apply on_cleanup, H2|]. intros; exact Logic.I.
  - apply bind_only2; [apply on_cgen_free|exact R2|]. intros [] k6 R6. apply CL, R6.
Qed.
Lemma release_ret lk : allr (only n) (fun lk' => lk_chain lk' = None) (release_chain lk) \/ ~ lk_on n lk \/ lk_bpffs lk = None \/ lk_pin lk = None.
Proof.
  unfold release_chain, lk_on. destruct (lk_bpffs lk); [|auto]. destruct (lk_pin lk); [|auto].
  destruct (lk_chain lk) as [[[f' m] md]|] eqn:E; [|left; exact E].
  destruct (list_eq_dec N.eq_dec m n) as [->|NE]; [|auto]. left.
  apply allr_bind with (R := fun _ => True); [destruct md; cbn; auto|]. intros _ _. cbn. auto.
Qed.
Lemma release_in lk k : lk_on n lk -> lk_bpffs lk <> None -> lk_pin lk <> None -> R k -> wps F p R (release_chain lk) (fun lk' k' => R k' /\ lk_chain lk' = None) k.
Proof.
  intros H1 H2 H3 RK. destruct (release_ret lk) as [AL|[X|[X|X]]]; try contradiction. revert k RK.
  induction (release_chain lk) as [a|c f IH]; intros k RK; cbn [allr] in AL.
  - apply wps_ret; auto.
  - apply wps_do; [exact RK|]. intros d _. apply IH; [apply AL|]. apply reach_ksys; [exact own_new|apply only_reach2, AL|exact RK].
Qed.
Definition lk_full (lk : lock) : Prop := lk_on n lk /\ lk_bpffs lk <> None /\ lk_pin lk <> None.
Lemma acquire_full lk m : lk_chain lk = None ->
  allr (only n) (fun r : res lock => match r with Ok lk => lk_full lk | Er _ => True end) (acquire_chain lk n m false).
Proof.
  intros H. unfold acquire_chain. cbn [andb]. destruct (lk_bpffs lk) eqn:E1; [|exact Logic.I]. destruct (lk_pin lk) eqn:E2; [|exact Logic.I]. rewrite H.
  apply allr_bind with (R := fun _ => True); [apply allr_any; unfold sys_unit; cbn [allc only]; split; [exact Logic.I|intros []; exact Logic.I]|]. intros [[]|e] _; [|exact Logic.I].
  apply allr_bind with (R := fun _ => True); [apply allr_any, on_open_existing|]. intros [f'|e] _; [|exact Logic.I].
  split; [reflexivity|]. split; discriminate.
Qed.
Lemma allr_in {A} (P : A -> Prop) (m : prog A) : allr (only n) P m -> forall k, R k -> wps F p R m (fun a k' => R k' /\ P a) k.
Proof.
  induction m as [a|c f IH]; intros AL k RK; cbn [allr] in AL.
  - apply wps_ret; auto.
  - apply wps_do; [exact RK|]. intros d _. apply IH; [apply AL|]. apply reach_ksys; [exact own_new|apply only_reach2, AL|exact RK].
Qed.
Lemma chain_set_in m1 m2 c o k : nc_name c = n -> R k -> wps F p R (chain_set m1 m2 c o) (fun _ k' => R k') k.
Proof.
  intros HN RK. unfold chain_set. rewrite HN.
  apply wps_bind. eapply wps_post with (I := R); [auto| |apply init_in, RK].
  intros [lk|e] k1 [R1 H1]; [|apply wps_ret; exact R1].
  assert (CL : forall k e, R k -> wps F p R (lock_cleanup lk ;;; Ret (Er e)) (fun (_ : res unit) k' => R k') k).
  { intros k' e R'. apply only_wps2; [|exact R']. apply allc_bind; [apply on_cleanup, lk_none, H1|]. intros; exact Logic.I. }
  apply wps_bind. eapply wps_post with (I := R); [auto| |apply allr_in; [apply acquire_full, H1|exact R1]].
  intros [lk'|e] k2 [R2 H2].
  2:{ destruct (e =? ENOENT); [apply install_in; auto|apply CL, R2]. }
  destruct H2 as (L1 & L2 & L3).
  apply bind_only2; [apply on_get_cgen|exact R2|]. intros [g|e] k3 R3.
  - apply bind_only2; [destruct (chain_fd lk'); [|exact Logic.I]|exact R3|].
    { unfold cgen_unload. apply allc_bind; [cbn; auto|]. intros _. apply allc_bind; [apply on_handle_unpin|]. intros _. apply on_handle_unload. }
    intros [] k4 R4. apply wps_bind. eapply wps_post with (I := R); [auto| |apply release_in; auto].
    intros lk2 k5 [R5 H5]. apply install_in; auto.
  - destruct (e =? ENOENT).
    + apply wps_bind. eapply wps_post with (I := R); [auto| |apply release_in; auto]. intros lk2 k5 [R5 H5]. apply install_in; auto.
    + apply wps_bind. eapply wps_post with (I := R); [auto| |apply release_in; auto]. intros lk2 k5 [R5 H5].
      apply only_wps2; [|exact R5]. apply allc_bind; [apply on_cleanup, lk_none, H5|]. intros; exact Logic.I.
Qed.
End Making.

(** Chains other than [n]: the same name, directory, pins and pinned objects. *)
Record others_kept (n : name) (k0 k : kst) : Prop := {
  ok_same : forall m j, m <> n -> ent_find m (k_ents k0) = Some j ->
    ent_find m (k_ents k) = Some j /\ k_dirs k j = k_dirs k0 j /\ forall q o, dview k0 j q = Some o -> k_objs k o = k_objs k0 o;
  ok_new : forall m j, ent_find m (k_ents k) = Some j -> ent_find m (k_ents k0) = Some j \/ ent_find n (k_ents k0) = Some j \/ k_next k0 <= j
}.
Lemma reach_others k0 p n k : sane k0 -> separate k0 -> reach k0 p (own_dir2 k0 n) (own_obj k0 n) k -> others_kept n k0 k.
Proof.
  intros S0 SE R. destruct R as [A B C D E F G H J]. constructor.
  - intros m j NM X. assert (ND : ~ own_dir2 k0 n j).
    { intros [Y|Y]; [apply NM; exact (sane_inj _ S0 _ _ _ X Y)|]. pose proof (sane_ent _ S0 _ _ X). lia. }
    split; [exact (J _ _ X ND)|]. split; [exact (E _ ND)|].
    intros q o Y. apply G. intros [Z|(i & q' & Z & W)]; [pose proof (sane_pin_lt _ _ _ _ S0 Y); lia|].
    pose proof (SE _ _ _ _ _ Y W). subst i. apply NM. exact (sane_inj _ S0 _ _ _ X Z).
  - intros m j X. destruct (H _ _ X) as [Y|[Y|Y]]; auto.
Qed.
Lemma confined_others k0 n k : sane k0 -> separate k0 -> confined k0 n k -> others_kept n k0 k.
Proof.
  intros S0 SE C. constructor.
  - intros m j NM X. exact (confined_other _ _ _ _ _ S0 SE C NM X).
  - intros m j X. destruct (cf_ents _ _ _ C _ _ X); auto.
Qed.
Lemma load_others F p mm c k0 k : sane k0 -> separate k0 -> no_fds k0 p -> stops F p (chain_load mm c) k0 k -> others_kept (nc_name c) k0 k.
Proof.
  intros S0 SE NF ST. eapply reach_others; [exact S0|exact SE|].
  exact (wps_stops _ _ _ _ _ _ _ ST (load_in k0 p (nc_name c) F S0 mm c k0 eq_refl (reach_start _ _ _ _ S0 NF))).
Qed.
Lemma set_others F p m1 m2 c o k0 k : sane k0 -> separate k0 -> no_fds k0 p -> stops F p (chain_set m1 m2 c o) k0 k -> others_kept (nc_name c) k0 k.
Proof.
  intros S0 SE NF ST. eapply reach_others; [exact S0|exact SE|].
  exact (wps_stops _ _ _ _ _ _ _ ST (chain_set_in k0 p (nc_name c) F S0 m1 m2 c o k0 eq_refl (reach_start _ _ _ _ S0 NF))).
Qed.
