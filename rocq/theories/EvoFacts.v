(** How the kernel's state evolves while one process runs alone. *)
From Coq Require Import NArith ZArith List Bool Lia.
From Verif Require Import Bytes Types World BpfModel GenModel BytesFacts StrModel SetModel PackModel HookModel KernModel LockModel CtlModel SysSpec SysFacts RelyFacts SeqFacts StageFacts.
Import ListNotations.
Local Open Scope N_scope.

Lemma sane_kinv k : sane k -> kinv k.
Proof. intros [A B C D E _ _ _ _ _]. constructor; assumption. Qed.
Lemma kinv_sane k : kinv k ->
  (forall o v, k_objs k o = Some v -> o < k_next k) ->
  (forall j q o, pin_find q (k_dirs k j) = Some o -> exists v, k_objs k o = Some v) ->
  (forall f p o, fd_find f (k_fds k) = Some (p, D_obj o) -> exists v, k_objs k o = Some v) ->
  NoDup (map fst (k_fds k)) -> (forall i, k_next k <= i -> k_dirs k i = []) -> sane k.
Proof. intros [A B C D E] H1 H2 H3 H4 H5. constructor; assumption. Qed.
Lemma fd_none_fst f l : fd_find f l = None -> ~ In f (map fst l).
Proof. intros H HI. apply in_map_iff in HI as ([g x] & E & HI). cbn [fst] in E. subst g. exact (fd_none_in _ _ _ H HI). Qed.
Lemma uniq_cons k p d : sane k -> NoDup (map fst ((k_next k, (p, d)) :: k_fds k)).
Proof.
  intros S. cbn [map fst]. constructor; [|apply sane_uniq, S]. apply fd_none_fst.
  apply kinv_fresh; [apply sane_kinv, S|lia].
Qed.
Lemma uniq_del f l : NoDup (map fst l) -> NoDup (map fst (fd_del f l)).
Proof.
  induction l as [|[g x] l IH]; cbn [fd_del filter map fst]; [auto|]. intros H. inversion H; subst.
  destruct (negb (f =? g)); cbn [map fst]; [|apply IH; assumption]. constructor; [|apply IH; assumption].
  intros HI. apply in_map_iff in HI as (y & E & HI). apply filter_In in HI as [HI _]. apply H2. apply in_map_iff. eauto.
Qed.
Lemma uniq_set p f d l : NoDup (map fst l) -> NoDup (map fst (map (fun x : fd * (pid * desc) => if fst x =? f then (f, (p, d)) else x) l)).
Proof.
  intros H. rewrite map_map. erewrite map_ext; [exact H|]. intros [g x]. cbn [fst]. destruct (N.eqb_spec g f); cbn; auto.
Qed.

Lemma pin_find_del q a l : pin_find q (pin_del a l) = if pname_eqb q a then None else pin_find q l.
Proof.
  induction l as [|[b o] l IH]; cbn [pin_del filter fst pin_find]; [destruct (pname_eqb q a); reflexivity|].
  destruct (pname_eqb_spec a b) as [->|E]; cbn [negb].
  - destruct (pname_eqb q b) eqn:X; [|]; fold (pin_del b l); exact IH.
  - cbn [pin_find]. fold (pin_del a l). destruct (pname_eqb_spec q b) as [->|E2].
    + destruct (pname_eqb_spec b a); [congruence|reflexivity].
    + exact IH.
Qed.
Lemma pname_eqb_refl q : pname_eqb q q = true.
Proof. destruct (pname_eqb_spec q q); [reflexivity|congruence]. Qed.

Lemma updN_same {A} (f : N -> A) i v : updN f i v i = v.
Proof. unfold updN. rewrite N.eqb_refl. reflexivity. Qed.
Lemma updN_other {A} (f : N -> A) i v j : j <> i -> updN f i v j = f j.
Proof. intros H. unfold updN. destruct (N.eqb_spec j i); [contradiction|reflexivity]. Qed.

(** ** Sanity is preserved *)
Lemma sane_new_fd k p d : sane k -> (forall f g, desc_of k g f = Some d -> mode_of d = L_NONE) ->
  mode_of d = L_NONE -> (forall i m, d = D_dir i m -> i < k_next k) -> (forall o, d = D_obj o -> exists v, k_objs k o = Some v) ->
  sane (fst (new_fd k p d)).
Proof.
  intros S _ M H1 H2. apply kinv_sane.
  - apply kinv_new_fd; [apply sane_kinv, S|exact M|exact H1].
  - cbn. intros o v H. pose proof (sane_obj _ S _ _ H). lia.
  - cbn. exact (sane_pin _ S).
  - intros f q o. cbn. destruct (f =? k_next k).
    + intros H. injection H as _ E. apply H2, E.
    + apply (sane_fdo _ S).
  - exact (uniq_cons k p d S).
  - cbn. intros i L. apply (sane_fresh _ S). lia.
Qed.
Lemma sane_put k o v : sane k -> o < k_next k -> sane (with_obj k o v).
Proof.
  intros S L. apply kinv_sane.
  - apply (kinv_same k); cbn; auto; [apply sane_kinv, S|lia].
  - cbn. intros x w H. unfold updN in H. destruct (N.eqb_spec x o) as [->|]; [exact L|exact (sane_obj _ S _ _ H)].
  - cbn. intros j q x H. unfold updN. destruct (x =? o); [eauto|]. exact (sane_pin _ S _ _ _ H).
  - cbn. intros f q x H. unfold updN. destruct (x =? o); [eauto|]. exact (sane_fdo _ S _ _ _ H).
  - exact (sane_uniq _ S).
  - exact (sane_fresh _ S).
Qed.
Lemma sane_next k : sane k -> sane (with_next k).
Proof.
  intros S. apply kinv_sane.
  - apply (kinv_same k); cbn; auto; [apply sane_kinv, S|lia].
  - cbn. intros x w H. pose proof (sane_obj _ S _ _ H). lia.
  - cbn. exact (sane_pin _ S).
  - cbn. exact (sane_fdo _ S).
  - exact (sane_uniq _ S).
  - cbn. intros i L. apply (sane_fresh _ S). lia.
Qed.
Lemma sane_new_obj k p v : sane k -> sane (fst (new_obj k p v)).
Proof.
  intros S. assert (S1 : sane (with_next (with_obj k (k_next k) v))).
  { apply kinv_sane.
    - apply (kinv_same k); cbn; auto; [apply sane_kinv, S|lia].
    - cbn. intros x w H. unfold updN in H. destruct (N.eqb_spec x (k_next k)) as [->|]; [lia|]. pose proof (sane_obj _ S _ _ H). lia.
    - cbn. intros j q x H. unfold updN. destruct (x =? k_next k); [eauto|]. exact (sane_pin _ S _ _ _ H).
    - cbn. intros f q x H. unfold updN. destruct (x =? k_next k); [eauto|]. exact (sane_fdo _ S _ _ _ H).
    - exact (sane_uniq _ S).
    - cbn. intros i L. apply (sane_fresh _ S). lia. }
  rewrite new_obj_eq. apply sane_new_fd; [exact S1|reflexivity|reflexivity|discriminate|].
  intros o H. injection H as <-. cbn. rewrite updN_same. eauto.
Qed.
Lemma sane_fds k f : sane k -> sane (with_fds k (fd_del f (k_fds k))).
Proof.
  intros S. apply kinv_sane; cbn.
  - apply kinv_del, sane_kinv, S.
  - exact (sane_obj _ S).
  - exact (sane_pin _ S).
  - intros g q o. rewrite fd_find_del. destruct (g =? f); [discriminate|apply (sane_fdo _ S)].
  - apply uniq_del, (sane_uniq _ S).
  - exact (sane_fresh _ S).
Qed.
Lemma sane_dirs k i l : sane k -> i < k_next k -> (forall q o, pin_find q l = Some o -> exists v, k_objs k o = Some v) -> sane (with_dir k i l).
Proof.
  intros S LI H. apply kinv_sane; cbn.
  - apply (kinv_same k); cbn; auto; [apply sane_kinv, S|lia].
  - exact (sane_obj _ S).
  - intros j q o. unfold updN. destruct (j =? i); [apply H|apply (sane_pin _ S)].
  - exact (sane_fdo _ S).
  - exact (sane_uniq _ S).
  - intros j L. unfold updN. destruct (N.eqb_spec j i); [lia|apply (sane_fresh _ S), L].
Qed.
Lemma dir_of_lt k p f i : sane k -> dir_of k p f = Some i -> i < k_next k.
Proof.
  intros S. unfold dir_of. destruct (desc_of k p f) as [[| | | |]|] eqn:E; try discriminate. intros H. injection H as ->. eapply sane_dir; [exact S|apply desc_of_find, E].
Qed.
Lemma sane_frame k k' : sane k -> kinv k' -> k_objs k' = k_objs k -> k_dirs k' = k_dirs k -> k_next k <= k_next k' ->
  NoDup (map fst (k_fds k')) ->
  (forall f p o, fd_find f (k_fds k') = Some (p, D_obj o) -> exists v, k_objs k o = Some v) -> sane k'.
Proof.
  intros S K O D N U H. apply kinv_sane; [exact K| | | |exact U|rewrite D; intros i L; apply (sane_fresh _ S); lia].
  - rewrite O. intros o v X. pose proof (sane_obj _ S _ _ X). lia.
  - rewrite O, D. exact (sane_pin _ S).
  - rewrite O. exact H.
Qed.

Lemma obj_of_obj k p f o v : obj_of k p f = Some (o, v) -> desc_of k p f = Some (D_obj o) /\ k_objs k o = Some v.
Proof.
  unfold obj_of. destruct (desc_of k p f) as [[]|]; try discriminate. destruct (k_objs k o0) eqn:E; [|discriminate].
  intros H. injection H as <- <-. auto.
Qed.

Lemma kdo_sane k p c s : sane k -> sane (fst (kdo k p c s)).
Proof.
  intros S. pose proof (sane_kinv _ S) as K.
  destruct c; cbn [kdo]; try exact S.
  - apply sane_new_fd; auto; discriminate.
  - destruct (desc_of k p b) as [[]|]; try exact S. destruct (k_pindir k); [|exact S]. apply sane_new_fd; auto; discriminate.
  - destruct (desc_of k p b) as [[]|]; try exact S. destruct (k_pindir k); [exact S|].
    apply (sane_frame k); auto; [apply (kinv_same k); cbn; auto; lia|cbn; lia|exact (sane_uniq _ S)|exact (sane_fdo _ S)].
  - destruct (desc_of k p f) as [d|] eqn:Hd; [|exact S]. destruct (contended k f d m) eqn:Hc; [exact S|]. cbn [fst].
    apply (sane_frame k); auto; [apply kinv_flock; assumption|cbn; lia|apply uniq_set, (sane_uniq _ S)|].
    cbn. intros g q o. rewrite fd_find_set. apply desc_of_find in Hd.
    destruct (g =? f); [|apply (sane_fdo _ S)]. rewrite Hd. intros H. injection H as _ E.
    destruct d; try discriminate E. cbn [with_mode] in E. injection E as <-. exact (sane_fdo _ S _ _ _ Hd).
  - destruct (desc_of k p f); [|exact S]. apply sane_fds, S.
  - destruct (negb (is_pindir k p p0)); [exact S|]. destruct (ent_find n (k_ents k)) eqn:Hn; [exact S|].
    cbn [fst]. apply kinv_sane; cbn.
    + pose proof (kdo_kinv k p (C_mkdir p0 n) s K) as X. cbn [kdo] in X.
      destruct (negb (is_pindir k p p0)) eqn:Y.
      * cbn [fst] in X. (* impossible case is still fine *) revert Y. intros _.
        constructor; cbn [with_next with_dir with_ents k_fds k_ents k_next ent_find].
        -- intros f x H. pose proof (ki_fd _ K _ _ H). lia.
        -- intros m i. destruct (bytes_eqb m n); [intros H; injection H as <-; lia|]. intros H. pose proof (ki_ent _ K _ _ H). lia.
        -- intros a b i. destruct (name_eqb_spec a n) as [->|]; destruct (name_eqb_spec b n) as [->|]; try congruence.
           ++ intros H G. injection H as <-. pose proof (ki_ent _ K _ _ G). lia.
           ++ intros G H. injection H as <-. pose proof (ki_ent _ K _ _ G). lia.
           ++ apply (ki_inj _ K).
        -- intros f q i m H. pose proof (ki_dir _ K _ _ _ _ H). lia.
        -- intros f g q r a b. apply (ki_lock _ K).
      * rewrite Hn in X. exact X.
    + intros o v H. pose proof (sane_obj _ S _ _ H). lia.
    + intros j q o. unfold updN. destruct (j =? k_next k); [discriminate|apply (sane_pin _ S)].
    + exact (sane_fdo _ S).
    + exact (sane_uniq _ S).
    + intros j L. unfold updN. destruct (j =? k_next k); [reflexivity|apply (sane_fresh _ S); lia].
  - destruct (negb (is_pindir k p p0)); [exact S|]. destruct (ent_find n (k_ents k)) eqn:Hn; [|exact S].
    apply sane_new_fd; auto; [|discriminate]. intros j m H. injection H as <- _. exact (sane_ent _ S _ _ Hn).
  - destruct (dir_of k p f); exact S.
  - destruct (negb (is_pindir k p p0)); [exact S|]. destruct (ent_find n (k_ents k)); exact S.
  - pose proof (kdo_kinv k p (C_rename p0 a b) s K) as X. cbn [kdo] in X.
    destruct (negb (is_pindir k p p0)); [exact S|]. destruct (ent_find a (k_ents k)); [|exact S].
    destruct (ent_find b (k_ents k)); [exact S|]. cbn [fst] in *.
    apply (sane_frame k); auto; [cbn; lia|exact (sane_uniq _ S)|exact (sane_fdo _ S)].
  - pose proof (kdo_kinv k p (C_rmdir p0 n) s K) as X. cbn [kdo] in X.
    destruct (negb (is_pindir k p p0)); [exact S|]. destruct (ent_find n (k_ents k)); [|exact S].
    destruct (k_dirs k i); [|exact S]. cbn [fst] in *.
    apply (sane_frame k); auto; [cbn; lia|exact (sane_uniq _ S)|exact (sane_fdo _ S)].
  - destruct (is_pindir k p p0); exact S.
  - destruct (dir_of k p d); exact S.
  - destruct (dir_of k p d) eqn:Hd; [|exact S]. destruct (pin_find p0 (k_dirs k i)); [|exact S]. cbn [fst].
    apply sane_dirs; [exact S|eapply dir_of_lt; [exact S|eassumption]|]. intros q x. rewrite pin_find_del. destruct (pname_eqb q p0); [discriminate|apply (sane_pin _ S)].
  - destruct (dir_of k p d) eqn:Hd; [|exact S]. destruct (pin_find a (k_dirs k i)) as [o|] eqn:Ha; [|exact S]. cbn [fst].
    apply sane_dirs; [exact S|eapply dir_of_lt; [exact S|eassumption]|]. intros q x. cbn [pin_find]. rewrite !pin_find_del.
    destruct (pname_eqb q b); [intros H; injection H as <-; exact (sane_pin _ S _ _ _ Ha)|].
    destruct (pname_eqb q a); [discriminate|]. apply (sane_pin _ S).
  - destruct (dir_of k p d) eqn:Hd; [|exact S]. unfold oid_of. destruct (desc_of k p o) as [[]|] eqn:Ho; try exact S.
    destruct (pin_find p0 (k_dirs k i)); [exact S|]. cbn [fst].
    apply sane_dirs; [exact S|eapply dir_of_lt; [exact S|eassumption]|]. intros q x. cbn [pin_find].
    destruct (pname_eqb q p0); [|apply (sane_pin _ S)]. intros H. injection H as <-. exact (sane_fdo _ S _ _ _ (desc_of_find _ _ _ _ Ho)).
  - destruct (dir_of k p d); [|exact S]. destruct (pin_find p0 (k_dirs k i)) eqn:E; [|exact S].
    apply sane_new_fd; auto; [discriminate|]. intros x H. injection H as <-. exact (sane_pin _ S _ _ _ E).
  - destruct o; try exact S; apply sane_new_obj, S.
  - destruct (obj_of k p f) as [[o []]|] eqn:E; try exact S. apply obj_of_obj in E. apply sane_put; [exact S|]. eapply sane_obj; [exact S|apply E].
  - destruct (obj_of k p f) as [[o []]|]; exact S.
  - destruct (obj_of k p f) as [[o []]|] eqn:E; try exact S. apply obj_of_obj in E. apply sane_put; [exact S|]. eapply sane_obj; [exact S|apply E].
  - destruct (obj_of k p f) as [[o [| | |[?|]| |]]|]; exact S.
  - destruct (obj_of k p f) as [[o []]|]; try exact S. destruct (i <? n); exact S.
  - destruct (obj_of k p f) as [[o []]|] eqn:E; try exact S. destruct (i <? n); [|exact S]. apply obj_of_obj in E. apply sane_put; [exact S|]. eapply sane_obj; [exact S|apply E].
  - destruct (all_some (oid_of k p) sets); [|exact S]. destruct (oid_of k p cmap); [|exact S]. apply sane_new_obj, S.
  - apply sane_new_fd; auto; discriminate.
  - destruct (obj_of k p prog) as [[o []]|]; try exact S. apply sane_new_obj, S.
  - destruct (obj_of k p l) as [[o [| | | | |h t po []]]|] eqn:E; try exact S.
    + destruct (obj_of k p prog); exact S.
    + destruct (obj_of k p prog) as [[? []]|]; try exact S. apply obj_of_obj in E. apply sane_put; [exact S|]. eapply sane_obj; [exact S|apply E].
  - destruct (obj_of k p l) as [[o []]|] eqn:E; try exact S. apply obj_of_obj in E. apply sane_put; [exact S|]. eapply sane_obj; [exact S|apply E].
  - unfold oid_of. destruct (desc_of k p f) as [[]|] eqn:E; try exact S. apply sane_new_fd; auto; [discriminate|].
    intros x H. injection H as <-. exact (sane_fdo _ S _ _ _ (desc_of_find _ _ _ _ E)).
Qed.

Lemma ksys_sane k p c d : sane k -> sane (fst (ksys k p c d)).
Proof.
  intros K. destruct d as [|e|s]; cbn [ksys]; try apply kdo_sane, K.
  destruct (can_fail c); [exact K|apply kdo_sane, K].
Qed.

(** ** Evolution from [k] to [k'] while [p] acts

    [E]: the entries now; [X]: the directory that is being changed and its view;
    [M]: the objects of [k] that were changed; [S]: the descriptors opened since. *)
Fixpoint assoc {B} (x : N) (l : list (N * B)) : option B :=
  match l with [] => None | (y, b) :: r => if x =? y then Some b else assoc x r end.
Lemma assoc_app {B} x (l r : list (N * B)) : assoc x (l ++ r) = match assoc x l with Some b => Some b | None => assoc x r end.
Proof. induction l as [|[y b] l IH]; cbn [assoc app]; [reflexivity|]. destruct (x =? y); [reflexivity|exact IH]. Qed.

Definition view := pname -> option oid.
Definition dview (k : kst) (i : ino) : view := fun q => pin_find q (k_dirs k i).

Record evo (p : pid) (E : list (name * ino)) (X : option (ino * view)) (M : list (oid * obj)) (S : list fd) (k k' : kst) : Prop := {
  ev_sane : sane k';
  ev_next : k_next k <= k_next k';
  ev_cpus : k_cpus k' = k_cpus k;
  ev_ents : k_ents k' = E;
  ev_dirs : forall j, j < k_next k -> (forall D, X <> Some (j, D)) -> k_dirs k' j = k_dirs k j;
  ev_view : forall i D, X = Some (i, D) -> i < k_next k' /\ forall q, dview k' i q = D q;
  ev_objs : forall o, o < k_next k -> k_objs k' o = match assoc o M with Some v => Some v | None => k_objs k o end;
  ev_old : forall f, f < k_next k -> fd_find f (k_fds k') = fd_find f (k_fds k);
  ev_new : forall f, k_next k <= f -> fd_find f (k_fds k') = None \/ (In f S /\ exists d, fd_find f (k_fds k') = Some (p, d));
  ev_fresh : forall j, k_next k <= j -> (forall D, X <> Some (j, D)) -> k_dirs k' j = []
}.
Definition grow (p : pid) (S : list fd) (k k' : kst) : Prop := evo p (k_ents k) None [] S k k'.

Lemma evo_refl p k : sane k -> grow p [] k k.
Proof.
  intros H. constructor; auto; try lia; try discriminate.
  - intros f L. left. apply kinv_fresh; [apply sane_kinv, H|exact L].
  - intros j L _. exact (sane_fresh _ H _ L).
Qed.

Definition join (X X' : option (ino * view)) : option (ino * view) := match X' with Some x => Some x | None => X end.
Definition compat (X X' : option (ino * view)) : Prop :=
  match X, X' with Some (i, _), Some (j, _) => i = j | _, _ => True end.

Lemma evo_trans p E X M S E' X' M' S' k k1 k2 :
  evo p E X M S k k1 -> evo p E' X' M' S' k1 k2 -> compat X X' ->
  evo p E' (join X X') (M' ++ M) (S' ++ S) k k2.
Proof.
  intros [A1 A2 A3 A4 A5 A6 A7 A8 A9 A10] [B1 B2 B3 B4 B5 B6 B7 B8 B9 B10] C.
  constructor; auto; try lia; try congruence.
  - intros j L H. rewrite B5; [apply A5; [exact L|]|lia|].
    + intros D ->. destruct X' as [[i' D']|]; cbn [join compat] in *; [subst i'; exact (H D' eq_refl)|exact (H D eq_refl)].
    + intros D ->. cbn [join] in H. exact (H D eq_refl).
  - intros i D H. destruct X' as [[i' D']|]; cbn [join] in H; [apply B6, H|].
    destruct (A6 i D H) as [L V]. split; [lia|]. intros q. unfold dview. rewrite B5; [apply V|exact L|discriminate].
  - intros o L. rewrite B7 by lia. rewrite assoc_app. destruct (assoc o M'); [reflexivity|]. apply A7, L.
  - intros f L. rewrite B8 by lia. apply A8, L.
  - intros f L. destruct (N.lt_ge_cases f (k_next k1)) as [H|H].
    + rewrite B8 by exact H. destruct (A9 f L) as [Y|[Y Z]]; [left; exact Y|right]. split; [apply in_or_app; right; exact Y|exact Z].
    + destruct (B9 f H) as [Y|[Y Z]]; [left; exact Y|right]. split; [apply in_or_app; left; exact Y|exact Z].
  - intros j L H. assert (HX' : forall D, X' <> Some (j, D)) by (intros D ->; cbn [join] in H; exact (H D eq_refl)).
    assert (HX : forall D, X <> Some (j, D)).
    { intros D ->. destruct X' as [[i' D']|]; cbn [join compat] in *; [subst i'; exact (H D' eq_refl)|exact (H D eq_refl)]. }
    destruct (N.lt_ge_cases j (k_next k1)) as [Lj|Lj]; [rewrite B5 by auto; apply A10; auto|apply B10; auto].
Qed.

Lemma evo_weaken p E X M S S' k k' : evo p E X M S k k' ->
  (forall f, In f S -> In f S' \/ fd_find f (k_fds k') = None) -> evo p E X M S' k k'.
Proof.
  intros [A1 A2 A3 A4 A5 A6 A7 A8 A9 A10] H. constructor; auto.
  intros f L. destruct (A9 f L) as [Y|[Y Z]]; [left; exact Y|]. destruct (H f Y) as [W|W]; [right; auto|left; exact W].
Qed.
Lemma evo_incl p E X M S S' k k' : evo p E X M S k k' -> (forall f, In f S -> In f S') -> evo p E X M S' k k'.
Proof. intros H I. apply (evo_weaken _ _ _ _ _ _ _ _ H). auto. Qed.
Lemma evo_grow p E X M S S1 k k1 k2 : evo p E X M S k k1 -> grow p S1 k1 k2 -> evo p E X M (S1 ++ S) k k2.
Proof.
  intros A B. pose proof (evo_trans _ _ _ _ _ _ _ _ _ _ _ _ A B) as T. cbn [join app] in T.
  rewrite (ev_ents _ _ _ _ _ _ _ A) in T. apply T. destruct X as [[]|]; exact Logic.I.
Qed.
Lemma grow_trans p S S1 k k1 k2 : grow p S k k1 -> grow p S1 k1 k2 -> grow p (S1 ++ S) k k2.
Proof. apply evo_grow. Qed.
(** Start to change directory [i]. *)
Lemma evo_open p E M S k k' i : evo p E None M S k k' -> i < k_next k -> evo p E (Some (i, dview k i)) M S k k'.
Proof.
  intros [A1 A2 A3 A4 A5 A6 A7 A8 A9 A10] L. constructor; auto.
  - intros j Lj _. apply A5; [exact Lj|discriminate].
  - intros j D H. injection H as <- <-. split; [lia|]. intros q. unfold dview. rewrite A5; [reflexivity|exact L|discriminate].
  - intros j Lj _. apply A10; [exact Lj|discriminate].
Qed.
Lemma evo_ext p E M S k k' i D D' : evo p E (Some (i, D)) M S k k' -> (forall q, D q = D' q) -> evo p E (Some (i, D')) M S k k'.
Proof.
  intros [A1 A2 A3 A4 A5 A6 A7 A8 A9 A10] H. constructor; auto.
  - intros j L N. apply A5; [exact L|]. intros D1 X. injection X as -> _. exact (N D' eq_refl).
  - intros j D1 X. injection X as <- <-. destruct (A6 _ _ eq_refl) as [L V]. split; [exact L|]. intros q. rewrite V. apply H.
  - intros j L N. apply A10; [exact L|]. intros D1 X. injection X as -> _. exact (N D' eq_refl).
Qed.

(** Facts that survive growth. *)
Lemma grow_desc p S k k' q f d : grow p S k k' -> sane k -> desc_of k q f = Some d -> desc_of k' q f = Some d.
Proof.
  intros G K H. apply find_desc_of. rewrite (ev_old _ _ _ _ _ _ _ G); [apply desc_of_find, H|].
  apply (sane_fd _ K f (q, d)). apply desc_of_find, H.
Qed.
Lemma evo_desc p E X M S k k' q f d : evo p E X M S k k' -> sane k -> desc_of k q f = Some d -> desc_of k' q f = Some d.
Proof.
  intros G K H. apply find_desc_of. rewrite (ev_old _ _ _ _ _ _ _ G); [apply desc_of_find, H|].
  apply (sane_fd _ K f (q, d)). apply desc_of_find, H.
Qed.
Lemma grow_obj p S k k' o v : grow p S k k' -> sane k -> k_objs k o = Some v -> k_objs k' o = Some v.
Proof. intros G K H. rewrite (ev_objs _ _ _ _ _ _ _ G) by (eapply sane_obj; eauto). cbn [assoc]. exact H. Qed.
Lemma evo_obj p E X M S k k' o v : evo p E X M S k k' -> sane k -> k_objs k o = Some v -> assoc o M = None -> k_objs k' o = Some v.
Proof. intros G K H A. rewrite (ev_objs _ _ _ _ _ _ _ G) by (eapply sane_obj; eauto). rewrite A. exact H. Qed.
Lemma desc_lt k p f d : sane k -> desc_of k p f = Some d -> f < k_next k.
Proof. intros K H. eapply sane_fd; [exact K|apply desc_of_find, H]. Qed.

(** ** Single calls *)
Lemma grow_fd k p d : sane k -> mode_of d = L_NONE -> (forall i m, d = D_dir i m -> i < k_next k) ->
  (forall o, d = D_obj o -> exists v, k_objs k o = Some v) ->
  grow p [k_next k] k (fst (new_fd k p d)).
Proof.
  intros S M H1 H2. constructor; try reflexivity; try discriminate.
  - apply sane_new_fd; auto.
  - cbn. lia.
  - intros f L. cbn. destruct (N.eqb_spec f (k_next k)); [lia|reflexivity].
  - intros f L. cbn. destruct (N.eqb_spec f (k_next k)) as [->|]; [right; split; [left; reflexivity|eauto]|left].
    apply kinv_fresh; [apply sane_kinv, S|exact L].
  - intros j L _. exact (sane_fresh _ S _ L).
Qed.
Lemma grow_new k p v : sane k -> grow p [k_next k + 1] k (fst (new_obj k p v)).
Proof.
  intros S. constructor; try reflexivity; try discriminate.
  - apply sane_new_obj, S.
  - cbn. lia.
  - intros o L. cbn. apply updN_other. lia.
  - intros f L. cbn. destruct (N.eqb_spec f (k_next k + 1)); [lia|reflexivity].
  - intros f L. cbn. destruct (N.eqb_spec f (k_next k + 1)) as [->|]; [right; split; [left; reflexivity|eauto]|left].
    apply kinv_fresh; [apply sane_kinv, S|exact L].
  - intros j L _. exact (sane_fresh _ S _ L).
Qed.
Lemma new_obj_facts k p v : sane k ->
  desc_of (fst (new_obj k p v)) p (k_next k + 1) = Some (D_obj (k_next k)) /\
  k_objs (fst (new_obj k p v)) (k_next k) = Some v /\ snd (new_obj k p v) = R_fd (k_next k + 1) /\
  k_next (fst (new_obj k p v)) = k_next k + 2.
Proof.
  intros S. split; [|split; [|split]].
  - apply find_desc_of. cbn. rewrite N.eqb_refl. reflexivity.
  - cbn. apply updN_same.
  - reflexivity.
  - cbn. lia.
Qed.

(** Writing an object. *)
Lemma evo_put p E X M S k k1 o v : evo p E X M S k k1 -> o < k_next k1 -> evo p E X ((o, v) :: M) S k (with_obj k1 o v).
Proof.
  intros [A1 A2 A3 A4 A5 A6 A7 A8 A9 A10] L. constructor; auto.
  - apply sane_put; assumption.
  - intros x Lx. cbn [with_obj k_objs assoc]. unfold updN. destruct (x =? o); [reflexivity|apply A7, Lx].
Qed.
(** Writing an object that did not exist in [k]. *)
Lemma evo_put_new p E X M S k k1 o v : evo p E X M S k k1 -> k_next k <= o < k_next k1 -> evo p E X M S k (with_obj k1 o v).
Proof.
  intros [A1 A2 A3 A4 A5 A6 A7 A8 A9 A10] L. constructor; auto.
  - apply sane_put; [assumption|lia].
  - intros x Lx. cbn [with_obj k_objs]. rewrite updN_other by lia. apply A7, Lx.
Qed.
(** Closing. *)
Lemma evo_close p E X M S S' k k1 f : evo p E X M S k k1 -> sane k -> k_next k <= f ->
  (forall g, In g S -> In g S' \/ g = f) -> evo p E X M S' k (with_fds k1 (fd_del f (k_fds k1))).
Proof.
  intros [A1 A2 A3 A4 A5 A6 A7 A8 A9 A10] K L H. constructor; auto.
  - apply sane_fds, A1.
  - intros g Lg. cbn [with_fds k_fds]. rewrite fd_find_del. destruct (N.eqb_spec g f); [lia|apply A8, Lg].
  - intros g Lg. cbn [with_fds k_fds]. rewrite fd_find_del. destruct (N.eqb_spec g f) as [->|NE]; [left; reflexivity|].
    destruct (A9 g Lg) as [Y|[Y Z]]; [left; exact Y|]. destruct (H g Y) as [W|W]; [right; auto|congruence].
Qed.
(** Writing the directory. *)
Lemma evo_dir p E X M S k k1 i l D : evo p E X M S k k1 ->
  match X with Some (j, _) => j = i | None => True end -> i < k_next k1 ->
  (forall q o, pin_find q l = Some o -> exists v, k_objs k1 o = Some v) -> (forall q, pin_find q l = D q) ->
  evo p E (Some (i, D)) M S k (with_dir k1 i l).
Proof.
  intros [A1 A2 A3 A4 A5 A6 A7 A8 A9 A10] C L HO V. constructor; auto.
  - apply sane_dirs; assumption.
  - intros j Lj N. cbn [with_dir k_dirs]. rewrite updN_other by (intros ->; exact (N D eq_refl)).
    apply A5; [exact Lj|]. intros D1 ->. subst j. exact (N D eq_refl).
  - intros j D1 H. injection H as <- <-. split; [exact L|]. intros q. unfold dview. cbn [with_dir k_dirs]. rewrite updN_same. apply V.
  - intros j Lj N. cbn [with_dir k_dirs]. rewrite updN_other by (intros ->; exact (N D eq_refl)).
    apply A10; [exact Lj|]. intros D1 ->. subst j. exact (N D eq_refl).
Qed.

(** ** Steps of [wps] *)
Definition ures (r : reply) : res unit := match r with R_err e => Er e | _ => Ok tt end.
Definition fres (r : reply) : res fd := match r with R_fd f => Ok f | R_err e => Er e | _ => Er EINVAL end.
Definition steps {A} (F : call -> bool) p (I : kst -> Prop) c (g : reply -> prog A) Q k : Prop :=
  (forall s, wps F p I (g (snd (kdo k p c s))) Q (fst (kdo k p c s))) /\
  (F c = true -> can_fail c = true -> forall e, wps F p I (g (R_err e)) Q k).
Lemma wps_step {A} F p (I : kst -> Prop) c (g : reply -> prog A) Q k : I k -> steps F p I c g Q k -> wps F p I (Do c g) Q k.
Proof.
  intros HI [H1 H2]. split; [exact HI|]. intros [|e|s] EO; cbn [ksys]; [apply H1| |apply H1].
  destruct (can_fail c) eqn:CF; [|apply H1]. apply (H2 EO eq_refl).
Qed.
Lemma wps_unit {A} F p (I : kst -> Prop) c (g : res unit -> prog A) Q k : I k ->
  (forall s, wps F p I (g (ures (snd (kdo k p c s)))) Q (fst (kdo k p c s))) ->
  (F c = true -> can_fail c = true -> forall e, wps F p I (g (Er e)) Q k) ->
  wps F p I (pbind (sys_unit c) g) Q k.
Proof.
  intros HI H1 H2. unfold sys_unit. cbn [pbind]. apply wps_step; [exact HI|]. split.
  - intros s. specialize (H1 s). destruct (snd (kdo k p c s)); exact H1.
  - intros HF CF e. exact (H2 HF CF e).
Qed.
Lemma wps_fd {A} F p (I : kst -> Prop) c (g : res fd -> prog A) Q k : I k ->
  (forall s, wps F p I (g (fres (snd (kdo k p c s)))) Q (fst (kdo k p c s))) ->
  (F c = true -> can_fail c = true -> forall e, wps F p I (g (Er e)) Q k) ->
  wps F p I (pbind (sys_fd c) g) Q k.
Proof.
  intros HI H1 H2. unfold sys_fd. cbn [pbind]. apply wps_step; [exact HI|]. split.
  - intros s. specialize (H1 s). destruct (snd (kdo k p c s)); exact H1.
  - intros HF CF e. exact (H2 HF CF e).
Qed.
Lemma wps_ign {A} F p (I : kst -> Prop) c (g : unit -> prog A) Q k : I k ->
  (forall s, wps F p I (g tt) Q (fst (kdo k p c s))) ->
  (F c = true -> can_fail c = true -> wps F p I (g tt) Q k) ->
  wps F p I (pbind (sys_ c) g) Q k.
Proof.
  intros HI H1 H2. unfold sys_. cbn [pbind]. apply wps_step; [exact HI|]. split; auto.
Qed.

Lemma wps_alloc {A} F p (I : kst -> Prop) (g : res unit -> prog A) Q k : I k ->
  wps F p I (g (Ok tt)) Q k -> (F C_alloc = true -> forall e, wps F p I (g (Er e)) Q k) ->
  wps F p I (pbind (sys_unit C_alloc) g) Q k.
Proof. intros HI H1 H2. apply wps_unit; [exact HI|intros s; exact H1|auto]. Qed.

Definition creatable (v : obj) : Prop := match v with O_prog _ _ _ | O_link _ _ _ _ => False | _ => True end.
Lemma wps_create {A} F p (I : kst -> Prop) v (g : res fd -> prog A) Q k : sane k -> creatable v -> I k ->
  (forall k' f o, grow p [f] k k' -> desc_of k' p f = Some (D_obj o) -> k_objs k' o = Some (fresh_obj k v) ->
     k_next k <= o < k_next k' -> k_next k <= f -> wps F p I (g (Ok f)) Q k') ->
  (F (C_map_create v) = true -> forall e, wps F p I (g (Er e)) Q k) ->
  wps F p I (pbind (sys_fd (C_map_create v)) g) Q k.
Proof.
  intros S CR HI H1 H2. apply wps_fd; [exact HI| |auto]. intros s.
  replace (kdo k p (C_map_create v) s) with (new_obj k p (fresh_obj k v)) by (destruct v; try contradiction; reflexivity).
  destruct (new_obj_facts k p (fresh_obj k v) S) as (A1 & A2 & A3 & A4). rewrite A3. cbn [fres].
  apply H1 with (o := k_next k); auto; [apply grow_new, S|lia|lia].
Qed.

Lemma wps_get {A} F p (I : kst -> Prop) d i m q (g : res fd -> prog A) Q k : sane k -> desc_of k p d = Some (D_dir i m) -> I k ->
  (forall k' f o, dview k i q = Some o -> grow p [f] k k' -> desc_of k' p f = Some (D_obj o) -> k_next k <= f -> wps F p I (g (Ok f)) Q k') ->
  (forall e, F (C_get d q) = true \/ (dview k i q = None /\ e = ENOENT) -> wps F p I (g (Er e)) Q k) ->
  wps F p I (pbind (sys_fd (C_get d q)) g) Q k.
Proof.
  intros S D HI H1 H2. apply wps_fd; [exact HI| |auto]. intros s. cbn [kdo]. unfold dir_of. rewrite D.
  fold (dview k i q). destruct (dview k i q) as [o|] eqn:V.
  - cbn [new_fd snd fst fres]. apply H1 with (o := o); auto; [| |lia].
    + apply (grow_fd k p (D_obj o)); auto; [discriminate|]. intros x H. injection H as <-. exact (sane_pin _ S _ _ _ V).
    + apply find_desc_of. cbn. rewrite N.eqb_refl. reflexivity.
  - cbn [snd fst fres]. apply H2. auto.
Qed.

Definition dset (D : view) (q : pname) (v : option oid) : view := fun x => if pname_eqb x q then v else D x.

(** Only directory [i] is written; its view becomes [D]. *)
Record dwr (i : ino) (D : view) (k k' : kst) : Prop := {
  dw_sane : sane k'; dw_fds : k_fds k' = k_fds k; dw_objs : k_objs k' = k_objs k; dw_next : k_next k' = k_next k;
  dw_ents : k_ents k' = k_ents k; dw_cpus : k_cpus k' = k_cpus k;
  dw_dirs : forall j, j <> i -> k_dirs k' j = k_dirs k j; dw_view : forall q, dview k' i q = D q
}.
Lemma dwr_refl i k : sane k -> dwr i (dview k i) k k.
Proof. intros S. constructor; auto. Qed.
Lemma dwr_trans i D D' k k1 k2 : dwr i D k k1 -> dwr i D' k1 k2 -> dwr i D' k k2.
Proof.
  intros [A1 A2 A3 A4 A5 A6 A7 A8] [B1 B2 B3 B4 B5 B6 B7 B8]. constructor; auto; try congruence.
  intros j H. rewrite B7, A7; auto.
Qed.
Lemma dwr_ext i D D' k k' : dwr i D k k' -> (forall q, D q = D' q) -> dwr i D' k k'.
Proof. intros [A1 A2 A3 A4 A5 A6 A7 A8] H. constructor; auto. intros q. rewrite A8. apply H. Qed.
Lemma dwr_desc i D k k' p f : dwr i D k k' -> desc_of k' p f = desc_of k p f.
Proof. intros H. unfold desc_of. rewrite (dw_fds _ _ _ _ H). reflexivity. Qed.

Definition xok (X : option (ino * view)) (i : ino) : Prop := match X with Some (j, _) => j = i | None => True end.
Lemma evo_dwr p E X M S k0 k i D k' : evo p E X M S k0 k -> xok X i -> i < k_next k -> dwr i D k k' -> evo p E (Some (i, D)) M S k0 k'.
Proof.
  intros [A1 A2 A3 A4 A5 A6 A7 A8 A9 A10] C L [B1 B2 B3 B4 B5 B6 B7 B8].
  constructor; rewrite ?B2, ?B3, ?B4, ?B5, ?B6; auto.
  - intros j Lj N. rewrite B7 by (intros ->; exact (N D eq_refl)). apply A5; [exact Lj|].
    intros D1 ->. cbn [xok] in C. subst j. exact (N D eq_refl).
  - intros j D1 H. injection H as <- <-. auto.
  - intros j Lj N. rewrite B7 by (intros ->; exact (N D eq_refl)). apply A10; [exact Lj|].
    intros D1 ->. cbn [xok] in C. subst j. exact (N D eq_refl).
Qed.
Lemma dwr_evo p i D k k' : sane k -> i < k_next k -> dwr i D k k' -> evo p (k_ents k) (Some (i, D)) [] [] k k'.
Proof. intros S L H. eapply evo_dwr; [apply evo_refl, S|exact Logic.I|exact L|exact H]. Qed.

Lemma wps_pin {A} F p (I : kst -> Prop) d i m q f o (g : res unit -> prog A) Q k :
  sane k -> desc_of k p d = Some (D_dir i m) -> desc_of k p f = Some (D_obj o) -> I k ->
  (forall k', dview k i q = None -> dwr i (dset (dview k i) q (Some o)) k k' -> wps F p I (g (Ok tt)) Q k') ->
  (forall e, F (C_pin d q f) = true \/ dview k i q <> None -> wps F p I (g (Er e)) Q k) ->
  wps F p I (pbind (sys_unit (C_pin d q f)) g) Q k.
Proof.
  intros SK D DF HI H1 H2. apply wps_unit; [exact HI| |auto]. intros s. cbn [kdo]. unfold dir_of, oid_of. rewrite D, DF.
  fold (dview k i q). destruct (dview k i q) as [o'|] eqn:V; cbn [snd fst ures].
  - apply H2. right. discriminate.
  - apply H1; auto. constructor; try reflexivity.
    + apply sane_dirs; [exact SK|eapply dir_of_lt; [exact SK|unfold dir_of; rewrite D; reflexivity]|]. intros x y. cbn [pin_find]. destruct (pname_eqb x q); [|apply (sane_pin _ SK)].
      intros H. injection H as <-. exact (sane_fdo _ SK _ _ _ (desc_of_find _ _ _ _ DF)).
    + intros j NE. cbn [with_dir k_dirs]. apply updN_other, NE.
    + intros x. unfold dview. cbn [with_dir k_dirs]. rewrite updN_same. reflexivity.
Qed.

Lemma wps_unlink {A} F p (I : kst -> Prop) d i m q (g : unit -> prog A) Q k :
  sane k -> desc_of k p d = Some (D_dir i m) -> I k ->
  (forall k', dwr i (dset (dview k i) q None) k k' -> wps F p I (g tt) Q k') ->
  wps F p I (pbind (sys_ (C_unlink d q)) g) Q k.
Proof.
  intros SK D HI H1. apply wps_ign; [exact HI| |discriminate]. intros s. cbn [kdo]. unfold dir_of. rewrite D.
  fold (dview k i q). destruct (dview k i q) as [o'|] eqn:V; cbn [snd fst].
  - apply H1. constructor; try reflexivity.
    + apply sane_dirs; [exact SK|eapply dir_of_lt; [exact SK|unfold dir_of; rewrite D; reflexivity]|]. intros x y. rewrite pin_find_del. destruct (pname_eqb x q); [discriminate|apply (sane_pin _ SK)].
    + intros j NE. cbn [with_dir k_dirs]. apply updN_other, NE.
    + intros x. unfold dview at 1. cbn [with_dir k_dirs]. rewrite updN_same, pin_find_del. reflexivity.
  - apply H1. apply (dwr_ext _ _ _ _ _ (dwr_refl i k SK)). intros x. unfold dset.
    destruct (pname_eqb_spec x q) as [->|]; [exact V|reflexivity].
Qed.

Lemma wps_rename_pin {A} F p (I : kst -> Prop) d i m a b o (g : res unit -> prog A) Q k :
  sane k -> desc_of k p d = Some (D_dir i m) -> dview k i a = Some o -> a <> b -> I k ->
  (forall k', dwr i (dset (dset (dview k i) a None) b (Some o)) k k' -> wps F p I (g (Ok tt)) Q k') ->
  (F (C_rename_pin d a b) = true -> forall e, wps F p I (g (Er e)) Q k) ->
  wps F p I (pbind (sys_unit (C_rename_pin d a b)) g) Q k.
Proof.
  intros SK D V NE HI H1 H2. apply wps_unit; [exact HI| |auto]. intros s. cbn [kdo]. unfold dir_of. rewrite D.
  fold (dview k i a). rewrite V. cbn [snd fst ures].
  apply H1. constructor; try reflexivity.
  - apply sane_dirs; [exact SK|eapply dir_of_lt; [exact SK|unfold dir_of; rewrite D; reflexivity]|]. intros x y. cbn [pin_find]. rewrite !pin_find_del.
    destruct (pname_eqb x b); [intros H; injection H as <-; exact (sane_pin _ SK _ _ _ V)|].
    destruct (pname_eqb x a); [discriminate|apply (sane_pin _ SK)].
  - intros j NJ. cbn [with_dir k_dirs]. apply updN_other, NJ.
  - intros x. unfold dview at 1. cbn [with_dir k_dirs]. rewrite updN_same. cbn [pin_find]. rewrite !pin_find_del. unfold dset, dview.
    destruct (pname_eqb_spec x b) as [->|]; [reflexivity|]. destruct (pname_eqb x a); reflexivity.
Qed.

Lemma wps_close {A} F p (I : kst -> Prop) f E X M S S' (g : unit -> prog A) Q k0 k :
  evo p E X M S k0 k -> sane k0 -> k_next k0 <= f -> (forall x, In x S -> In x S' \/ x = f) -> I k ->
  (forall k', (forall x, x <> f -> fd_find x (k_fds k') = fd_find x (k_fds k)) -> k_dirs k' = k_dirs k -> k_objs k' = k_objs k -> k_next k' = k_next k ->
     evo p E X M S' k0 k' -> wps F p I (g tt) Q k') ->
  wps F p I (pbind (sys_ (C_close f)) g) Q k.
Proof.
  intros EV S0 L HS HI H1. apply wps_ign; [exact HI| |discriminate]. intros s. cbn [kdo].
  destruct (desc_of k p f) as [d|] eqn:D; cbn [fst].
  - apply H1; auto.
    + intros x NE. cbn [with_fds k_fds]. rewrite fd_find_del. destruct (N.eqb_spec x f); [contradiction|reflexivity].
    + eapply evo_close; eauto.
  - apply H1; auto. apply (evo_weaken _ _ _ _ _ _ _ _ EV). intros x Hx. destruct (HS x Hx) as [Y| ->]; [left; exact Y|].
    right. destruct (ev_new _ _ _ _ _ _ _ EV f L) as [Y|[_ [d Y]]]; [exact Y|]. rewrite (find_desc_of _ _ _ _ Y) in D. discriminate D.
Qed.
