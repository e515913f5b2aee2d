(** Rely-guarantee reasoning for the processes of SysSpec.v.

    [kinv]: invariant of the kernel's tables.  [allowed]: what a process of the library
    may do with the directories in a given kernel state.  [rely]: what a process can
    count on while other processes do only allowed things.  [wpc]: a program does only
    allowed things and ends as described, whatever the others do. *)
From Coq Require Import NArith ZArith List Bool Lia.
From Verif Require Import Bytes Types World BpfModel GenModel BytesFacts StrModel SetModel PackModel HookModel KernModel LockModel CtlModel SysSpec.
Import ListNotations.
Local Open Scope N_scope.

(** ** Tables *)
Lemma name_eqb_refl n : bytes_eqb n n = true.
Proof. apply bytes_eqb_refl. Qed.

Lemma name_eqb_spec a b : reflect (a = b) (bytes_eqb a b).
Proof.
  destruct (bytes_eqb a b) eqn:E; constructor.
  - apply bytes_eqb_eq, E.
  - intros ->. rewrite name_eqb_refl in E. discriminate E.
Qed.

Lemma ent_find_del_same n l : ent_find n (ent_del n l) = None.
Proof.
  induction l as [|[m i] l IH]; [reflexivity|]. cbn [ent_del filter fst].
  destruct (bytes_eqb n m) eqn:E; cbn [negb].
  - exact IH.
  - cbn [ent_find]. rewrite E. exact IH.
Qed.

Lemma ent_find_del_other n m l : n <> m -> ent_find n (ent_del m l) = ent_find n l.
Proof.
  intros Hn. induction l as [|[x i] l IH]; [reflexivity|]. cbn [ent_del filter fst ent_find].
  destruct (name_eqb_spec m x) as [E|E]; cbn [negb].
  - subst x. destruct (name_eqb_spec n m) as [E'|E']; [congruence|exact IH].
  - cbn [ent_find]. destruct (bytes_eqb n x); [reflexivity|exact IH].
Qed.

Lemma ent_del_none n l : ent_find n l = None -> ent_del n l = l.
Proof.
  induction l as [|[m i] l IH]; [reflexivity|]. cbn [ent_find ent_del filter fst].
  destruct (bytes_eqb n m); [discriminate|]. intros H. cbn [negb]. f_equal. apply IH, H.
Qed.

Lemma ent_find_in n l i : ent_find n l = Some i -> In (n, i) l.
Proof.
  induction l as [|[m j] l IH]; [discriminate|]. cbn [ent_find].
  destruct (name_eqb_spec n m) as [E|E].
  - intros H. injection H as <-. subst. left; reflexivity.
  - intros H. right. apply IH, H.
Qed.

Lemma ent_find_some n l : In n (map fst l) -> exists i, ent_find n l = Some i.
Proof.
  induction l as [|[m j] l IH]; [intros []|]. cbn [map fst In ent_find].
  destruct (name_eqb_spec n m) as [E|E]; [intros _; eexists; reflexivity|].
  intros [H|H]; [congruence|apply IH, H].
Qed.

Lemma fd_find_in f l x : fd_find f l = Some x -> In (f, x) l.
Proof.
  induction l as [|[g y] l IH]; [discriminate|]. cbn [fd_find].
  destruct (N.eqb_spec f g) as [E|E]; [intros H; injection H as <-; subst; left; reflexivity|].
  intros H; right; apply IH, H.
Qed.

Lemma fd_find_del f g l : fd_find f (fd_del g l) = if f =? g then None else fd_find f l.
Proof.
  induction l as [|[h y] l IH]; cbn [fd_del filter fst fd_find].
  - destruct (f =? g); reflexivity.
  - destruct (N.eqb_spec g h) as [E|E]; cbn [negb].
    + subst h. destruct (N.eqb_spec f g) as [E'|E']; exact IH.
    + cbn [fd_find]. destruct (N.eqb_spec f h) as [E1|E1].
      * subst h. destruct (N.eqb_spec f g) as [E2|E2]; [congruence|reflexivity].
      * exact IH.
Qed.

Lemma fd_find_set f g p d l :
  fd_find f (map (fun x => if fst x =? g then (g, (p, d)) else x) l) =
  if f =? g then match fd_find g l with Some _ => Some (p, d) | None => None end else fd_find f l.
Proof.
  induction l as [|[h y] l IH]; cbn [map fst fd_find].
  - destruct (f =? g); reflexivity.
  - destruct (N.eqb_spec h g) as [E|E].
    + subst h. rewrite (N.eqb_refl g). cbn [fd_find].
      destruct (N.eqb_spec f g) as [E'|E']; [reflexivity|exact IH].
    + cbn [fd_find]. destruct (N.eqb_spec g h) as [E1|E1]; [congruence|].
      destruct (N.eqb_spec f h) as [E2|E2].
      * subst h. destruct (N.eqb_spec f g) as [E3|E3]; [congruence|reflexivity].
      * exact IH.
Qed.

Lemma conflict_sym a b : conflict a b = conflict b a.
Proof. destruct a, b; reflexivity. Qed.
Lemma same_place_sym a b : same_place a b = same_place b a.
Proof. destruct a, b; cbn; try reflexivity. apply N.eqb_sym. Qed.
Lemma same_place_mode a b m : same_place (with_mode a m) b = same_place a b.
Proof. destruct a, b; reflexivity. Qed.

Lemma not_contended k f d m g q e :
  contended k f d m = false -> fd_find g (k_fds k) = Some (q, e) -> g <> f ->
  same_place d e = true -> conflict m (mode_of e) = false.
Proof.
  unfold contended. intros H Hg Hn Hs.
  apply fd_find_in in Hg.
  destruct (conflict m (mode_of e)) eqn:Hc; [|reflexivity].
  assert (E : existsb (fun x => negb (fst x =? f) && same_place d (snd (snd x)) && conflict m (mode_of (snd (snd x)))) (k_fds k) = true).
  { apply existsb_exists. exists (g, (q, e)). split; [exact Hg|]. cbn [fst snd].
    rewrite Hs, Hc. destruct (N.eqb_spec g f); [contradiction|reflexivity]. }
  congruence.
Qed.

(** ** Invariant of the kernel's tables *)
Record kinv (k : kst) : Prop := {
  ki_fd : forall f x, fd_find f (k_fds k) = Some x -> f < k_next k;
  ki_ent : forall n i, ent_find n (k_ents k) = Some i -> i < k_next k;
  ki_inj : forall n m i, ent_find n (k_ents k) = Some i -> ent_find m (k_ents k) = Some i -> n = m;
  ki_dir : forall f p i m, fd_find f (k_fds k) = Some (p, D_dir i m) -> i < k_next k;
  ki_lock : forall f g p q a b, f <> g ->
    fd_find f (k_fds k) = Some (p, a) -> fd_find g (k_fds k) = Some (q, b) ->
    same_place a b = true -> conflict (mode_of a) (mode_of b) = false
}.

Lemma kinv_same k k' :
  kinv k -> k_fds k' = k_fds k -> k_ents k' = k_ents k -> k_next k <= k_next k' -> kinv k'.
Proof.
  intros [A B C D E] Hf He Hn.
  constructor; rewrite ?Hf, ?He; intros.
  - specialize (A _ _ H). lia.
  - specialize (B _ _ H). lia.
  - eapply C; eassumption.
  - specialize (D _ _ _ _ H). lia.
  - eapply E with (f := f) (g := g); eassumption.
Qed.

Lemma kinv_new_fd k p d :
  kinv k -> mode_of d = L_NONE -> (forall i m, d = D_dir i m -> i < k_next k) -> kinv (fst (new_fd k p d)).
Proof.
  intros [A B C D E] Hm Hd.
  constructor; cbn [new_fd fst with_next with_fds k_fds k_next k_ents fd_find]; intros.
  - destruct (N.eqb_spec f (k_next k)) as [X|X]; [lia|]. specialize (A _ _ H). lia.
  - specialize (B _ _ H). lia.
  - eapply C; eassumption.
  - destruct (N.eqb_spec f (k_next k)) as [X|X].
    + injection H as -> Hx. specialize (Hd _ _ Hx). lia.
    + specialize (D _ _ _ _ H). lia.
  - destruct (N.eqb_spec f (k_next k)) as [X|X]; destruct (N.eqb_spec g (k_next k)) as [Y|Y].
    + congruence.
    + injection H0 as _ <-. rewrite Hm. reflexivity.
    + injection H1 as _ <-. rewrite Hm. destruct (mode_of a); reflexivity.
    + eapply E with (f := f) (g := g); eassumption.
Qed.

Lemma kinv_del k f : kinv k -> kinv (with_fds k (fd_del f (k_fds k))).
Proof.
  intros [A B C D E].
  constructor; cbn [with_fds k_fds k_next k_ents]; intros; rewrite ?fd_find_del in *.
  - destruct (f0 =? f); [discriminate|]. eapply A; eassumption.
  - eapply B; eassumption.
  - eapply C; eassumption.
  - destruct (f0 =? f); [discriminate|]. eapply D; eassumption.
  - destruct (f0 =? f); [discriminate|]. destruct (g =? f); [discriminate|].
    eapply E with (f := f0) (g := g); eassumption.
Qed.

Lemma desc_of_find k p f d : desc_of k p f = Some d -> fd_find f (k_fds k) = Some (p, d).
Proof.
  unfold desc_of. destruct (fd_find f (k_fds k)) as [[q e]|]; [|discriminate].
  destruct (N.eqb_spec p q) as [->|]; [|discriminate]. intros H; injection H as ->. reflexivity.
Qed.

Lemma find_desc_of k p f d : fd_find f (k_fds k) = Some (p, d) -> desc_of k p f = Some d.
Proof. unfold desc_of. intros ->. rewrite N.eqb_refl. reflexivity. Qed.

Lemma kinv_flock k p f d m :
  kinv k -> desc_of k p f = Some d -> contended k f d m = false -> kinv (set_desc k p f (with_mode d m)).
Proof.
  intros [A B C D E] Hd Hc. apply desc_of_find in Hd.
  assert (G : forall g q b, g <> f -> fd_find g (k_fds k) = Some (q, b) ->
              same_place d b = true -> conflict (mode_of (with_mode d m)) (mode_of b) = false).
  { intros g q b Hn Hg Hs. pose proof (not_contended _ _ _ _ _ _ _ Hc Hg Hn Hs) as X.
    destruct d; cbn [with_mode mode_of]; try reflexivity; exact X. }
  constructor; cbn [set_desc with_fds k_fds k_next k_ents]; intros; rewrite ?fd_find_set in *.
  - destruct (N.eqb_spec f0 f) as [X|X]; [subst; eapply A; eassumption|eapply A; eassumption].
  - eapply B; eassumption.
  - eapply C; eassumption.
  - destruct (N.eqb_spec f0 f) as [X|X]; [|eapply D; eassumption].
    rewrite Hd in H. destruct d; cbn [with_mode] in H; try discriminate H.
    injection H as <- <- <-. eapply D; eassumption.
  - rewrite Hd in *.
    destruct (N.eqb_spec f0 f) as [X|X]; destruct (N.eqb_spec g f) as [Y|Y].
    + congruence.
    + injection H0 as <- <-. rewrite same_place_mode in H2. eapply G; eassumption.
    + injection H1 as <- <-. rewrite conflict_sym. rewrite same_place_sym, same_place_mode in H2.
      eapply G; eassumption.
    + eapply E with (f := f0) (g := g); eassumption.
Qed.

Lemma new_obj_eq k p v : fst (new_obj k p v) = fst (new_fd (with_next (with_obj k (k_next k) v)) p (D_obj (k_next k))).
Proof. reflexivity. Qed.

Lemma kinv_new_obj k p v : kinv k -> kinv (fst (new_obj k p v)).
Proof.
  intros H. rewrite new_obj_eq. apply kinv_new_fd; [|reflexivity|discriminate].
  apply (kinv_same k); cbn; auto. lia.
Qed.

Lemma kinv_ents k l :
  kinv k ->
  (forall n i, ent_find n l = Some i -> i < k_next k) ->
  (forall n m i, ent_find n l = Some i -> ent_find m l = Some i -> n = m) ->
  kinv (with_ents k l).
Proof. intros [A B C D E] H1 H2. constructor; cbn [with_ents k_fds k_ents k_next]; assumption. Qed.

Lemma ent_find_del n m l : ent_find n (ent_del m l) = if bytes_eqb n m then None else ent_find n l.
Proof.
  destruct (name_eqb_spec n m) as [->|H]; [apply ent_find_del_same|apply ent_find_del_other, H].
Qed.

Lemma kdo_kinv k p c s : kinv k -> kinv (fst (kdo k p c s)).
Proof.
  intros K. pose proof K as [A B C D E].
  destruct c; cbn [kdo].
  all: try (exact K).
  - apply kinv_new_fd; [exact K|reflexivity|discriminate].
  - destruct (desc_of k p b) as [[]|]; try exact K. destruct (k_pindir k); [|exact K].
    apply kinv_new_fd; [exact K|reflexivity|discriminate].
  - destruct (desc_of k p b) as [[]|]; try exact K. destruct (k_pindir k); [exact K|].
    apply (kinv_same k); cbn; auto. lia.
  - destruct (desc_of k p f) as [d|] eqn:Hd; [|exact K].
    destruct (contended k f d m) eqn:Hc; [exact K|]. cbn [fst]. apply kinv_flock; assumption.
  - destruct (desc_of k p f); [|exact K]. apply kinv_del, K.
  - destruct (negb (is_pindir k p p0)); [exact K|].
    destruct (ent_find n (k_ents k)) eqn:Hn; [exact K|].
    cbn [fst]. constructor; cbn [with_next with_dir with_ents k_fds k_ents k_next ent_find]; intros.
    + specialize (A _ _ H). lia.
    + destruct (bytes_eqb n0 n); [injection H as <-; lia|]. specialize (B _ _ H). lia.
    + destruct (name_eqb_spec n0 n) as [X|X]; destruct (name_eqb_spec m n) as [Y|Y]; try congruence.
      * injection H as <-. specialize (B _ _ H0). lia.
      * injection H0 as <-. specialize (B _ _ H). lia.
      * eapply C; eassumption.
    + specialize (D _ _ _ _ H). lia.
    + eapply E with (f := f) (g := g); eassumption.
  - destruct (negb (is_pindir k p p0)); [exact K|].
    destruct (ent_find n (k_ents k)) eqn:Hn; [|exact K].
    apply kinv_new_fd; [exact K|reflexivity|]. intros j m X. injection X as <- _. eapply B; eassumption.
  - destruct (dir_of k p f); exact K.
  - destruct (negb (is_pindir k p p0)); [exact K|]. destruct (ent_find n (k_ents k)); exact K.
  - destruct (negb (is_pindir k p p0)); [exact K|].
    destruct (ent_find a (k_ents k)) as [i|] eqn:Ha; [|exact K].
    destruct (ent_find b (k_ents k)) eqn:Hb; [exact K|]. cbn [fst].
    apply kinv_ents; [exact K| |]; intros; cbn [ent_find] in *; rewrite ?ent_find_del in *.
    + destruct (bytes_eqb n b); [injection H as <-; eapply B; eassumption|].
      destruct (bytes_eqb n a); [discriminate|]. eapply B; eassumption.
    + destruct (name_eqb_spec n b) as [X|X]; destruct (name_eqb_spec m b) as [Y|Y]; try congruence.
      * injection H as <-. destruct (name_eqb_spec m a) as [Z|Z]; [discriminate|].
        exfalso. apply Z. eapply C; eassumption.
      * injection H0 as <-. destruct (name_eqb_spec n a) as [Z|Z]; [discriminate|].
        exfalso. apply Z. eapply C; eassumption.
      * destruct (bytes_eqb n a); [discriminate|]. destruct (bytes_eqb m a); [discriminate|].
        eapply C; eassumption.
  - destruct (negb (is_pindir k p p0)); [exact K|].
    destruct (ent_find n (k_ents k)); [|exact K]. destruct (k_dirs k i); [|exact K]. cbn [fst].
    apply kinv_ents; [exact K| |]; intros; rewrite ?ent_find_del in *.
    + destruct (bytes_eqb n0 n); [discriminate|]. eapply B; eassumption.
    + destruct (bytes_eqb n0 n); [discriminate|]. destruct (bytes_eqb m n); [discriminate|]. eapply C; eassumption.
  - destruct (is_pindir k p p0); exact K.
  - destruct (dir_of k p d); exact K.
  - destruct (dir_of k p d); [|exact K]. destruct (pin_find p0 (k_dirs k i)); [|exact K].
    apply (kinv_same k); cbn; auto. lia.
  - destruct (dir_of k p d); [|exact K]. destruct (pin_find a (k_dirs k i)); [|exact K].
    apply (kinv_same k); cbn; auto. lia.
  - destruct (dir_of k p d); [|exact K]. destruct (oid_of k p o); [|exact K].
    destruct (pin_find p0 (k_dirs k i)); [exact K|].
    apply (kinv_same k); cbn; auto. lia.
  - destruct (dir_of k p d); [|exact K]. destruct (pin_find p0 (k_dirs k i)); [|exact K].
    apply kinv_new_fd; [exact K|reflexivity|discriminate].
  - destruct o; try exact K; apply kinv_new_obj, K.
  - destruct (obj_of k p f) as [[o []]|]; try exact K. apply (kinv_same k); cbn; auto. lia.
  - destruct (obj_of k p f) as [[o []]|]; exact K.
  - destruct (obj_of k p f) as [[o []]|]; try exact K. apply (kinv_same k); cbn; auto. lia.
  - destruct (obj_of k p f) as [[o [| | |[?|]| |]]|]; exact K.
  - destruct (obj_of k p f) as [[o []]|]; try exact K. destruct (i <? n); exact K.
  - destruct (obj_of k p f) as [[o []]|]; try exact K. destruct (i <? n); [|exact K].
    apply (kinv_same k); cbn; auto. lia.
  - destruct (all_some (oid_of k p) sets); [|exact K]. destruct (oid_of k p cmap); [|exact K].
    apply kinv_new_obj, K.
  - apply kinv_new_fd; [exact K|reflexivity|discriminate].
  - destruct (obj_of k p prog) as [[o []]|]; try exact K. apply kinv_new_obj, K.
  - destruct (obj_of k p l) as [[o [| | | | |h t po []]]|]; try exact K.
    + destruct (obj_of k p prog); exact K.
    + destruct (obj_of k p prog) as [[? []]|]; try exact K. apply (kinv_same k); cbn; auto. lia.
  - destruct (obj_of k p l) as [[o []]|]; try exact K. apply (kinv_same k); cbn; auto. lia.
  - destruct (oid_of k p f); [|exact K]. apply kinv_new_fd; [exact K|reflexivity|discriminate].
Qed.

Lemma ksys_kinv k p c d : kinv k -> kinv (fst (ksys k p c d)).
Proof.
  intros K. destruct d as [|e|s]; cbn [ksys]; try apply kdo_kinv, K.
  destruct (can_fail c); [exact K|apply kdo_kinv, K].
Qed.
