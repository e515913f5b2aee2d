(** Sets: reading a tree, and the round trip. *)
From Coq Require Import String NArith ZArith List Bool Arith Lia.
From Verif Require Import Bytes Types GenModel BytesFacts ChainModel NewSpec NewFacts ListSpec ListModel ListFacts HashSpec HashModel HashFacts HashFacts2 VecModel VecFacts
  StrModel EnumModel EnumFacts SetModel SetSpec SetApiFacts SetApiFacts2 PackModel PackSpec PackFacts.
Import ListNotations.
Local Open Scope list_scope.
Local Open Scope N_scope.
Local Open Scope res_scope.

(** ** The key. *)
Lemma unpack_key_ok l : forall room ks, unpack_key room l = Ok ks <->
  (length l <= room)%nat /\ Forall2 (fun c t => is_enum 31 c (mtype_id t)) l ks.
Proof.
  induction l as [|n l IH]; intros room ks; cbn [unpack_key].
  - split; [intros H; injection H as <-; split; [cbn; lia|constructor]|intros (_ & H); inversion H; reflexivity].
  - destruct room as [|room]; [split; [discriminate|intros (H & _); cbn in H; lia]|]. split.
    + intros H. binv H. binv H. binv H. apply Ok_inj in H as <-. apply rd_enum_iff in E; [|apply le31; lia].
      apply enum_of_mtype in E0. subst. apply IH in E1 as (H1 & H2). split; [cbn; lia|]. constructor; auto.
    + intros (H & F). inversion F as [|? t ? ts F1 F2]; subst. apply (rd_enum_iff 31) in F1; [|apply le31; lia]. rewrite F1. cbn [bind].
      assert (enum_of (mtype_of_id (mtype_id t)) = Ok t) as -> by now apply enum_of_mtype. cbn [bind].
      assert (unpack_key room l = Ok ts) as ->; [|reflexivity]. apply IH. split; [cbn in H; lia|auto].
Qed.

(** ** The elements. *)
Definition step1 (l : list (list N)) (e : list N) := if In_bytes l e then l else l ++ [e].

Lemma unpack_elems_ok nd tb el : forall i u l, urep u l ->
  (forall u', unpack_elems nd tb i u el = Ok u' ->
     exists es l', el = map NBin es /\ Forall (fun e => length e = u_esize u) es /\ urep u' l' /\
       same_shape u' u /\ map snd l' = fold_left step1 es (map snd l)) /\
  (forall es, el = map NBin es -> Forall (fun e => length e = u_esize u) es ->
     (exists u', unpack_elems nd tb i u el = Ok u') \/ unpack_elems nd tb i u el = Er ENOMEM).
Proof.
  induction el as [|n el IH]; intros i u l R; cbn [unpack_elems].
  - split.
    + intros u' H. apply Ok_inj in H as <-. exists [], l. split; [reflexivity|]. split; [constructor|]. split; [auto|]. split; [apply shape_refl|reflexivity].
    + intros es _ _. left. eauto.
  - split.
    + intros u' H. binv H. rename a into e. apply rd_bin_iff in E as ->. destruct (Nat.eqb_spec (length e) (u_esize u)) as [He|He]; [|discriminate H].
      cbn [negb] in H. destruct (set_add_sized true (nd i) tb u l e R He) as (u1 & rc & l1 & E & R1 & K1 & K2 & K3 & K4 & C).
      rewrite E in H. cbn [bind fst snd] in H. destruct (N.eqb_spec rc 0) as [Hr|Hr]; [subst rc|discriminate H].
      destruct (IH (S i) u1 l1 R1) as (A & _). destruct (A u' H) as (es & l' & -> & F & R' & (S1 & S2 & S3 & S4) & M).
      exists (e :: es), l'. split; [reflexivity|]. rewrite K2 in F. split; [constructor; auto|]. split; [auto|].
      split; [unfold same_shape; intuition congruence|]. cbn [fold_left]. rewrite M. f_equal. unfold step1.
      destruct C as [(_ & -> & ->)|[(_ & -> & p & ->)|(X & _)]]; [reflexivity|rewrite map_app; reflexivity|discriminate X].
    + intros es Es F. destruct es as [|e es]; [discriminate Es|]. cbn [map] in Es. injection Es as -> ->. inversion F as [|? ? He F']; subst.
      cbn [rd_bin bind]. rewrite He, Nat.eqb_refl. cbn [negb].
      destruct (set_add_sized true (nd i) tb u l e R He) as (u1 & rc & l1 & E & R1 & K1 & K2 & K3 & K4 & C).
      rewrite E. cbn [bind fst snd]. destruct (N.eqb_spec rc 0) as [Hr|Hr]; [subst rc|].
      * destruct (IH (S i) u1 l1 R1) as (_ & B). apply (B es); auto. now rewrite K2.
      * right. destruct C as [(X & _)|[(X & _)|(-> & _)]]; congruence.
Qed.

(** With a generous allocator. *)
Lemma elems_le_used s l n : hr n s l -> l_len (h_list s) <= h_used s.
Proof.
  intros R. rewrite (rep_len _ _ (hr_list _ _ _ _ R)), (hr_used _ _ _ _ R), <- (t_elems _ _ _ _ (hr_table _ _ _ _ R)). apply elem_le_used.
Qed.

Lemma mul64_le a b : mul64 a b <= a * b.
Proof. unfold mul64. apply N.mod_le. unfold two64. discriminate. Qed.

Lemma insert_small nd (s : hset (list N)) x f (s' : hset (list N)) rc : insert nd s x f = Ok (s', rc) -> h_cap s' = h_cap s /\ h_used s' <= h_used s + 1.
Proof.
  unfold insert. destruct (malloc _ nd) as [p|].
  2:{ intros H. inversion H; subst. split; [reflexivity|lia]. }
  intros H. binv H. binv H. binv H. inversion H. cbn [h_cap h_used]. split; [reflexivity|]. destruct a0; lia.
Qed.

Lemma hadd_small n nd tb s l x s' rc : hr n s l -> hadd (elem_eqb n) (elem_hash n) nd tb s x = Ok (s', rc) ->
  h_used s' <= h_used s + 1 /\ (h_cap s' = h_cap s \/ h_cap s' <= 16 + 4 * h_used s).
Proof.
  intros R. unfold hadd. intros H. binv H. destruct (fst a) as [i|].
  { inversion H; subst. split; [lia|auto]. }
  destruct (MAX_CAP <=? _). { inversion H; subst. split; [lia|auto]. }
  rewrite (needs_grow_ok _ _ s l R) in H. destruct (N.leb_spec (h_cap s) (2 * h_used s)) as [Hg|Hg].
  - binv H. unfold grow in E0. assert (G : fst a0 = s \/ (h_used (fst a0) <= h_used s /\ h_cap (fst a0) <= 16 + 4 * h_used s)).
    { destruct (MAX_CAP <=? h_cap s). { inversion E0; auto. }
      unfold resize in E0. match type of E0 with context[if ?b then _ else _] => destruct b end. { inversion E0; auto. }
      match type of E0 with context[negb ?b] => destruct (negb b) end. { inversion E0; auto. }
      binv E0. inversion E0. right. cbn [fst h_used h_cap]. split; [eapply elems_le_used; eauto|].
      destruct (h_cap s =? 0); [unfold INIT_CAP; lia|]. pose proof (mul64_le (h_cap s) 2). lia. }
    destruct (snd a0 =? 0).
    + binv H. destruct G as [G|(G1 & G2)].
      * rewrite G in *. destruct (fst a1). { inversion H; subst. split; [lia|auto]. }
        apply insert_small in H as (-> & H2). split; [lia|auto].
      * destruct (fst a1). { inversion H; subst. split; [lia|auto]. }
        apply insert_small in H as (-> & H2). split; [lia|right; lia].
    + inversion H; subst a0. cbn [fst] in G. destruct G as [G|(G1 & G2)]; [subst; split; [lia|auto]|]. split; [lia|auto].
  - apply insert_small in H as (-> & H2). split; [lia|auto].
Qed.

Lemma add_small nd tb u l e u' rc : urep u l -> length e = u_esize u -> set_add_elem true nd tb u e = Ok (u', rc) ->
  h_used (u_elems u') <= h_used (u_elems u) + 1 /\
  (h_cap (u_elems u') = h_cap (u_elems u) \/ h_cap (u_elems u') <= 16 + 4 * h_used (u_elems u)).
Proof.
  intros R He. unfold set_add_elem. cbn [negb]. rewrite copy_out_all by (unfold nlen; now rewrite He). cbn [bind].
  intros H. binv H. inversion H; subst. cbn [u_elems with_elems]. destruct a as [s' r]. eapply hadd_small; [exact (ur_rep _ _ R)|exact E].
Qed.

Lemma set_add_generous nd tb u l e : urep u l -> length e = u_esize u -> (exists a, nd = Some a /\ ~ In a (map fst l)) ->
  (forall n, tb n = true) -> h_cap (u_elems u) < MAX_CAP ->
  exists u' l', set_add_elem true nd tb u e = Ok (u', 0) /\ urep u' l' /\
    (l' = l \/ exists a, nd = Some a /\ l' = l ++ [(a, e)]).
Proof.
  intros R He (a & -> & Ha) Ht Hc. unfold set_add_elem. cbn [negb].
  rewrite copy_out_all by (unfold nlen; now rewrite He). cbn [bind].
  destruct (hadd_ok (elem_eqb (u_esize u)) (elem_hash (u_esize u)) (elem_good _) (Some a) tb (u_elems u) l e (ur_rep _ _ R))
    as (s' & rc & l' & E & R' & C).
  rewrite E. cbn [bind fst snd].
  assert (urep (with_elems u s') l') as W.
  { constructor; cbn [u_esize u_elems u_key with_elems]; [exact R'| |exact (ur_key _ _ R)].
    destruct C as [(_ & -> & _)|[(_ & -> & _)|(_ & _ & p & _ & ->)]]; try exact (ur_sized _ _ R).
    apply Forall_app. split; [exact (ur_sized _ _ R)|]. constructor; [exact He|constructor]. }
  exists (with_elems u s'), l'. destruct C as [(-> & -> & _)|[(_ & _ & _ & C)|(-> & _ & p & U & ->)]].
  - split; [reflexivity|]. auto.
  - exfalso. unfold usable in C. change (handles l) with (map fst l) in C.
    destruct (in_dec Nat.eq_dec a (map fst l)); [tauto|]. destruct C as [C|[(m & C)|C]]; [discriminate C|rewrite Ht in C; discriminate C|lia].
  - split; [reflexivity|]. split; [auto|]. right. exists a. split; [reflexivity|]. unfold usable in U.
    destruct (in_dec _ _ _); [discriminate U|]. congruence.
Qed.

Lemma unpack_elems_generous nd tb el : generous nd tb -> forall i u l, urep u l ->
  (forall a, In a (map fst l) -> exists j, (j < i)%nat /\ nd j = Some a) ->
  h_used (u_elems u) <= N.of_nat i -> h_cap (u_elems u) <= 16 + 4 * N.of_nat i -> 16 + 4 * N.of_nat (i + length el) < MAX_CAP ->
  unpack_elems nd tb i u el <> Er ENOMEM.
Proof.
  intros (G1 & G2 & G3). induction el as [|n el IH]; intros i u l R Hin Hu Hc Hk; cbn [unpack_elems]; [discriminate|].
  destruct (rd_bin n) as [e|x] eqn:Er; cbn [bind].
  2:{ intros H. injection H as ->. destruct n; discriminate Er. }
  destruct (Nat.eqb_spec (length e) (u_esize u)) as [He|He]; cbn [negb]; [|discriminate].
  cbn [length] in Hk.
  destruct (set_add_generous (nd i) tb u l e R He) as (u1 & l1 & E & R1 & C); [|auto|lia|].
  { destruct (G1 i) as (a & Ea). exists a. split; auto. intros Hi. destruct (Hin a Hi) as (j & Hj & Ej). assert (i = j) by (apply G2; congruence). lia. }
  pose proof (add_small _ _ _ _ _ _ _ R He E) as (B1 & B2).
  rewrite E. cbn [bind fst snd]. rewrite N.eqb_refl. apply (IH (S i) u1 l1 R1).
  - intros a Ha. assert (In a (map fst l) \/ nd i = Some a) as [Hl|Hl].
    { destruct C as [-> |(b & Eb & ->)]; [auto|]. rewrite map_app in Ha. apply in_app_iff in Ha as [Ha|[<-|[]]]; auto. }
    + destruct (Hin a Hl) as (j & Hj & Ej). exists j. split; [lia|auto].
    + exists i. split; [lia|auto].
  - lia.
  - destruct B2 as [-> |B2]; lia.
  - lia.
Qed.
