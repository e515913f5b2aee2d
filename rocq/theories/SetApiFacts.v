(** The set API refines finite sets of fixed-size byte strings. *)
From Coq Require Import NArith List Bool Arith Lia.
From Verif Require Import Bytes Types GenModel ListSpec ListModel ListFacts HashSpec HashModel HashFacts
  HashFacts2 VecModel VecFacts SetModel SetSpec.
Import ListNotations.
Local Open Scope res_scope.
Local Open Scope N_scope.

Lemma beqb_iff a : forall b, bytes_eqb a b = true <-> a = b.
Proof.
  induction a as [|x a IH]; intros [|y b]; cbn; try (split; congruence).
  rewrite andb_true_iff, N.eqb_eq, IH. split; [intros [-> ->]|intros E; inversion E]; auto.
Qed.

Lemma elem_good n : good_callbacks (elem_eqb n) (elem_hash n).
Proof.
  unfold elem_eqb, elem_hash. split; [|split; [|split]]; intros *; rewrite ?beqb_iff; try congruence.
Qed.

Lemma elem_eqb_sized n a b : length a = n -> length b = n -> elem_eqb n a b = bytes_eqb a b.
Proof.
  intros H1 H2. unfold elem_eqb. rewrite <- H1 at 1. rewrite <- H2. now rewrite !firstn_all.
Qed.

Definition sizedp (n : nat) (l : list (nat * list N)) : Prop :=
  Forall (fun e => length (snd e) = n) l.
Definition hr n := hrep (elem_eqb n) (elem_hash n).

Record urep (u : uset) (l : list (nat * list N)) : Prop := mkUR
  { ur_rep : hr (u_esize u) (u_elems u) l
  ; ur_sized : sizedp (u_esize u) l
  ; ur_key : key_size (u_key u) = Ok (u_esize u) }.

Lemma set_new_inv name key u : set_new name key = Ok u ->
  key_size key = Ok (u_esize u) /\ u_key u = key /\ u_elems u = hash_init (fun _ => None).
Proof.
  unfold set_new. destruct key as [|t r]; [discriminate|].
  destruct (8 <? length (t :: r))%nat; [discriminate|].
  destruct (key_size (t :: r)) as [n|]; [|discriminate]. cbn [bind].
  destruct ((1 <? length (t :: r))%nat && existsb is_net (t :: r)); [discriminate|].
  intros E. inversion E. now subst.
Qed.

Lemma urep_new name key u : set_new name key = Ok u -> urep u [].
Proof.
  intros E. destruct (set_new_inv _ _ _ E) as (E1 & E2 & E3).
  constructor.
  - rewrite E3. apply hrep_init. reflexivity.
  - constructor.
  - now rewrite E2.
Qed.

Lemma set_read_ok u l : urep u l -> set_read u = Ok (map snd l).
Proof.
  intros R. unfold set_read, hread.
  now rewrite (list_read_ok _ _ (hr_list _ _ _ _ (ur_rep _ _ R))).
Qed.

Lemma member_in n l e : sizedp n l -> length e = n ->
  member (elem_eqb n) (map snd l) e = In_bytes (map snd l) e.
Proof.
  intros H He. unfold member, In_bytes. induction H as [|x r Hx Hr IH]; [reflexivity|].
  cbn. rewrite IH. now rewrite elem_eqb_sized.
Qed.

Lemma copy_out_all (e : list N) n : nlen e = N.of_nat n -> copy_out e 0 (N.of_nat n) = Ok e.
Proof.
  intros H. pose proof (copy_out_mid [] e [] 0 (N.of_nat n) eq_refl (eq_sym H)) as C.
  cbn [app] in C. rewrite app_nil_r in C. exact C.
Qed.

(** One addition. *)
Lemma set_add_sized mem nd tb u l e : urep u l -> length e = u_esize u ->
  exists u' rc l', set_add_elem mem nd tb u e = Ok (u', rc) /\ urep u' l' /\
    u_key u' = u_key u /\ u_esize u' = u_esize u /\ u_trie u' = u_trie u /\ u_name u' = u_name u /\
    ((rc = 0 /\ In_bytes (map snd l) e = true /\ l' = l) \/
     (rc = 0 /\ In_bytes (map snd l) e = false /\ exists p, l' = l ++ [(p, e)]) \/
     (rc = ENOMEM /\ l' = l)).
Proof.
  intros R He. unfold set_add_elem. destruct mem; cbn [negb].
  2:{ exists u, ENOMEM, l. split; [reflexivity|]. split; [assumption|]. auto 10. }
  rewrite copy_out_all by (unfold nlen; now rewrite He). cbn [bind].
  destruct (hadd_ok (elem_eqb (u_esize u)) (elem_hash (u_esize u)) (elem_good _) nd tb (u_elems u) l e (ur_rep _ _ R))
    as (s' & rc & l' & E & R' & C).
  rewrite E. cbn [bind fst snd].
  rewrite member_in in C by (auto using ur_sized).
  eexists _, _, l'. split; [reflexivity|]. split.
  - constructor; cbn [u_esize u_elems u_key with_elems].
    + exact R'.
    + destruct C as [(_ & -> & _)|[(_ & -> & _)|(_ & _ & p & _ & ->)]]; try exact (ur_sized _ _ R).
      apply Forall_app. split; [exact (ur_sized _ _ R)|]. constructor; [exact He|constructor].
    + exact (ur_key _ _ R).
  - split; [reflexivity|]. split; [reflexivity|]. split; [reflexivity|]. split; [reflexivity|].
    destruct C as [(-> & -> & M)|[(-> & -> & M & _)|(-> & M & p & _ & ->)]].
    + left. auto.
    + right. right. auto.
    + right. left. split; [reflexivity|]. split; [assumption|]. eauto.
Qed.

(** Whatever the caller's buffer, a returning call keeps the set well formed. *)
Lemma set_add_any mem nd tb u l e u' rc : urep u l -> set_add_elem mem nd tb u e = Ok (u', rc) ->
  exists l', urep u' l'.
Proof.
  intros R E. assert (H : exists e', length e' = u_esize u /\ set_add_elem mem nd tb u e' = Ok (u', rc) \/ u' = u).
  { unfold set_add_elem in E. destruct mem; cbn [negb] in E; [|inversion E; exists []; now right].
    destruct (copy_out e 0 (N.of_nat (u_esize u))) as [e'|] eqn:Ee; [|discriminate E].
    unfold copy_out in Ee. destruct (N.leb_spec (0 + N.of_nat (u_esize u)) (N.of_nat (length e))); [|discriminate Ee].
    inversion Ee as [Ee']. cbn [N.to_nat skipn] in Ee'. rewrite Nat2N.id in Ee'.
    exists e'. left. assert (Hl : length e' = u_esize u) by (rewrite <- Ee', firstn_length; lia).
    split; [assumption|]. unfold set_add_elem. cbn [negb].
    rewrite copy_out_all by (unfold nlen; now rewrite Hl). rewrite <- Ee' in E. rewrite <- Ee'. exact E. }
  destruct H as (e' & [[He H]| ->]); [|eauto].
  destruct (set_add_sized mem nd tb u l e' R He) as (u1 & rc1 & l1 & E1 & R1 & _).
  rewrite H in E1. inversion E1; subst. eauto.
Qed.

Lemma set_reserve_ok tb n u l u' rc : urep u l -> set_reserve tb u n = Ok (u', rc) ->
  urep u' l /\ u_key u' = u_key u.
Proof.
  intros R E. unfold set_reserve in E.
  destruct (hreserve_ok (elem_eqb (u_esize u)) (elem_hash (u_esize u)) tb (u_elems u) l n (ur_rep _ _ R))
    as (s' & rc' & E' & R' & _).
  rewrite E' in E. cbn in E. inversion E; subst. split; [|reflexivity].
  constructor; cbn [u_esize u_elems u_key with_elems]; [exact R'|exact (ur_sized _ _ R)|exact (ur_key _ _ R)].
Qed.

(** *** Bulk operations *)
Lemma htake_head n s a d r : hr n s ((a, d) :: r) ->
  exists s', htake (elem_eqb n) (elem_hash n) s d = Ok (s', 0, Some d) /\ hr n s' r.
Proof.
  intros R. pose proof (elem_good n) as G.
  destruct (hfind_cases _ _ G s _ d R) as (f & E & S).
  assert (Hdd : elem_eqb n d d = true) by (destruct G as (H & _); apply H).
  unfold htake. rewrite E. cbn [bind]. destruct (fst f) as [i|].
  2:{ destruct S as [S _]. rewrite (S a d) in Hdd; [discriminate|now left]. }
  destruct S as (a' & d' & Hi & Es & Hin & Ed).
  assert ((a', d') = (a, d)) as Eq.
  { destruct Hin as [Hin|Hin]; [now symmetry|]. exfalso.
    pose proof (hr_dist _ _ _ _ R) as D. cbn [map snd] in D. destruct D as [D _].
    destruct G as (_ & Gs & _). apply Gs in Ed. rewrite (D d') in Ed; [discriminate|].
    apply in_map_iff. now exists (a', d'). }
  inversion Eq; subst a' d'. clear Eq Hin Ed.
  destruct (hunlink_ok _ _ G s [] a d r i R Hi Es) as (s' & E' & R'). exists s'.
  assert (Hsd : slot_data s i = Ok d).
  { unfold slot_data. rewrite get_slot_ok, Es by (now rewrite (t_size _ _ _ _ (hr_table _ _ _ _ R))).
    cbn [bind]. destruct (seg_in _ _ _ _ a d (rep_seg _ _ (hr_list _ _ _ _ R)) (or_introl eq_refl)) as (q & q' & Eq).
    now rewrite (ld_some _ _ _ Eq). }
  rewrite Hsd. cbn [bind]. rewrite E'. cbn [bind]. split; [reflexivity|exact R'].
Qed.

Lemma in_bytes_app l a e : In_bytes (l ++ a) e = In_bytes l e || In_bytes a e.
Proof. unfold In_bytes. apply existsb_app. Qed.

Lemma hadd_sized n nd tb s l d : hr n s l -> sizedp n l -> length d = n ->
  exists s' rc l', hadd (elem_eqb n) (elem_hash n) nd tb s d = Ok (s', rc) /\ hr n s' l' /\ sizedp n l' /\
    ((rc = EEXIST /\ map snd l' = union (map snd l) [d]) \/ (rc = ENOMEM /\ l' = l) \/
     (rc = 0 /\ map snd l' = union (map snd l) [d])).
Proof.
  intros R S Hd. destruct (hadd_ok _ _ (elem_good n) nd tb s l d R) as (s' & rc & l' & E & R' & C).
  exists s', rc, l'. split; [assumption|]. split; [assumption|].
  rewrite member_in in C by assumption. unfold union. cbn [filter].
  destruct C as [(-> & -> & M)|[(-> & -> & M & _)|(-> & M & p & _ & ->)]].
  - split; [assumption|]. left. rewrite M. cbn. now rewrite app_nil_r.
  - split; [assumption|]. right. left. auto.
  - split; [apply Forall_app; split; [assumption|]; constructor; [assumption|constructor]|].
    right. right. rewrite M. cbn. now rewrite map_app.
Qed.

Lemma union_snoc l before d : In_bytes before d = false ->
  union (union l before) [d] = union l (before ++ [d]).
Proof.
  intros H. unfold union. rewrite filter_app, app_assoc. f_equal. cbn [filter].
  rewrite in_bytes_app.
  assert (In_bytes (filter (fun e => negb (In_bytes l e)) before) d = false) as ->.
  { unfold In_bytes in *. clear -H. induction before as [|x r IH]; [reflexivity|].
    cbn in H. apply orb_false_iff in H as [H1 H2]. cbn. destruct (negb _); cbn; [rewrite H1|]; auto. }
  now rewrite orb_false_r.
Qed.

Lemma distinct_bytes n l1 d l2 : sizedp n (l1 ++ (d :: l2)) ->
  distinct (elem_eqb n) (map snd (l1 ++ d :: l2)) -> In_bytes (map snd l1) (snd d) = false.
Proof.
  intros S D. rewrite map_app in D. cbn [map] in D.
  destruct (distinct_app_inv _ _ (elem_good n) _ _ _ D) as [_ H].
  apply not_true_is_false. intros C. apply existsb_exists in C as (y & Hy & Ey).
  apply Forall_app in S as [S1 S2]. inversion S2 as [|? ? S3 S4]; subst.
  assert (Hy2 : elem_eqb (length (snd d)) y (snd d) = false).
  { apply H. apply in_app_iff. now left. }
  rewrite elem_eqb_sized in Hy2; [congruence| |reflexivity].
  apply in_map_iff in Hy as (z & <- & Hz). rewrite Forall_forall in S1. now apply S1.
Qed.

Lemma same_types_eq a : forall b, same_types a b = true <-> a = b.
Proof.
  induction a as [|x a IH]; intros [|y b]; cbn; try (split; congruence).
  destruct (mtype_eq_dec x y) as [->|Hn]; cbn.
  - rewrite IH. split; [congruence|intros E; now inversion E].
  - split; [discriminate|intros E; now inversion E].
Qed.
Lemma same_key_iff a b : same_key a b = true <-> u_key a = u_key b.
Proof.
  unfold same_key. rewrite andb_true_iff, Nat.eqb_eq, same_types_eq.
  split; [tauto|intros ->; auto].
Qed.

Lemma urep_same d s l m : urep d l -> urep s m -> u_key d = u_key s -> u_esize d = u_esize s.
Proof. intros R1 R2 E. pose proof (ur_key _ _ R1). pose proof (ur_key _ _ R2). congruence. Qed.

Lemma set_add_many_ok nd tb dest src l m : urep dest l -> urep src m ->
  exists dest' left rc l', set_add_many nd tb dest src = Ok (dest', left, rc) /\ urep dest' l' /\
    u_key dest' = u_key dest /\
    (forall s', left = Some s' -> exists m', urep s' m') /\
    ((rc = EINVAL /\ u_key dest <> u_key src /\ dest' = dest /\ left = Some src) \/
     (u_key dest = u_key src /\
      ((rc = 0 /\ left = None /\ map snd l' = union (map snd l) (map snd m)) \/
       (rc = ENOMEM /\ exists m1 m2, m = m1 ++ m2 /\ map snd l' = union (map snd l) (map snd m1))))).
Proof.
  intros RD RS. unfold set_add_many. destruct (same_key dest src) eqn:K; cbn [negb].
  2:{ exists dest, (Some src), EINVAL, l. split; [reflexivity|]. split; [assumption|]. split; [reflexivity|].
      split; [intros s' E; inversion E; subst; eauto|]. left. split; [reflexivity|]. split; [|auto].
      intros C. apply same_key_iff in C. congruence. }
  apply same_key_iff in K. pose proof (urep_same _ _ _ _ RD RS K) as Hsz.
  pose proof (ur_rep _ _ RS) as HS. pose proof (ur_rep _ _ RD) as HD.
  pose proof (ur_sized _ _ RS) as SS. pose proof (ur_sized _ _ RD) as SD.
  rewrite <- Hsz in HS, SS. set (n := u_esize dest) in *.
  destruct (foreach_rel (fun st : hset (list N) * hset (list N) * N => l_mem (h_list (snd (fst st))))
      (add_round n nd tb)
      (fun todo st => exists m1 l', hr n (fst (fst st)) l' /\ sizedp n l' /\
         ((snd st = 0 /\ m = m1 ++ todo /\ hr n (snd (fst st)) todo /\
           map snd l' = union (map snd l) (map snd m1)) \/
          (snd st = ENOMEM /\ exists m2 mleft, m = m1 ++ m2 /\ hr n (snd (fst st)) mleft /\ sizedp n mleft /\
           map snd l' = union (map snd l) (map snd m1)))))
    with (l := m) (fuel := rounds (h_list (u_elems src))) (s := (u_elems dest, u_elems src, 0)) (p := @None nat)
    as (st & E & m1 & l' & H1 & H2 & H3).
  - intros [a d] r [[dst sr] rc] p Hs (m1 & l' & Hl' & Hsl & C) Hn. cbn [fst snd] in *.
    destruct C as [(-> & Em & Hsr & Eu)|(-> & C)].
    + cbn [add_round N.eqb negb]. unfold add_round. cbn [N.eqb negb].
      destruct Hs as [Hs1 Hs2]. cbn [fst snd] in Hs1, Hs2.
      rewrite (ld_some _ _ _ Hs1). cbn [bind nd_data].
      destruct (htake_head n sr a d r Hsr) as (sr' & Et & Hsr'). rewrite Et. cbn [bind].
      assert (Hd : length d = n).
      { rewrite Em in SS. apply Forall_app in SS as [_ SS]. now inversion SS. }
      assert (Hnew : In_bytes (map snd m1) d = false).
      { pose proof (hr_dist _ _ _ _ HS) as D. rewrite Em in SS, D. exact (distinct_bytes n m1 (a, d) r SS D). }
      destruct (hadd_sized n (nd a) tb dst l' d Hl' Hsl Hd) as (ds & rc & l2 & Ea & Hl2 & Sl2 & C).
      rewrite Ea. cbn [bind fst snd].
      assert (Eu2 : map snd l2 = union (map snd l') [d] -> map snd l2 = union (map snd l) (map snd (m1 ++ [(a, d)]))).
      { intros ->. rewrite Eu, map_app. cbn [map snd]. now apply union_snoc. }
      eexists. split; [reflexivity|]. cbn [fst snd]. split.
      * destruct C as [(-> & C)|[(-> & ->)|(-> & C)]].
        -- exists (m1 ++ [(a, d)]), l2. split; [assumption|]. split; [assumption|]. left.
           split; [reflexivity|]. split; [now rewrite <- app_assoc|]. auto.
        -- exists m1, l'. split; [assumption|]. split; [assumption|]. right. split; [reflexivity|].
           exists ((a, d) :: r), r. split; [assumption|]. split; [assumption|].
           split; [|assumption]. rewrite Em in SS. apply Forall_app in SS as [_ SS]. now inversion SS.
        -- exists (m1 ++ [(a, d)]), l2. split; [assumption|]. split; [assumption|]. left.
           split; [reflexivity|]. split; [now rewrite <- app_assoc|]. auto.
      * exists None. exact (rep_seg _ _ (hr_list _ _ _ _ Hsr')).
    + unfold add_round. cbn [N.eqb negb ENOMEM]. eexists. split; [reflexivity|]. cbn [fst snd]. split.
      * exists m1, l'. split; [assumption|]. split; [assumption|]. right. split; [reflexivity|]. exact C.
      * exists (Some a). exact (proj2 Hs).
  - exact (rounds_gt _ _ (hr_list _ _ _ _ HS)).
  - exact (rep_seg _ _ (hr_list _ _ _ _ HS)).
  - exact (rep_nodup _ _ (hr_list _ _ _ _ HS)).
  - cbn [fst snd]. exists [], l. split; [assumption|]. split; [assumption|]. left.
    split; [reflexivity|]. split; [reflexivity|]. split; [assumption|].
    unfold union. cbn. now rewrite app_nil_r.
  - rewrite (rep_head _ _ (hr_list _ _ _ _ HS)). rewrite E. cbn [bind].
    destruct st as [[d s] rc]. cbn [fst snd] in *.
    assert (UD : urep (with_elems dest d) l').
    { constructor; cbn [u_esize u_elems u_key with_elems]; [exact H1|exact H2|exact (ur_key _ _ RD)]. }
    destruct H3 as [(-> & Em & Hs & Eu)|(-> & m2 & ml & Em & Hs & Sm & Eu)].
    + cbn [N.eqb]. eexists _, _, _, l'. split; [reflexivity|]. split; [exact UD|]. split; [reflexivity|].
      split; [discriminate|]. right. split; [assumption|]. left. rewrite app_nil_r in Em. subst m1. auto.
    + cbn [N.eqb ENOMEM]. eexists _, _, _, l'. split; [reflexivity|]. split; [exact UD|]. split; [reflexivity|].
      split.
      * intros s' Es. inversion Es; subst. exists ml.
        constructor; cbn [u_esize u_elems u_key with_elems]; rewrite <- Hsz; [exact Hs|exact Sm|].
        rewrite Hsz. exact (ur_key _ _ RS).
      * right. split; [assumption|]. right. split; [reflexivity|]. eauto.
Qed.

Lemma minus_difference n l d : sizedp n l -> length d = n ->
  minus (elem_eqb n) (map snd l) d = difference (map snd l) [d].
Proof.
  intros S Hd. unfold minus, difference. induction S as [|x r Hx Hr IH]; [reflexivity|].
  cbn. rewrite IH. rewrite elem_eqb_sized by assumption. rewrite orb_false_r.
  assert (bytes_eqb (snd x) d = bytes_eqb d (snd x)) as ->; [|reflexivity].
  destruct (bytes_eqb (snd x) d) eqn:E1, (bytes_eqb d (snd x)) eqn:E2; auto.
  - apply beqb_iff in E1. subst. rewrite (proj2 (beqb_iff _ _) eq_refl) in E2. discriminate.
  - apply beqb_iff in E2. rewrite <- E2 in E1. rewrite (proj2 (beqb_iff _ _) eq_refl) in E1. discriminate.
Qed.
Lemma difference_snoc l a d : difference (difference l a) [d] = difference l (a ++ [d]).
Proof.
  unfold difference. induction l as [|x r IH]; [reflexivity|]. cbn [filter].
  rewrite in_bytes_app. destruct (In_bytes a x); cbn [negb orb filter]; [assumption|].
  destruct (negb (In_bytes [d] x)); [f_equal|]; exact IH.
Qed.
Lemma difference_none l d : In_bytes l d = false -> difference l [d] = l.
Proof.
  unfold difference. induction l as [|x r IH]; [reflexivity|]. intros H.
  change (bytes_eqb x d || In_bytes r d = false) in H.
  apply orb_false_iff in H as [H1 H2]. cbn [filter].
  assert (In_bytes [d] x = false) as ->.
  { unfold In_bytes. cbn [existsb]. rewrite orb_false_r.
    apply not_true_is_false. intros C. apply beqb_iff in C. subst.
    rewrite (proj2 (beqb_iff _ _) eq_refl) in H1. discriminate H1. }
  cbn [negb]. f_equal. now apply IH.
Qed.

Lemma hdelete_sized n s l d : hr n s l -> sizedp n l -> length d = n ->
  exists s' rc fr l', hdelete (elem_eqb n) (elem_hash n) s d = Ok (s', rc, fr) /\ hr n s' l' /\ sizedp n l' /\
    (rc = 0 \/ rc = ENOENT) /\ map snd l' = difference (map snd l) [d].
Proof.
  intros R S Hd. pose proof (elem_good n) as G.
  destruct (remove_ok _ _ G s l d R) as (r & E & C). unfold hdelete. rewrite E. cbn [bind].
  destruct (fst r) as [i|].
  - destruct C as (y & s' & l' & E1 & E2 & R' & Hin & Ey & Em). rewrite E1. cbn [bind]. rewrite E2. cbn [bind].
    exists s', 0, [y], l'. split; [reflexivity|]. split; [assumption|].
    rewrite minus_difference in Em by assumption. split; [|split; [auto|assumption]].
    apply Forall_forall. intros e He. apply (in_map snd) in He. rewrite Em in He.
    unfold difference in He. apply filter_In in He as [He _].
    apply in_map_iff in He as (z & Ez & Hz). rewrite <- Ez. exact (proj1 (Forall_forall _ _) S z Hz).
  - exists s, ENOENT, [], l. split; [reflexivity|]. split; [assumption|]. split; [assumption|]. split; [auto|].
    symmetry. apply difference_none. now rewrite <- (member_in n).
Qed.

Lemma set_remove_many_ok dest src l m : urep dest l -> urep src m ->
  exists dest' left rc l', set_remove_many dest src = Ok (dest', left, rc) /\ urep dest' l' /\
    u_key dest' = u_key dest /\
    (forall s', left = Some s' -> exists m', urep s' m') /\
    ((rc = EINVAL /\ u_key dest <> u_key src /\ dest' = dest /\ left = Some src) \/
     (u_key dest = u_key src /\ rc = 0 /\ left = None /\
      map snd l' = difference (map snd l) (map snd m))).
Proof.
  intros RD RS. unfold set_remove_many. destruct (same_key dest src) eqn:K; cbn [negb].
  2:{ exists dest, (Some src), EINVAL, l. split; [reflexivity|]. split; [assumption|]. split; [reflexivity|].
      split; [intros s' E; inversion E; subst; eauto|]. left. split; [reflexivity|]. split; [|auto].
      intros C. apply same_key_iff in C. congruence. }
  apply same_key_iff in K. pose proof (urep_same _ _ _ _ RD RS K) as Hsz.
  pose proof (ur_rep _ _ RS) as HS. pose proof (ur_rep _ _ RD) as HD.
  pose proof (ur_sized _ _ RS) as SS. pose proof (ur_sized _ _ RD) as SD.
  rewrite <- Hsz in HS, SS. set (n := u_esize dest) in *.
  destruct (foreach_rel (fun st : hset (list N) * hset (list N) * N => l_mem (h_list (snd (fst st))))
      (remove_round n)
      (fun todo st => exists m1 l', m = m1 ++ todo /\ snd st = 0 /\ snd (fst st) = u_elems src /\
         hr n (fst (fst st)) l' /\ sizedp n l' /\
         map snd l' = difference (map snd l) (map snd m1)))
    with (l := m) (fuel := rounds (h_list (u_elems src))) (s := (u_elems dest, u_elems src, 0)) (p := @None nat)
    as (st & E & m1 & l' & H1 & H2 & H3 & H4 & H5 & H6).
  - intros [a d] r [[dst sr] rc] p Hs (m1 & l' & Em & Erc & Esr & Hl' & Hsl & Eu) Hn. cbn [fst snd] in *. subst rc sr.
    destruct Hs as [Hs1 Hs2]. cbn [fst snd] in Hs1, Hs2.
    unfold remove_round. cbn [N.eqb negb].
    rewrite (ld_some _ _ _ Hs1). cbn [bind nd_data].
    assert (Hd : length d = n).
    { rewrite Em in SS. apply Forall_app in SS as [_ SS']. now inversion SS'. }
    destruct (hdelete_sized n dst l' d Hl' Hsl Hd) as (s' & rc & fr & l2 & Ed & R2 & S2 & Crc & Em2).
    rewrite Ed. cbn [bind]. eexists. split; [reflexivity|]. cbn [fst snd]. split.
    + exists (m1 ++ [(a, d)]), l2. split; [now rewrite <- app_assoc|].
      split; [destruct Crc as [->| ->]; reflexivity|]. split; [reflexivity|]. split; [assumption|]. split; [assumption|].
      rewrite Em2, Eu, map_app. apply difference_snoc.
    + eauto.
  - exact (rounds_gt _ _ (hr_list _ _ _ _ HS)).
  - exact (rep_seg _ _ (hr_list _ _ _ _ HS)).
  - exact (rep_nodup _ _ (hr_list _ _ _ _ HS)).
  - cbn [fst snd]. exists [], l. split; [reflexivity|]. split; [reflexivity|]. split; [reflexivity|].
    split; [assumption|]. split; [assumption|].
    unfold difference. cbn. induction (map snd l); cbn; [reflexivity|]. now f_equal.
  - rewrite (rep_head _ _ (hr_list _ _ _ _ HS)). rewrite E. cbn [bind].
    destruct st as [[d s] rc]. cbn [fst snd] in *. subst rc s.
    cbn [N.eqb]. eexists _, _, _, l'. split; [reflexivity|]. split.
    { constructor; cbn [u_esize u_elems u_key with_elems]; [exact H4|exact H5|exact (ur_key _ _ RD)]. }
    split; [reflexivity|]. split; [discriminate|]. right. split; [assumption|].
    rewrite app_nil_r in H1. subst m1. auto.
Qed.

Lemma reachable_urep u : set_reachable u -> exists l, urep u l.
Proof.
  induction 1 as [name key u E|mem nd tb u e u' rc _ [l R] E|tb n u u' rc _ [l R] E
    |nd tb u v u' v' rc _ [l R] _ [m S] E|nd tb u v u' v' rc _ [l R] _ [m S] E
    |u v u' v' rc _ [l R] _ [m S] E|u v u' v' rc _ [l R] _ [m S] E].
  - eexists. eapply urep_new. exact E.
  - eapply set_add_any; eassumption.
  - exists l. eapply set_reserve_ok; eassumption.
  - destruct (set_add_many_ok nd tb u v l m R S) as (d' & lf & rc' & l' & E' & R' & _).
    rewrite E in E'. inversion E'; subst. eauto.
  - destruct (set_add_many_ok nd tb u v l m R S) as (d' & lf & rc' & l' & E' & _ & _ & H & _).
    rewrite E in E'. inversion E'; subst. eauto.
  - destruct (set_remove_many_ok u v l m R S) as (d' & lf & rc' & l' & E' & R' & _).
    rewrite E in E'. inversion E'; subst. eauto.
  - destruct (set_remove_many_ok u v l m R S) as (d' & lf & rc' & l' & E' & _ & _ & H & _).
    rewrite E in E'. inversion E'; subst. eauto.
Qed.
