(** The hash set refines the insertion-ordered set. *)
From Coq Require Import NArith List Bool Arith Lia.
From Verif Require Import Bytes GenModel ListSpec ListModel ListFacts HashSpec HashModel.
Import ListNotations.
Local Open Scope res_scope.
Local Open Scope N_scope.

(** *** Slot arrays *)
Definition sat (l : list slot) (i : N) : slot := nth (N.to_nat i) l Empty.
Definition nonempty (v : slot) : bool := match v with Empty => false | _ => true end.
Definition is_elem (v : slot) : bool := match v with Elem _ => true | _ => false end.
Definition count (f : slot -> bool) (l : list slot) : N := N.of_nat (length (filter f l)).
Definition size (l : list slot) : N := N.of_nat (length l).

Lemma get_slot_ok l i : i < size l -> get_slot l i = Ok (sat l i).
Proof.
  intros H. unfold get_slot, sat, size in *.
  rewrite (nth_error_nth' l Empty) by lia. reflexivity.
Qed.

Lemma set_slot_split (l : list slot) i : i < size l ->
  exists l1 v l2, l = l1 ++ v :: l2 /\ length l1 = N.to_nat i.
Proof.
  intros H. unfold size in H.
  exists (firstn (N.to_nat i) l), (sat l i), (skipn (S (N.to_nat i)) l). split.
  - rewrite <- (firstn_skipn (N.to_nat i) l) at 1. f_equal.
    unfold sat. remember (N.to_nat i) as k. assert (Hk : (k < length l)%nat) by lia.
    clear - Hk. revert k Hk. induction l as [|a r IH]; intros k Hk; [cbn in Hk; lia|].
    destruct k as [|k]; cbn; [reflexivity|]. rewrite IH by (cbn in Hk; lia). reflexivity.
  - rewrite firstn_length. lia.
Qed.

Lemma set_slot_mid l1 v l2 i w : length l1 = N.to_nat i ->
  set_slot (l1 ++ v :: l2) i w = l1 ++ w :: l2.
Proof.
  intros E. unfold set_slot. rewrite <- E, firstn_app, skipn_app, firstn_all, skipn_all, Nat.sub_diag.
  cbn. now rewrite app_nil_r.
Qed.

Lemma set_slot_size l i w : i < size l -> size (set_slot l i w) = size l.
Proof.
  intros H. destruct (set_slot_split l i H) as (l1 & v & l2 & -> & E).
  rewrite set_slot_mid by assumption. unfold size. now rewrite !app_length.
Qed.

Lemma sat_set l i w j : i < size l -> sat (set_slot l i w) j = if j =? i then w else sat l j.
Proof.
  intros H. destruct (set_slot_split l i H) as (l1 & v & l2 & -> & E).
  rewrite set_slot_mid by assumption. unfold sat.
  destruct (N.eqb_spec j i) as [->|Hn].
  - rewrite app_nth2 by lia. now rewrite E, Nat.sub_diag.
  - destruct (Nat.lt_ge_cases (N.to_nat j) (length l1)).
    + now rewrite !app_nth1 by assumption.
    + rewrite !app_nth2 by assumption.
      destruct (N.to_nat j - length l1)%nat as [|k] eqn:Ek; [lia|reflexivity].
Qed.

Lemma count_set f l i w : i < size l ->
  count f (set_slot l i w) + (if f (sat l i) then 1 else 0) = count f l + (if f w then 1 else 0).
Proof.
  intros H. destruct (set_slot_split l i H) as (l1 & v & l2 & -> & E).
  rewrite set_slot_mid by assumption. unfold count, sat.
  rewrite app_nth2 by lia. rewrite E, Nat.sub_diag. cbn [nth].
  rewrite !filter_app, !app_length. cbn [filter].
  destruct (f v), (f w); cbn [length]; lia.
Qed.

Lemma count_le_size f l : count f l <= size l.
Proof.
  unfold count, size. induction l as [|a r IH]; cbn [filter]; [lia|].
  destruct (f a); cbn [length]; lia.
Qed.

Lemma count_mono f g l : (forall v, f v = true -> g v = true) -> count f l <= count g l.
Proof.
  intros H. unfold count. induction l as [|a r IH]; cbn; [lia|].
  destruct (f a) eqn:Ef; [rewrite (H a Ef)|destruct (g a)]; cbn [length]; lia.
Qed.

Lemma has_empty l : count nonempty l < size l -> exists i, i < size l /\ sat l i = Empty.
Proof.
  unfold count, size. induction l as [|a r IH]; cbn [filter length]; [lia|].
  destruct a; cbn [nonempty length]; intros H.
  - exists 0. split; [lia|reflexivity].
  - destruct IH as (i & Hi & E); [lia|]. exists (i + 1). split; [lia|].
    unfold sat in *. replace (N.to_nat (i + 1)) with (S (N.to_nat i)) by lia. exact E.
  - destruct IH as (i & Hi & E); [lia|]. exists (i + 1). split; [lia|].
    unfold sat in *. replace (N.to_nat (i + 1)) with (S (N.to_nat i)) by lia. exact E.
Qed.

Lemma count_repeat n : count nonempty (repeat Empty n) = 0 /\ count is_elem (repeat Empty n) = 0.
Proof. unfold count. induction n as [|n [IH1 IH2]]; cbn; auto. Qed.
Lemma size_repeat n : size (repeat Empty n) = N.of_nat n.
Proof. unfold size. now rewrite repeat_length. Qed.
Lemma sat_repeat n i : sat (repeat Empty n) i = Empty.
Proof.
  unfold sat. destruct (Nat.lt_ge_cases (N.to_nat i) n).
  - apply nth_repeat.
  - apply nth_overflow. now rewrite repeat_length.
Qed.

(** *** Probe sequences *)
Definition pos (cap h k : N) : N := (h + k) mod cap.
Lemma pos_lt cap h k : cap <> 0 -> pos cap h k < cap.
Proof. intros H. unfold pos. now apply N.mod_lt. Qed.
Lemma pos_0 cap h : cap <> 0 -> pos cap h 0 = h mod cap.
Proof. intros H. unfold pos. now rewrite N.add_0_r. Qed.
Lemma pos_next cap h k : cap <> 0 -> (pos cap h k + 1) mod cap = pos cap h (k + 1).
Proof. intros H. unfold pos. rewrite N.add_mod_idemp_l by assumption. f_equal. lia. Qed.
Lemma pos_cover cap h i : cap <> 0 -> i < cap -> exists j, j < cap /\ pos cap h j = i.
Proof.
  intros Hc Hi. exists ((i + cap - h mod cap) mod cap).
  split; [now apply N.mod_lt|]. unfold pos.
  pose proof (N.mod_lt h cap Hc) as Hm.
  rewrite N.add_mod_idemp_r by assumption.
  rewrite <- N.add_mod_idemp_l by assumption.
  replace (h mod cap + (i + cap - h mod cap)) with (i + 1 * cap) by lia.
  rewrite N.mod_add by assumption. now apply N.mod_small.
Qed.

(** *** The power of two *)
Lemma smear_le k v : v <= smear k v.
Proof.
  unfold smear. apply N.ldiff_le, N.bits_inj_0. intros n.
  rewrite N.ldiff_spec, N.lor_spec. now destruct (N.testbit v n), (N.testbit (N.shiftr v k) n).
Qed.
Lemma smear_lt k v m : v < 2 ^ m -> smear k v < 2 ^ m.
Proof.
  intros H. unfold smear.
  destruct (N.eq_dec v 0) as [->|Hv]; [now rewrite N.shiftr_0_l|].
  assert (Hl : N.log2 (N.lor v (N.shiftr v k)) < m \/ N.lor v (N.shiftr v k) = 0).
  { left. rewrite N.log2_lor. apply N.max_lub_lt.
    - apply N.log2_lt_pow2; [lia|assumption].
    - rewrite N.log2_shiftr. assert (N.log2 v < m) by (apply N.log2_lt_pow2; [lia|assumption]). lia. }
  destruct Hl as [Hl|E].
  - destruct (N.eq_dec (N.lor v (N.shiftr v k)) 0) as [E|E]; [lia|].
    apply N.log2_lt_pow2; [lia|assumption].
  - lia.
Qed.
Lemma smear_spec v i k : N.testbit (smear k v) i = N.testbit v i || N.testbit v (i + k).
Proof. unfold smear. now rewrite N.lor_spec, N.shiftr_spec by lia. Qed.

(** Every bit below the top one ends up set. *)
Lemma smear_all v w : v < two64 ->
  w = smear 32 (smear 16 (smear 8 (smear 4 (smear 2 (smear 1 v))))) ->
  v <> 0 -> w + 1 = 2 ^ (N.log2 v + 1).
Proof.
  intros Hv -> Hnz.
  set (m := N.log2 v).
  assert (Hm : m < 64).
  { apply N.log2_lt_pow2; [lia|]. exact Hv. }
  assert (Hw : smear 32 (smear 16 (smear 8 (smear 4 (smear 2 (smear 1 v))))) = N.ones (m + 1)).
  { apply N.bits_inj. intros i.
    destruct (N.ltb_spec i (m + 1)) as [Hi|Hi].
    - rewrite N.ones_spec_low by assumption.
      assert (Hb : N.testbit v m = true) by (apply N.bit_log2; assumption).
      assert (reach : forall u k, (forall j, m - (k - 1) <= j -> j <= m -> N.testbit u j = true) ->
                 k <> 0 -> forall j, m - (2 * k - 1) <= j -> j <= m -> N.testbit (smear k u) j = true).
      { intros u k Hu Hk j Hj1 Hj2. rewrite smear_spec.
        destruct (N.leb_spec (m - (k - 1)) j).
        - now rewrite Hu.
        - rewrite (Hu (j + k)) by lia. apply orb_true_r. }
      assert (R0 : forall j, m - (1 - 1) <= j -> j <= m -> N.testbit v j = true).
      { intros j H1 H2. replace j with m by lia. assumption. }
      pose proof (reach v 1 R0 ltac:(lia)) as R1. change (2 * 1) with 2 in R1.
      pose proof (reach _ 2 R1 ltac:(lia)) as R2. change (2 * 2) with 4 in R2.
      pose proof (reach _ 4 R2 ltac:(lia)) as R3. change (2 * 4) with 8 in R3.
      pose proof (reach _ 8 R3 ltac:(lia)) as R4. change (2 * 8) with 16 in R4.
      pose proof (reach _ 16 R4 ltac:(lia)) as R5. change (2 * 16) with 32 in R5.
      pose proof (reach _ 32 R5 ltac:(lia)) as R6. change (2 * 32) with 64 in R6.
      apply R6; lia.
    - rewrite N.ones_spec_high by assumption.
      assert (Hlt : smear 32 (smear 16 (smear 8 (smear 4 (smear 2 (smear 1 v))))) < 2 ^ (m + 1)).
      { repeat apply smear_lt. unfold m. rewrite N.add_1_r. apply N.log2_spec. lia. }
      destruct (N.eq_dec (smear 32 (smear 16 (smear 8 (smear 4 (smear 2 (smear 1 v)))))) 0) as [E|E].
      + rewrite E. apply N.bits_0.
      + apply N.bits_above_log2.
        apply N.lt_le_trans with (m + 1); [|assumption].
        apply N.log2_lt_pow2; [lia|assumption]. }
  rewrite Hw, N.ones_equiv. rewrite N.add_1_r.
  apply N.succ_pred. apply N.pow_nonzero. lia.
Qed.

(** The result is the least power of two that is not below [v]. *)
Lemma next_pow2_spec v : v <> 0 -> v <= 2 ^ 63 ->
  exists k, next_pow2 v = 2 ^ k /\ v <= 2 ^ k /\ (forall j, v <= 2 ^ j -> k <= j).
Proof.
  intros Hv Hle. unfold next_pow2. destruct (N.eqb_spec v 0) as [|_]; [contradiction|].
  destruct (N.eq_dec v 1) as [->|H1].
  - exists 0. split; [reflexivity|]. split; [lia|]. intros; lia.
  - set (w := smear 32 (smear 16 (smear 8 (smear 4 (smear 2 (smear 1 (v - 1))))))).
    assert (P63 : 2 ^ 63 < two64) by (vm_compute; reflexivity).
    pose proof (smear_all (v - 1) w ltac:(lia) eq_refl ltac:(lia)) as E.
    pose proof (N.log2_spec (v - 1) ltac:(lia)) as [L1 L2].
    set (m := N.log2 (v - 1)) in *. rewrite <- N.add_1_r in L2.
    assert (Hm : m < 63) by (apply N.log2_lt_pow2; lia).
    assert (P : 2 ^ (m + 1) <= 2 ^ 63) by (apply N.pow_le_mono_r; lia).
    exists (m + 1). split.
    + rewrite E. apply N.mod_small. lia.
    + split; [lia|]. intros j Hj.
      destruct (N.leb_spec (m + 1) j) as [|C]; [assumption|].
      assert (2 ^ j <= 2 ^ m) by (apply N.pow_le_mono_r; lia). lia.
Qed.
