(** Prefix masks, LPM coverage and [in_net] agree (proofs only). *)
From Coq Require Import NArith ZArith List Bool Lia Arith.
From Verif Require Import Bytes Types World BpfModel GenModel PktSpec BytesFacts.
Import ListNotations.
Local Open Scope N_scope.

Lemma pow256_2 n : 256 ^ n = 2 ^ (8 * n).
Proof. change 256 with (2 ^ 8). rewrite <- N.pow_mul_r. reflexivity. Qed.

Lemma in_net_cons_ge plen x y a b : bytes a -> bytes b -> length a = length b ->
  byte x -> byte y -> 8 <= plen -> plen <= 8 * N.of_nat (S (length b)) ->
  in_net plen (y :: b) (x :: a) = (x =? y) && in_net (plen - 8) b a.
Proof.
  intros Ha Hb Hl Hx Hy H8 Hm. unfold in_net. cbn [length].
  set (n := length b) in *.
  replace (8 * N.of_nat (S n) - plen) with (8 * N.of_nat n - (plen - 8)) by lia.
  set (low := 8 * N.of_nat n - (plen - 8)).
  assert (Hlow : low <= 8 * N.of_nat n) by lia.
  assert (Hp : 256 ^ N.of_nat n = 2 ^ (8 * N.of_nat n - low) * 2 ^ low).
  { rewrite pow256_2, <- N.pow_add_r. f_equal. lia. }
  rewrite !be_dec_cons, Hl. fold n. rewrite Hp.
  assert (H2 : 2 ^ low <> 0) by (apply N.pow_nonzero; discriminate).
  rewrite !N.mul_assoc, !(N.add_comm (_ * 2 ^ low)), !N.div_add by auto.
  pose proof (be_dec_bound a Ha) as Ba. pose proof (be_dec_bound b Hb) as Bb.
  rewrite Hl in Ba. fold n in Ba, Bb. rewrite Hp in Ba, Bb.
  assert (Da : be_dec a / 2 ^ low < 2 ^ (8 * N.of_nat n - low)) by (apply N.div_lt_upper_bound; auto; lia).
  assert (Db : be_dec b / 2 ^ low < 2 ^ (8 * N.of_nat n - low)) by (apply N.div_lt_upper_bound; auto; lia).
  apply eq_true_iff_eq. rewrite andb_true_iff, !N.eqb_eq.
  revert Da Db. generalize (be_dec a / 2 ^ low) (be_dec b / 2 ^ low) (2 ^ (8 * N.of_nat n - low)).
  clear. intros p q m Hp Hq. split.
  - intros H. assert (x = y) by nia. subst. split; auto. lia.
  - intros [-> ->]. reflexivity.
Qed.

Lemma in_net_cons_lt plen x y a b : bytes a -> bytes b -> length a = length b ->
  byte x -> byte y -> plen < 8 ->
  in_net plen (y :: b) (x :: a) = (x / 2 ^ (8 - plen) =? y / 2 ^ (8 - plen)).
Proof.
  intros Ha Hb Hl Hx Hy H8. unfold in_net. cbn [length].
  set (n := length b) in *.
  replace (8 * N.of_nat (S n) - plen) with (8 * N.of_nat n + (8 - plen)) by lia.
  assert (E : forall z l, bytes l -> length l = n ->
    be_dec (z :: l) / 2 ^ (8 * N.of_nat n + (8 - plen)) = z / 2 ^ (8 - plen)).
  { intros z l Hbl Hln. rewrite be_dec_cons, Hln, N.pow_add_r, <- pow256_2.
    rewrite <- N.div_div by (apply N.pow_nonzero; discriminate).
    rewrite (N.add_comm (_ * _)), N.div_add by (apply N.pow_nonzero; discriminate).
    rewrite (N.div_small (be_dec l)) by (rewrite <- Hln; apply be_dec_bound; auto). reflexivity. }
  rewrite !E by auto. reflexivity.
Qed.

Lemma forall_upto (P : N -> bool) n : forallb P (map N.of_nat (seq 0 n)) = true ->
  forall x, x < N.of_nat n -> P x = true.
Proof.
  intros H x Hx. rewrite forallb_forall in H. apply H.
  apply in_map_iff. exists (N.to_nat x). split; [lia|]. apply in_seq. lia.
Qed.

Lemma land_mask_byte x p : x < 256 -> p < 8 ->
  N.land x ((255 * 2 ^ (8 - p)) mod 256) = x / 2 ^ (8 - p) * 2 ^ (8 - p).
Proof.
  intros Hx Hp.
  assert (H : forallb (fun p => forallb (fun x =>
      N.land x ((255 * 2 ^ (8 - p)) mod 256) =? x / 2 ^ (8 - p) * 2 ^ (8 - p))
      (map N.of_nat (seq 0 256))) (map N.of_nat (seq 0 8)) = true) by (vm_compute; reflexivity).
  pose proof (forall_upto _ _ H p Hp) as H1. cbv beta in H1.
  pose proof (forall_upto _ _ H1 x Hx) as H2. cbv beta in H2. apply N.eqb_eq in H2. exact H2.
Qed.

Lemma land_255 x : x < 256 -> N.land x 255 = x.
Proof.
  intros. change 255 with (N.ones 8). rewrite N.land_ones. apply N.mod_small. auto.
Qed.

Lemma prefix_mask_length n : forall plen, length (prefix_mask plen n) = n.
Proof. induction n; intros; cbn [prefix_mask length]; auto. Qed.

Lemma prefix_mask_bytes n : forall plen, bytes (prefix_mask plen n).
Proof.
  induction n; intros; cbn [prefix_mask]; constructor; [|apply IHn].
  destruct (8 <=? plen); unfold byte; [lia|]. apply N.mod_upper_bound. discriminate.
Qed.

Lemma mask_zero n : forall a, bytes_and a (prefix_mask 0 n) = map (fun _ => 0) (firstn n a).
Proof.
  induction n; intros [|x a]; auto. unfold bytes_and in *. cbn [prefix_mask combine map firstn fst snd].
  f_equal; [|apply IHn]. change ((if 8 <=? 0 then 255 else (255 * 2 ^ (8 - 0)) mod 256)) with 0.
  apply N.land_0_r.
Qed.

Lemma masked_eq n : forall plen a b, bytes a -> bytes b -> length a = n -> length b = n ->
  plen <= 8 * N.of_nat n ->
  bytes_eqb (bytes_and a (prefix_mask plen n)) (bytes_and b (prefix_mask plen n)) = in_net plen b a.
Proof.
  induction n; intros plen a b Ha Hb Hla Hlb Hp.
  - destruct a; [|discriminate]. destruct b; [|discriminate]. cbn. reflexivity.
  - destruct a as [|x a]; [discriminate|]. destruct b as [|y b]; [discriminate|].
    injection Hla as Hla. injection Hlb as Hlb.
    inversion Ha; subst x0 l. inversion Hb; subst x0 l.
    unfold bytes_and. cbn [prefix_mask combine map fst snd bytes_eqb].
    fold (bytes_and a (prefix_mask (plen - 8) n)) (bytes_and b (prefix_mask (plen - 8) n)).
    destruct (N.leb_spec 8 plen) as [H8|H8].
    + rewrite in_net_cons_ge by (auto; try congruence; rewrite Hlb; auto).
      rewrite IHn by (auto; lia). unfold byte in *. rewrite !land_255 by auto. reflexivity.
    + rewrite in_net_cons_lt by (auto; congruence).
      replace (plen - 8) with 0 by lia. rewrite !mask_zero.
      rewrite !firstn_all2 by lia.
      replace (bytes_eqb (map (fun _ => 0) a) (map (fun _ => 0) b)) with true.
      2:{ symmetry. apply bytes_eqb_eq. clear - Hla Hlb. revert b n Hla Hlb.
          induction a; intros [|y b] n H1 H2; cbn in *; subst; try discriminate; auto.
          f_equal. injection H2 as H2. eapply IHa; eauto. }
      rewrite andb_true_r. unfold byte in *. rewrite !land_mask_byte by auto.
      set (q := 2 ^ (8 - plen)). assert (q <> 0) by (apply N.pow_nonzero; discriminate).
      apply eq_true_iff_eq. rewrite !N.eqb_eq. split; [|congruence].
      intros E. apply N.mul_cancel_r in E; auto.
Qed.

Lemma le_dec_and a : forall b, bytes a -> bytes b -> length a = length b ->
  le_dec (bytes_and a b) = N.land (le_dec a) (le_dec b).
Proof.
  induction a as [|x a IH]; intros [|y b] Ha Hb Hl; try discriminate; auto.
  inversion Ha; subst. inversion Hb; subst. unfold bytes_and in *.
  cbn [combine map le_dec fst snd]. unfold byte in *. rewrite land_byte_low by auto.
  rewrite IH by (auto; cbn in Hl; lia). reflexivity.
Qed.

Lemma bytes_and_length a b : length a = length b -> length (bytes_and a b) = length a.
Proof. intros. unfold bytes_and. rewrite map_length, combine_length. lia. Qed.

Lemma land_lt_256 x y : x < 256 -> N.land x y < 256.
Proof.
  intros. apply (N.le_lt_trans _ x); auto.
  assert (N.ldiff (N.land x y) x = 0).
  { apply N.bits_inj_0. intros i. rewrite N.ldiff_spec, N.land_spec.
    destruct (N.testbit x i), (N.testbit y i); reflexivity. }
  apply N.ldiff_le. auto.
Qed.

Lemma bytes_and_bytes a : forall b, bytes a -> bytes (bytes_and a b).
Proof.
  induction a as [|x a IH]; intros [|y b] Ha; try constructor.
  - cbn. inversion Ha; subst. apply land_lt_256. auto.
  - inversion Ha; subst. apply IH. auto.
Qed.

(** ** LPM coverage *)

Lemma bits_agree_spec n : forall a b,
  bits_agree a b n = true <-> (forall i, (i < n)%nat -> bit_at a i = bit_at b i).
Proof.
  induction n; intros a b; cbn [bits_agree].
  - split; intros; [lia|auto].
  - rewrite andb_true_iff, IHn, eqb_true_iff. split.
    + intros [H1 H2] i Hi. destruct (Nat.eq_dec i n) as [->|]; auto. apply H2. lia.
    + intros H. split; [apply H; lia | intros; apply H; lia].
Qed.

Lemma bit_at_lt x a i : (i < 8)%nat -> bit_at (x :: a) i = N.testbit x (N.of_nat (7 - i)).
Proof.
  intros. unfold bit_at. rewrite Nat.div_small, Nat.mod_small by auto. reflexivity.
Qed.

Lemma bit_at_ge x a i : bit_at (x :: a) (8 + i) = bit_at a i.
Proof.
  unfold bit_at. replace (8 + i)%nat with (i + 1 * 8)%nat by lia.
  rewrite Nat.div_add, Nat.mod_add by discriminate. rewrite Nat.add_1_r. reflexivity.
Qed.

Lemma top_bits x y p : x < 256 -> y < 256 -> (p <= 8)%nat ->
  (forall i, (i < p)%nat -> N.testbit x (N.of_nat (7 - i)) = N.testbit y (N.of_nat (7 - i))) <->
  x / 2 ^ (8 - N.of_nat p) = y / 2 ^ (8 - N.of_nat p).
Proof.
  intros Hx Hy Hp. rewrite <- !N.shiftr_div_pow2. split; intros H.
  - apply N.bits_inj. intros k. rewrite !N.shiftr_spec'.
    destruct (N.lt_ge_cases (k + (8 - N.of_nat p)) 8) as [Hk|Hk].
    + specialize (H (7 - N.to_nat (k + (8 - N.of_nat p)))%nat ltac:(lia)).
      replace (N.of_nat (7 - (7 - N.to_nat (k + (8 - N.of_nat p))))) with (k + (8 - N.of_nat p)) in H by lia.
      exact H.
    + assert (Z : forall p i, p < 256 -> 8 <= i -> N.testbit p i = false).
      { clear. intros p i Hp Hi. destruct (N.eq_dec p 0) as [->|Hz]; [apply N.bits_0|].
        apply N.bits_above_log2. assert (N.log2 p < 8) by (apply N.log2_lt_pow2; lia). lia. }
      rewrite !Z by auto. reflexivity.
  - intros i Hi. assert (E := f_equal (fun z => N.testbit z (N.of_nat (p - 1 - i))) H). cbv beta in E.
    rewrite !N.shiftr_spec' in E.
    replace (N.of_nat (p - 1 - i) + (8 - N.of_nat p)) with (N.of_nat (7 - i)) in E by lia. exact E.
Qed.

Lemma bits_agree_net n : forall plen a b, bytes a -> bytes b -> length a = n -> length b = n ->
  (plen <= 8 * n)%nat ->
  bits_agree a b plen = in_net (N.of_nat plen) a b.
Proof.
  induction n; intros plen a b Ha Hb Hla Hlb Hp.
  - destruct a; [|discriminate]. destruct b; [|discriminate].
    assert (plen = 0)%nat by lia. subst. reflexivity.
  - destruct a as [|x a]; [discriminate|]. destruct b as [|y b]; [discriminate|].
    injection Hla as Hla. injection Hlb as Hlb.
    inversion Ha; subst x0 l. inversion Hb; subst x0 l. unfold byte in *.
    destruct (Nat.lt_ge_cases plen 8) as [H8|H8].
    + rewrite in_net_cons_lt by (auto; try congruence; lia).
      apply eq_true_iff_eq. rewrite bits_agree_spec, N.eqb_eq.
      rewrite <- (top_bits y x plen) by (auto; lia). split; intros H i Hi.
      * specialize (H i Hi). rewrite !bit_at_lt in H by lia. auto.
      * rewrite !bit_at_lt by lia. symmetry. auto.
    + rewrite in_net_cons_ge by (auto; try congruence; cbn [length]; lia).
      replace (N.of_nat plen - 8) with (N.of_nat (plen - 8)) by lia.
      rewrite <- (IHn (plen - 8)%nat) by (auto; lia).
      apply eq_true_iff_eq. rewrite andb_true_iff, !bits_agree_spec, N.eqb_eq. split.
      * intros H. split.
        -- assert (E : x / 2 ^ (8 - N.of_nat 8) = y / 2 ^ (8 - N.of_nat 8)).
           { apply top_bits; auto. intros i Hi. specialize (H i ltac:(lia)).
             rewrite !bit_at_lt in H by lia. exact H. }
           change (2 ^ (8 - N.of_nat 8)) with 1 in E. rewrite !N.div_1_r in E. auto.
        -- intros i Hi. specialize (H (8 + i)%nat ltac:(lia)). rewrite !bit_at_ge in H. exact H.
      * intros [-> H] i Hi. destruct (Nat.lt_ge_cases i 8) as [Hi8|Hi8].
        -- rewrite !bit_at_lt by auto. reflexivity.
        -- replace i with (8 + (i - 8))%nat by lia. rewrite !bit_at_ge. apply H. lia.
Qed.
