(** Arithmetic of byte strings and immediates (proofs only). *)
From Coq Require Import NArith ZArith List Bool Lia Arith.
From Verif Require Import Bytes.
Import ListNotations.
Local Open Scope N_scope.

Lemma i32_bounds v : (-2147483648 <= i32 v < 2147483648)%Z.
Proof.
  unfold i32, two32, two31. cbv zeta. pose proof (N.mod_upper_bound v 4294967296 ltac:(discriminate)).
  revert H. generalize (v mod 4294967296). intros u H.
  destruct (N.ltb_spec u 2147483648); lia.
Qed.

Lemma imm64_i32 v : v < two31 -> imm64 (i32 v) = v.
Proof.
  unfold imm64, i32, two31, two32, two64. cbv zeta. intros H.
  rewrite N.mod_small by lia.
  destruct (N.ltb_spec v 2147483648); [|lia].
  rewrite Z.mod_small by lia. apply N2Z.id.
Qed.

Lemma imm64_i32_neg v : two31 <= v < two32 -> imm64 (i32 v) = v + (two64 - two32).
Proof.
  unfold imm64, i32, two31, two32, two64. cbv zeta. intros H.
  rewrite N.mod_small by lia.
  destruct (N.ltb_spec v 2147483648); [lia|].
  rewrite <- (Z.mod_unique _ _ (-1) (Z.of_N (v + (18446744073709551616 - 4294967296)))) by lia.
  apply N2Z.id.
Qed.

Lemma imm32_i32 v : imm32 (i32 v) = v mod two32.
Proof.
  unfold imm32, i32, two31, two32. cbv zeta.
  pose proof (N.mod_upper_bound v 4294967296 ltac:(discriminate)) as H.
  revert H. generalize (v mod 4294967296). intros u H.
  destruct (N.ltb_spec u 2147483648).
  - rewrite Z.mod_small by lia. apply N2Z.id.
  - rewrite <- (Z.mod_unique _ _ (-1) (Z.of_N u)) by lia. apply N2Z.id.
Qed.

Lemma imm64_nonneg z : (0 <= z < Z.of_N two64)%Z -> imm64 z = Z.to_N z.
Proof. intros. unfold imm64. rewrite Z.mod_small by lia. reflexivity. Qed.

Lemma imm64_mod32 v : imm64 (i32 v) mod two32 = v mod two32.
Proof.
  pose proof (N.mod_upper_bound v two32 ltac:(discriminate)) as B.
  assert (E : imm64 (i32 v) = imm64 (i32 (v mod two32))).
  { unfold i32. rewrite N.mod_mod by discriminate. reflexivity. }
  rewrite E. destruct (N.lt_ge_cases (v mod two32) two31) as [H|H].
  - rewrite imm64_i32 by auto. rewrite N.mod_mod by discriminate. reflexivity.
  - rewrite imm64_i32_neg by lia.
    replace (v mod two32 + (two64 - two32)) with (v mod two32 + 4294967295 * two32)
      by (unfold two64, two32; lia).
    rewrite N.mod_add by discriminate. apply N.mod_mod. discriminate.
Qed.

(** ** little-endian *)

Lemma pow256_S n : 256 ^ N.of_nat (S n) = 256 * 256 ^ N.of_nat n.
Proof. rewrite Nat2N.inj_succ, N.pow_succ_r'. reflexivity. Qed.

Lemma pow256_pos n : 0 < 256 ^ n.
Proof. apply N.neq_0_lt_0. apply N.pow_nonzero. discriminate. Qed.

Lemma le_dec_bound l : bytes l -> le_dec l < 256 ^ N.of_nat (length l).
Proof.
  induction 1 as [|b l Hb Hl IH].
  - cbn. lia.
  - cbn [le_dec length]. rewrite pow256_S. unfold byte in Hb. lia.
Qed.

Lemma le_dec_bound_n l n : bytes l -> length l = n -> le_dec l < 256 ^ N.of_nat n.
Proof. intros H <-. apply le_dec_bound; auto. Qed.

Lemma bytes_eqb_eq a b : bytes_eqb a b = true <-> a = b.
Proof.
  revert b. induction a as [|x a IH]; intros [|y b]; cbn; split; intros H; try discriminate; auto.
  - apply andb_true_iff in H as [H1 H2]. apply N.eqb_eq in H1. apply IH in H2. congruence.
  - inversion H; subst. rewrite N.eqb_refl. cbn. apply IH. reflexivity.
Qed.

Lemma bytes_eqb_refl a : bytes_eqb a a = true.
Proof. apply bytes_eqb_eq; auto. Qed.

Lemma bytes_eqb_sym a b : bytes_eqb a b = bytes_eqb b a.
Proof.
  apply eq_true_iff_eq. rewrite !bytes_eqb_eq. intuition congruence.
Qed.

Lemma le_dec_eqb a b : bytes a -> bytes b -> length a = length b ->
  (le_dec a =? le_dec b) = bytes_eqb a b.
Proof.
  intros Ha. revert b. induction Ha as [|x a Hx Ha IH]; intros [|y b] Hb Hl; try discriminate.
  - reflexivity.
  - inversion Hb; subst. cbn [le_dec bytes_eqb]. unfold byte in *.
    specialize (IH b H2 ltac:(cbn in Hl; lia)).
    rewrite <- IH.
    destruct (N.eqb_spec x y) as [->|Hne].
    + cbn [andb]. destruct (N.eqb_spec (le_dec a) (le_dec b)) as [->|Hne2].
      * rewrite N.eqb_refl. reflexivity.
      * apply N.eqb_neq. lia.
    + cbn [andb]. apply N.eqb_neq. lia.
Qed.

Lemma le_dec_app a b : le_dec (a ++ b) = le_dec a + 256 ^ N.of_nat (length a) * le_dec b.
Proof.
  induction a as [|x a IH].
  - cbn [app le_dec length]. rewrite N.pow_0_r. lia.
  - cbn [app le_dec length]. rewrite pow256_S, IH. lia.
Qed.

Lemma le_enc_length n v : length (le_enc n v) = n.
Proof. revert v. induction n; intros; cbn; auto. Qed.

Lemma le_enc_bytes n v : bytes (le_enc n v).
Proof.
  revert v. induction n; intros; cbn; constructor.
  - unfold byte. apply N.mod_upper_bound. discriminate.
  - apply IHn.
Qed.

Lemma le_dec_enc n : forall v, le_dec (le_enc n v) = v mod 256 ^ N.of_nat n.
Proof.
  induction n; intros v.
  - cbn. rewrite N.mod_1_r. reflexivity.
  - cbn [le_enc le_dec]. rewrite IHn, pow256_S.
    rewrite N.mod_mul_r by (try discriminate; apply N.pow_nonzero; discriminate).
    reflexivity.
Qed.

Lemma le_enc_dec l : bytes l -> le_enc (length l) (le_dec l) = l.
Proof.
  induction 1 as [|b l Hb Hl IH]; cbn [length le_enc le_dec]; auto. unfold byte in Hb.
  f_equal.
  - rewrite N.mul_comm, N.mod_add by discriminate. apply N.mod_small; auto.
  - rewrite N.mul_comm, N.div_add by discriminate. rewrite N.div_small by auto. exact IH.
Qed.

Lemma bytes_sub l o n : bytes l -> bytes (sub l o n).
Proof.
  intros H. unfold sub.
  assert (bytes (skipn o l)) by (apply Forall_forall; intros x Hx; eapply Forall_forall in H; eauto;
    rewrite <- (firstn_skipn o l); apply in_or_app; auto).
  apply Forall_forall; intros x Hx. eapply Forall_forall in H0; eauto.
  rewrite <- (firstn_skipn n (skipn o l)); apply in_or_app; auto.
Qed.

Lemma sub_length l o n : (o + n <= length l)%nat -> length (sub l o n) = n.
Proof. intros. unfold sub. rewrite firstn_length, skipn_length. lia. Qed.

Lemma bytes_firstn l n : bytes l -> bytes (firstn n l).
Proof. intros. apply (bytes_sub l 0 n). auto. Qed.

Lemma bytes_skipn l n : bytes l -> bytes (skipn n l).
Proof.
  intros H. replace (skipn n l) with (sub l n (length l)); [apply bytes_sub; auto|].
  unfold sub. apply firstn_all2. rewrite skipn_length. lia.
Qed.

Lemma bytes_app a b : bytes a -> bytes b -> bytes (a ++ b).
Proof. unfold bytes. intros. apply Forall_app; auto. Qed.

Lemma sub_sub l o n o' n' : (o' + n' <= n)%nat ->
  sub (sub l o n) o' n' = sub l (o + o') n'.
Proof.
  intros H. unfold sub.
  rewrite skipn_firstn_comm. rewrite firstn_firstn.
  replace (Nat.min n' (n - o')) with n' by lia.
  f_equal. clear. revert l. induction o as [|o IH]; intros l; [reflexivity|].
  destruct l; [destruct o'; reflexivity|]. cbn. apply IH.
Qed.

Lemma sub_app l o n m : sub l o (n + m) = sub l o n ++ sub l (o + n) m.
Proof.
  unfold sub.
  assert (E : skipn (o + n) l = skipn n (skipn o l)).
  { clear m. revert l. induction o as [|o IH]; intros l; [reflexivity|].
    destruct l; [destruct n; reflexivity|]. cbn. apply IH. }
  rewrite E. generalize (skipn o l). clear. intros l. revert n.
  induction l as [|x l IH]; intros [|n]; cbn [Nat.add firstn skipn app]; auto.
  - rewrite !firstn_nil. reflexivity.
  - f_equal. apply IH.
Qed.

Lemma sub_nil_l o n : sub [] o n = [].
Proof. unfold sub. rewrite skipn_nil, firstn_nil. reflexivity. Qed.

Lemma sub_all l : sub l 0 (length l) = l.
Proof. unfold sub. cbn. apply firstn_all. Qed.

Lemma firstn_sub l n : firstn n l = sub l 0 n.
Proof. reflexivity. Qed.

Lemma sub_1 l o : (o < length l)%nat -> sub l o 1 = [byte_at l o].
Proof.
  unfold sub, byte_at. revert l. induction o as [|o IH]; intros [|x l] H; cbn in *; try lia; auto.
  apply IH. lia.
Qed.

Lemma byte_at_byte l o : bytes l -> byte (byte_at l o).
Proof.
  intros H. unfold byte_at. destruct (Nat.lt_ge_cases o (length l)) as [Hl|Hl].
  - eapply Forall_forall in H; [exact H|]. apply nth_In. auto.
  - rewrite nth_overflow by auto. unfold byte. lia.
Qed.

Lemma sub_2 l o : (o + 1 < length l)%nat -> sub l o 2 = [byte_at l o; byte_at l (o + 1)].
Proof.
  intros H. change 2%nat with (1 + 1)%nat. rewrite sub_app, !sub_1 by lia. reflexivity.
Qed.

(** ** big-endian *)

Lemma be_acc_le acc l : be_acc acc l = acc * 256 ^ N.of_nat (length l) + be_acc 0 l.
Proof.
  revert acc. induction l as [|b l IH]; intros acc.
  - cbn. lia.
  - cbn [be_acc length]. rewrite (IH (acc * 256 + b)), (IH (0 * 256 + b)), pow256_S. lia.
Qed.

Lemma be_dec_cons b l : be_dec (b :: l) = b * 256 ^ N.of_nat (length l) + be_dec l.
Proof. unfold be_dec. cbn [be_acc]. rewrite be_acc_le. lia. Qed.

Lemma be_dec_bound l : bytes l -> be_dec l < 256 ^ N.of_nat (length l).
Proof.
  induction 1 as [|b l Hb Hl IH].
  - cbn. lia.
  - rewrite be_dec_cons. cbn [length]. rewrite pow256_S. unfold byte in Hb.
    pose proof (pow256_pos (N.of_nat (length l))). nia.
Qed.

Lemma be_dec_app a b : be_dec (a ++ b) = be_dec a * 256 ^ N.of_nat (length b) + be_dec b.
Proof.
  induction a as [|x a IH].
  - cbn [app]. change (be_dec []) with 0. lia.
  - cbn [app]. rewrite !be_dec_cons, IH, app_length, Nat2N.inj_add, N.pow_add_r. lia.
Qed.

Lemma be_dec_inj a : forall b, bytes a -> bytes b -> length a = length b ->
  be_dec a = be_dec b -> a = b.
Proof.
  induction a as [|x a IH]; intros [|y b] Ha Hb Hl H; try discriminate; auto.
  inversion Ha; subst. inversion Hb; subst.
  rewrite !be_dec_cons in H. cbn in Hl. injection Hl as Hl. rewrite <- Hl in H.
  pose proof (be_dec_bound a ltac:(auto)). pose proof (be_dec_bound b ltac:(auto)).
  rewrite <- Hl in H1.
  assert (x = y) by nia. subst. f_equal. apply IH; auto. nia.
Qed.

(** ** 16-bit swap *)

Lemma swap16_le2 a b : byte a -> byte b -> swap16 (le_dec [a; b]) = be_dec [a; b].
Proof.
  unfold byte. intros. unfold swap16, be_dec. cbn [le_dec be_acc].
  rewrite N.mul_0_r, N.add_0_r.
  replace (a + 256 * b) with (a + b * 256) by lia.
  rewrite N.mod_add, N.div_add by discriminate.
  rewrite (N.mod_small a), (N.div_small a), N.add_0_l, (N.mod_small b) by lia. lia.
Qed.

Lemma swap16_sub2 l o : bytes l -> (o + 2 <= length l)%nat ->
  swap16 (le_dec (sub l o 2)) = be_dec (sub l o 2).
Proof.
  intros H Hl. rewrite sub_2 by lia. apply swap16_le2; apply byte_at_byte; auto.
Qed.

Lemma swap16_lt v : swap16 v < 65536.
Proof.
  unfold swap16. pose proof (N.mod_upper_bound v 256 ltac:(discriminate)).
  pose proof (N.mod_upper_bound (v / 256) 256 ltac:(discriminate)). lia.
Qed.

Lemma swap16_invol v : v < 65536 -> swap16 (swap16 v) = v.
Proof.
  intros H. unfold swap16.
  pose proof (N.mod_upper_bound v 256 ltac:(discriminate)).
  assert (v / 256 < 256) by (apply N.div_lt_upper_bound; lia).
  rewrite (N.mod_small (v / 256)) by auto.
  rewrite (N.add_comm (v mod 256 * 256)).
  rewrite N.mod_add, N.div_add by discriminate.
  rewrite (N.mod_small (v / 256)), (N.div_small (v / 256)), N.add_0_l by auto.
  rewrite N.mod_mod by discriminate.
  pose proof (N.div_mod v 256 ltac:(discriminate)). lia.
Qed.

Lemma swap16_eqb a b : a < 65536 -> b < 65536 -> (swap16 a =? swap16 b) = (a =? b).
Proof.
  intros Ha Hb. apply eq_true_iff_eq. rewrite !N.eqb_eq. split; intros H; [|congruence].
  rewrite <- (swap16_invol a), <- (swap16_invol b) by auto. congruence.
Qed.

(** ** lor as addition *)

Lemma lor_add_disjoint hi lo k : lo < 2 ^ k -> N.lor (hi * 2 ^ k) lo = hi * 2 ^ k + lo.
Proof.
  intros H. assert (E : N.land (hi * 2 ^ k) lo = 0).
  { apply N.bits_inj_0. intros i. rewrite N.land_spec.
    destruct (N.lt_ge_cases i k) as [Hi|Hi].
    - rewrite N.mul_pow2_bits_low by auto. reflexivity.
    - destruct (N.eq_dec lo 0) as [->|Hz].
      + rewrite N.bits_0. apply andb_false_r.
      + rewrite (N.bits_above_log2 lo i); [apply andb_false_r|].
        assert (N.log2 lo < k) by (apply N.log2_lt_pow2; lia). lia. }
  rewrite <- N.lxor_lor by exact E. rewrite <- N.add_nocarry_lxor by exact E. reflexivity.
Qed.

Lemma imm64_halves v : v < two64 ->
  N.lor (N.shiftl (v / two32) 32 mod two64) (v mod two32) = v.
Proof.
  intros H. assert (Hh : v / two32 < two32).
  { apply N.div_lt_upper_bound; [discriminate|]. unfold two64, two32 in *. lia. }
  rewrite N.shiftl_mul_pow2. change (2 ^ 32) with two32.
  rewrite N.mod_small by (unfold two64, two32 in *; lia).
  change two32 with (2 ^ 32) at 2.
  rewrite lor_add_disjoint.
  - change (2 ^ 32) with two32. pose proof (N.div_mod v two32 ltac:(discriminate)). lia.
  - apply N.mod_upper_bound. discriminate.
Qed.

Lemma land_byte_low a b x y : a < 256 -> b < 256 ->
  N.land (a + 256 * x) (b + 256 * y) = N.land a b + 256 * N.land x y.
Proof.
  intros Ha Hb.
  assert (S : forall p q, p < 256 -> p + 256 * q = N.lor (q * 2 ^ 8) p).
  { intros. rewrite lor_add_disjoint by auto. change (2 ^ 8) with 256. lia. }
  assert (Hab : N.land a b < 256).
  { apply (N.le_lt_trans _ a); [|auto]. destruct (N.eq_dec (N.land a b) 0) as [->|Hz]; [lia|].
    assert (N.ldiff (N.land a b) a = 0).
    { apply N.bits_inj_0. intros i. rewrite N.ldiff_spec, N.land_spec.
      destruct (N.testbit a i), (N.testbit b i); reflexivity. }
    apply N.ldiff_le in H. exact H. }
  rewrite !S by auto. apply N.bits_inj. intros i.
  rewrite N.land_spec, !N.lor_spec, !N.land_spec.
  destruct (N.lt_ge_cases i 8) as [Hi|Hi].
  - rewrite !N.mul_pow2_bits_low by auto. reflexivity.
  - rewrite !N.mul_pow2_bits_high by auto.
    assert (Z : forall p, p < 256 -> N.testbit p i = false).
    { intros p Hp. destruct (N.eq_dec p 0) as [->|Hz]; [apply N.bits_0|].
      apply N.bits_above_log2. assert (N.log2 p < 8) by (apply N.log2_lt_pow2; lia). lia. }
    rewrite (Z a), (Z b) by auto. rewrite N.land_spec. rewrite !orb_false_r.
    reflexivity.
Qed.
