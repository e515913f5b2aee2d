(** The rate of "log every", on whole numbers: the floating-point computation is exact. *)
From Coq Require Import String NArith ZArith List Bool Arith Lia.
From Coq.Floats Require Import SpecFloat.
From Verif Require Import Bytes Types GenModel StrModel ParseSpec ParseFacts RateModel.
Import ListNotations.
Local Open Scope Z_scope.

(** ** Digits *)
Lemma digits_size p : digits2_pos p = Pos.size p.
Proof. induction p; cbn [digits2_pos Pos.size]; congruence. Qed.
Lemma digits_bounds p : 2 ^ (Zpos (digits2_pos p) - 1) <= Zpos p < 2 ^ Zpos (digits2_pos p).
Proof.
  rewrite digits_size. split.
  - pose proof (Pos.size_le p) as H. apply Z.mul_le_mono_pos_l with 2; [lia|]. rewrite <- Z.pow_succ_r by lia. replace (Z.succ (Z.pos (Pos.size p) - 1)) with (Z.pos (Pos.size p)) by lia.
    rewrite <- Pos2Z.inj_pow. exact H.
  - pose proof (Pos.size_gt p) as H. rewrite <- Pos2Z.inj_pow. exact H.
Qed.
Lemma digits_unique p d : 0 < d -> 2 ^ (d - 1) <= Zpos p < 2 ^ d -> Zpos (digits2_pos p) = d.
Proof.
  intros D (A & B). pose proof (digits_bounds p) as (A' & B'). set (x := Zpos (digits2_pos p)) in *.
  assert (0 < x) by (unfold x; lia).
  assert (d - 1 < x). { apply (Z.pow_lt_mono_r_iff 2); lia. }
  assert (x - 1 < d). { apply (Z.pow_lt_mono_r_iff 2); lia. } lia.
Qed.
Lemma digits_shift p j m : 0 <= j -> Zpos m = Zpos p * 2 ^ j -> Zpos (digits2_pos m) = Zpos (digits2_pos p) + j.
Proof.
  intros J E. pose proof (digits_bounds p) as (A & B). apply digits_unique; [lia|]. rewrite E. split.
  - replace (Z.pos (digits2_pos p) + j - 1) with (Z.pos (digits2_pos p) - 1 + j) by lia. rewrite Z.pow_add_r by lia. apply Z.mul_le_mono_nonneg_r; [lia|exact A].
  - rewrite Z.pow_add_r by lia. apply Z.mul_lt_mono_pos_r; [lia|exact B].
Qed.

(** ** Shifts that lose nothing *)
Definition whole (m : Z) : shr_record := Build_shr_record m false false.
Lemma shr1_even q : 0 < q -> shr_1 (whole (q * 2)) = whole q.
Proof. intros H. destruct q as [|q|q]; try lia. rewrite Z.mul_comm. reflexivity. Qed.
Lemma iter_pos_nat {A} (f : A -> A) p : forall x, iter_pos f p x = Nat.iter (Pos.to_nat p) f x.
Proof.
  assert (AD : forall n m x, Nat.iter (n + m) f x = Nat.iter n f (Nat.iter m f x)).
  { induction n as [|n IH]; intros m x; [reflexivity|]. cbn. f_equal. apply IH. }
  assert (SR : forall n x, Nat.iter n f (f x) = Nat.iter (S n) f x).
  { intros n x. replace (S n) with (n + 1)%nat by lia. rewrite AD. reflexivity. }
  induction p as [p IH|p IH|]; intros x; cbn [iter_pos].
  - rewrite !IH, <- AD, SR. f_equal. lia.
  - rewrite !IH, <- AD. f_equal. lia.
  - reflexivity.
Qed.
Lemma shr_whole p q : 0 < q -> iter_pos shr_1 p (whole (q * 2 ^ Zpos p)) = whole q.
Proof.
  intros Q. rewrite iter_pos_nat. rewrite <- (positive_nat_Z p). generalize (Pos.to_nat p). clear p. intros n. revert q Q. induction n as [|n IH]; intros q Q.
  - change (2 ^ Z.of_nat 0) with 1. rewrite Z.mul_1_r. reflexivity.
  - rewrite Nat2Z.inj_succ, Z.pow_succ_r by lia. replace (q * (2 * 2 ^ Z.of_nat n)) with (q * 2 * 2 ^ Z.of_nat n) by lia.
    change (shr_1 (Nat.iter n shr_1 (whole (q * 2 * 2 ^ Z.of_nat n))) = whole q). rewrite IH by lia. apply shr1_even. exact Q.
Qed.

Definition P := 53. Definition EM := 1024.

Lemma fexp_ge x : -1021 <= x -> fexp P EM x = x - 53.
Proof. intros H. unfold fexp, emin, P, EM. lia. Qed.

(** [n] with a mantissa of 53 bits, times [2 ^ f]. *)
Definition canon (n : positive) (f : Z) (x : spec_float) : Prop :=
  exists m, Zpos m = Zpos n * 2 ^ (53 - Zpos (digits2_pos n)) /\ x = S754_finite false m (f + Zpos (digits2_pos n) - 53).

Lemma canon_digits n m : Zpos (digits2_pos n) <= 53 -> Zpos m = Zpos n * 2 ^ (53 - Zpos (digits2_pos n)) -> Zpos (digits2_pos m) = 53.
Proof. intros H E. rewrite (digits_shift n (53 - Zpos (digits2_pos n)) m) by (try exact E; lia). lia. Qed.

(** Rounding a number that needs at most 53 bits changes nothing. *)
Lemma round_exact n j f mx : Zpos (digits2_pos n) <= 53 -> 0 <= j -> 53 <= Zpos (digits2_pos n) + j -> -900 <= f <= 900 ->
  Zpos mx = Zpos n * 2 ^ j -> canon n f (binary_round_aux P EM false (Zpos mx) (f - j) loc_Exact).
Proof.
  intros D J DJ F E. pose proof (digits_shift n j mx J E) as DM. set (d := Zpos (digits2_pos n)) in *.
  assert (d > 0) by (unfold d; lia).
  assert (Q0 : 0 < Zpos n * 2 ^ (53 - d)) by (apply Z.mul_pos_pos; [lia|apply Z.pow_pos_nonneg; lia]).
  destruct (Z.pos (n) * 2 ^ (53 - d)) as [|m|m] eqn:EQ; try lia. exists m. fold d. split; [symmetry; exact EQ|].
  assert (S1 : shr_fexp P EM (Zpos mx) (f - j) loc_Exact = (whole (Zpos m), f + d - 53)).
  { unfold shr_fexp. cbn [Zdigits2]. rewrite DM, fexp_ge by lia. replace (d + j + (f - j) - 53 - (f - j)) with (d + j - 53) by lia.
    cbn [shr_record_of_loc]. unfold shr. fold (whole (Zpos mx)). destruct (d + j - 53) as [|p|p] eqn:DP; try lia.
    - f_equal; [f_equal|lia]. rewrite E, <- EQ. f_equal. f_equal. lia.
    - replace (Zpos mx) with (Zpos m * 2 ^ Zpos p). 2:{ rewrite E, <- EQ, <- Z.mul_assoc, <- Z.pow_add_r by lia. f_equal. f_equal. lia. }
      rewrite shr_whole by lia. f_equal. lia. }
  assert (S2 : shr_fexp P EM (Zpos m) (f + d - 53) loc_Exact = (whole (Zpos m), f + d - 53)).
  { unfold shr_fexp. cbn [Zdigits2]. rewrite (canon_digits n m D (eq_sym EQ)), fexp_ge by lia. replace (_ - _ - _) with 0 by lia. reflexivity. }
  unfold binary_round_aux. rewrite S1. cbn [whole shr_m loc_of_shr_record round_nearest_even shr_r shr_s]. rewrite S2. cbn [whole shr_m].
  replace (f + d - 53 <=? EM - P) with true by (symmetry; apply Z.leb_le; unfold EM, P; lia). reflexivity.
Qed.

Lemma digits53 n : Zpos n < 2 ^ 53 -> Zpos (digits2_pos n) <= 53.
Proof.
  intros H. pose proof (digits_bounds n) as (A & _). assert (2 ^ (Z.pos (digits2_pos n) - 1) < 2 ^ 53) by lia.
  apply (Z.pow_lt_mono_r_iff 2) in H0; lia.
Qed.

Lemma nearest_whole n : Zpos n < 2 ^ 53 -> canon n 0 (nearest (Npos n) 1).
Proof.
  intros H. apply digits53 in H. unfold nearest, fl, SFdiv. fold P EM. unfold SFdiv_core_binary.
  change (Zdigits2 1) with 1. cbn [Zdigits2]. set (d := Zpos (digits2_pos n)) in *. assert (d > 0) by (unfold d; lia).
  replace (d + 0 - (1 + 0)) with (d - 1) by lia. rewrite fexp_ge by lia. replace (Z.min (d - 1 - 53) (0 - 0)) with (d - 54) by lia.
  replace (0 - 0 - (d - 54)) with (54 - d) by lia. destruct (54 - d) as [|p|p] eqn:DP; try lia.
  assert (DV : forall a, Z.div_eucl a 1 = (a, 0)).
  { intros a. pose proof (Z_div_mod a 1 ltac:(lia)) as X. destruct (Z.div_eucl a 1) as [q r]. destruct X. f_equal; lia. }
  rewrite DV. cbn [fst snd xorb].
  assert (NL : new_location 1 0 = loc_Exact) by reflexivity. rewrite NL.
  assert (E : Z.shiftl (Z.pos n) (Z.pos p) = Zpos n * 2 ^ Zpos p) by (apply Z.shiftl_mul_pow2; lia).
  assert (0 < Z.pos n * 2 ^ Z.pos p) by (apply Z.mul_pos_pos; [lia|apply Z.pow_pos_nonneg; lia]).
  destruct (Z.shiftl (Z.pos n) (Z.pos p)) as [|mx|mx]; try lia.
  replace (d - 54) with (0 - Zpos p) by lia. apply round_exact; [exact H|lia|fold d; lia|lia|exact E].
Qed.

Lemma mul_exact a b x y : Zpos (a * b) < 2 ^ 53 -> canon a 0 x -> canon b 0 y -> canon (a * b) 0 (SFmul P EM x y).
Proof.
  intros H (ma & EA & ->) (mb & EB & ->). assert (Zpos a < 2 ^ 53 /\ Zpos b < 2 ^ 53) as (HA & HB) by lia. apply digits53 in H, HA, HB.
  cbn [SFmul xorb]. pose proof (digits_bounds a) as (A1 & A2). pose proof (digits_bounds b) as (B1 & B2). pose proof (digits_bounds (a * b)) as (C1 & C2).
  set (da := Zpos (digits2_pos a)) in *. set (db := Zpos (digits2_pos b)) in *.
  assert (DG : da + db <= Zpos (digits2_pos (a * b)) + 1).
  { assert (2 ^ (da - 1 + (db - 1)) < 2 ^ Zpos (digits2_pos (a * b))).
    { rewrite Z.pow_add_r by (unfold da, db; lia). eapply Z.le_lt_trans; [|exact C2]. rewrite Pos2Z.inj_mul. apply Z.mul_le_mono_nonneg; lia. }
    apply (Z.pow_lt_mono_r_iff 2) in H0; lia. }
  replace (0 + da - 53 + (0 + db - 53)) with (0 - (106 - da - db)) by lia. apply round_exact; [exact H|lia|lia|lia|].
  rewrite Pos2Z.inj_mul, EA, EB, Pos2Z.inj_mul. replace (106 - da - db) with (53 - da + (53 - db)) by lia. rewrite Z.pow_add_r by lia. lia.
Qed.

Lemma shift_pos_mul p m : Zpos (shift_pos p m) = Zpos m * 2 ^ Zpos p.
Proof. rewrite shift_pos_correct, Zpower_pos_nat. rewrite Zpower_nat_Z, positive_nat_Z. lia. Qed.

Lemma add_half a x : Zpos a < 2 ^ 52 -> canon a 0 x -> canon (2 * a + 1) (-1) (SFadd P EM x half).
Proof.
  intros H (m & E & ->). assert (H2 : Zpos (2 * a + 1) < 2 ^ 53) by lia. assert (HA : Zpos a < 2 ^ 53) by lia. apply digits53 in H2, HA.
  unfold half. cbn [SFadd]. set (d := Zpos (digits2_pos a)) in *. assert (d > 0) by (unfold d; lia).
  replace (Z.min (0 + d - 53) (-53)) with (-53) by lia.
  unfold shl_align. replace (-53 - -53) with 0 by lia. cbn [fst]. replace (-53 - (0 + d - 53)) with (- d) by lia. unfold d at 1. cbn [Z.opp]. cbn [fst cond_Zopp].
  set (k := digits2_pos a) in *.
  assert (S : Zpos (shift_pos k m) + 4503599627370496 = Zpos (2 * a + 1) * 2 ^ 52).
  { rewrite shift_pos_mul, E. fold d. rewrite <- Z.mul_assoc, <- Z.pow_add_r by lia. replace (53 - d + d) with 53 by lia. lia. }
  assert (0 < Zpos (2 * a + 1) * 2 ^ 52) by lia. destruct (Zpos (shift_pos k m) + 4503599627370496) as [|mx|mx]; try lia.
  cbn [binary_normalize]. unfold binary_round.
  pose proof (digits_shift (2 * a + 1) 52 mx ltac:(lia) S) as DM.
  assert (DD : 1 < Zpos (digits2_pos (2 * a + 1))).
  { pose proof (digits_bounds (2 * a + 1)) as (_ & B). destruct (Z.lt_trichotomy 1 (Zpos (digits2_pos (2 * a + 1)))) as [L|[L|L]]; [exact L| |lia]. rewrite <- L in B. lia. }
  rewrite DM, fexp_ge by lia. unfold shl_align. destruct (Z.pos (digits2_pos (2 * a + 1)) + 52 + -53 - 53 - -53) as [|p|p] eqn:Q; try lia.
  change (-53) with (-1 - 52). apply round_exact; [exact H2|lia|lia|lia|exact S].
Qed.

Lemma to_u64_half a x : Zpos a < 2 ^ 52 -> canon (2 * a + 1) (-1) x -> to_u64 x = Ok (Npos a).
Proof.
  intros H (m & E & ->). assert (H2 : Zpos (2 * a + 1) < 2 ^ 53) by lia. apply digits53 in H2. cbn [to_u64]. set (d := Zpos (digits2_pos (2 * a + 1))) in *.
  destruct (-1 + d - 53) as [|p|p] eqn:Q; try lia.
  assert (V : (N.pos m / 2 ^ N.pos p)%N = N.pos a).
  { apply N2Z.inj. rewrite N2Z.inj_div, N2Z.inj_pow. cbn [Z.of_N]. rewrite E. replace (Zpos p) with (53 - d + 1) by lia. rewrite Z.pow_add_r, <- (Z.div_div) by lia.
    rewrite Z.div_mul by lia. change (2 ^ 1) with 2. symmetry. apply Z.div_unique with 1; lia. }
  rewrite V. replace (N.pos a <? two64)%N with true; [reflexivity|]. symmetry. apply N.ltb_lt. change two64 with (2 ^ 64)%N. lia.
Qed.

(** ** Texts *)
Lemma digit10 c : (48 <= c <= 57)%N -> digit_in 10 c = Some (c - 48)%N.
Proof.
  intros H. unfold digit_in, digit_val, isdigit. replace ((48 <=? c) && (c <=? 57))%N with true by (symmetry; apply andb_true_iff; rewrite !N.leb_le; lia).
  replace (c - 48 <? 10)%N with true by (symmetry; apply N.ltb_lt; lia). reflexivity.
Qed.
Lemma run_digits s : forall acc len r, (forall c, In c s -> 48 <= c <= 57)%N -> (match r with c :: _ => digit_in 10 c = None | [] => True end) ->
  run 10 acc len (s ++ r) = (fold_left (fun a c => a * 10 + (c - 48)) s acc, (len + length s)%nat, r)%N.
Proof.
  induction s as [|c s IH]; intros acc len r D R.
  - cbn [app fold_left length]. rewrite Nat.add_0_r. destruct r as [|c r]; [reflexivity|]. cbn [run]. rewrite R. reflexivity.
  - cbn [app run fold_left length]. rewrite digit10 by (apply D; left; reflexivity). rewrite IH by (try (intros x X; apply D; right; exact X); exact R).
    rewrite Nat.add_succ_r. reflexivity.
Qed.

Definition units : list (string * N) := [("ns"%string, 1); ("us"%string, 1000); ("ms"%string, 1000000); ("s"%string, 1000000000)]%N.

Lemma bound_above k n : In k (map snd units) -> (0 < n)%N -> (n * k < 2 ^ 52)%N -> forall v, canon (match n with Npos p => p | _ => 1%positive end) 0 v ->
  SFleb v (S754_zero false) = false /\ (exists m e, v = S754_finite false m e) /\ SFltb (nearest two64 k) v = false.
Proof.
  intros K N0 L v (m & E & ->). destruct n as [|p]; [lia|]. split; [reflexivity|]. split; [eauto|].
  assert (D : forall b, 0 < b -> Zpos p < 2 ^ b -> Zpos (digits2_pos p) <= b).
  { intros b B H. pose proof (digits_bounds p) as (A & _). assert (H0 : 2 ^ (Z.pos (digits2_pos p) - 1) < 2 ^ b) by lia. apply (Z.pow_lt_mono_r_iff 2) in H0; lia. }
  assert (X : exists m0 e0, nearest two64 k = S754_finite false m0 e0 /\ Zpos (digits2_pos p) - 53 < e0).
  { destruct K as [ <- |[ <- |[ <- |[ <- |[]]]]]; cbn [snd] in *; eexists _, _; (split; [vm_compute; reflexivity|]).
    - specialize (D 52 ltac:(lia) ltac:(lia)). lia.
    - specialize (D 43 ltac:(lia) ltac:(lia)). lia.
    - specialize (D 33 ltac:(lia) ltac:(lia)). lia.
    - specialize (D 23 ltac:(lia) ltac:(lia)). lia. }
  destruct X as (m0 & e0 & -> & E0). unfold SFltb. cbn [SFcompare]. replace (e0 ?= 0 + Z.pos (digits2_pos p) - 53) with Gt; [reflexivity|].
  symmetry. apply Z.compare_gt_iff. lia.
Qed.

Lemma strtod_whole s n u k : decimal s n -> In (u, k) units -> strtod (s ++ lit u) = (nearest n 1, lit u).
Proof.
  intros (NE & D & ->) U.
  assert (R : match lit u with c :: _ => digit_in 10 c = None | [] => True end) by (destruct U as [X|[X|[X|[X|[]]]]]; injection X as <- <-; reflexivity).
  assert (PL : (let '(n, _, r) := run 10 0 0 (s ++ lit u) in
    let '(m, k, r1) := match r with
      | 46%N :: r1 => let '(m, k, r2) := run 10 n 0 r1 in match k with O => (n, O, r) | _ => (m, k, r2) end
      | _ => (n, O, r) end in
    let (v, r2) := exponent 101 10 m r1 in (nearest v (10 ^ N.of_nat k)%N, r2)) = (nearest (dec_value s) 1, lit u)).
  { rewrite run_digits by assumption. unfold dec_value. destruct U as [X|[X|[X|[X|[]]]]]; injection X as <- <-; reflexivity. }
  unfold strtod. cbv zeta. rewrite PL. destruct s as [|c s]; [congruence|]. cbn [app].
  assert (C : (48 <= c <= 57)%N) by (apply D; left; reflexivity).
  assert (X : match s ++ lit u with x :: _ => ((x =? 120) || (x =? 88))%N = false | [] => True end).
  { destruct s as [|x s].
    - destruct U as [X|[X|[X|[X|[]]]]]; injection X as <- <-; reflexivity.
    - cbn [app]. assert ((48 <= x <= 57)%N) by (apply D; right; left; reflexivity). apply orb_false_iff. rewrite !N.eqb_neq. lia. }
  destruct (N.eq_dec c 48) as [ -> |NC].
  - destruct (s ++ lit u) as [|x r]; [reflexivity|]. rewrite X. reflexivity.
  - destruct c as [|c]; [lia|]. do 6 (try (destruct c as [c|c|]; try reflexivity; try (exfalso; lia))).
Qed.

(** A whole number of units, up to 52 days, is read exactly. *)
Theorem rate_whole s n u k : decimal s n -> In (u, k) units -> (0 < n)%N -> (n * k < 2 ^ 52)%N -> parse_log_rate (s ++ lit u) = Ok (n * k)%N.
Proof.
  intros D U N0 L. unfold parse_log_rate. rewrite (strtod_whole s n u k D U).
  assert (K : In k (map snd units)) by (apply in_map_iff; exists (u, k); auto).
  assert (M : multiplier (lit u) = Some k) by (destruct U as [X|[X|[X|[X|[]]]]]; injection X as <- <-; reflexivity).
  destruct n as [|p]; [lia|]. assert (KP : exists q, k = Npos q) by (destruct K as [ <- |[ <- |[ <- |[ <- |[]]]]]; eexists; reflexivity). destruct KP as (q & ->).
  assert (LP : Zpos (p * q) < 2 ^ 52) by lia.
  pose proof (nearest_whole p ltac:(lia)) as CP. pose proof (nearest_whole q ltac:(lia)) as CQ.
  destruct (bound_above (Npos q) (Npos p) K N0 L _ CP) as (B1 & (m & e & EV) & B2). rewrite B1, M. rewrite B2.
  pose proof (mul_exact p q _ _ ltac:(lia) CP CQ) as CM. fold P EM. pose proof (add_half _ _ LP CM) as CA. rewrite (to_u64_half _ _ LP CA).
  rewrite EV. reflexivity.
Qed.
