(** Numbers as text, and back. *)
From Coq Require Import String NArith List Bool Arith Lia.
From Verif Require Import Bytes Types GenModel BytesFacts StrModel StrSpec EnumModel ParseModel ParseSpec ParseFacts ParseFacts2 ParseFacts3 PrintModel.
Import ListNotations.
Local Open Scope string_scope.
Local Open Scope list_scope.
Local Open Scope N_scope.
Local Open Scope res_scope.

(** ** Digits *)
Lemma digit_char_in b d : b <= 16 -> d < b -> digit_in b (digit_char d) = Some d.
Proof.
  intros B D. unfold digit_in. assert (X : digit_val (digit_char d) = Some d).
  { assert (d < 16) by lia. clear -H. destruct d as [|p]; [reflexivity|]. do 4 (destruct p as [p|p|]; try reflexivity; try lia). }
  rewrite X. replace (d <? b) with true by (symmetry; apply N.ltb_lt; exact D). reflexivity.
Qed.
Lemma digit_char_range d : d < 16 -> 48 <= digit_char d <= 57 \/ 97 <= digit_char d <= 102.
Proof. intros D. unfold digit_char. destruct (N.ltb_spec d 10); lia. Qed.
Lemma digits_snoc b s c d : forall acc v, digits b acc s = (v, []) -> digit_in b c = Some d -> digits b acc (s ++ [c]) = (v * b + d, []).
Proof.
  induction s as [|x s IH]; intros acc v E D; cbn [app digits] in *.
  - injection E as <-. rewrite D. reflexivity.
  - destruct (digit_in b x); [|discriminate E]. apply IH; assumption.
Qed.
Lemma digits_rest b s rest : forall acc v, digits b acc s = (v, []) -> match rest with c :: _ => digit_in b c = None | [] => True end ->
  digits b acc (s ++ rest) = (v, rest).
Proof.
  induction s as [|x s IH]; intros acc v E D; cbn [app digits] in *.
  - injection E as <-. destruct rest as [|c r]; [reflexivity|]. cbn [digits]. rewrite D. reflexivity.
  - destruct (digit_in b x); [|discriminate E]. apply IH; assumption.
Qed.

Lemma num_text_ok b : 2 <= b <= 16 -> forall fuel n, n < 2 ^ N.of_nat fuel -> (0 < fuel)%nat ->
  digits b 0 (num_text fuel b n) = (n, []) /\ num_text fuel b n <> [] /\
  (forall c, In c (num_text fuel b n) -> exists d, d < b /\ c = digit_char d) /\
  (forall r, num_text fuel b n = 48 :: r -> r = []).
Proof.
  intros B. induction fuel as [|f IH]; intros n L F; [lia|]. cbn [num_text]. destruct (N.ltb_spec n b) as [S|S].
  - split; [cbn [digits]; rewrite digit_char_in by lia; reflexivity|]. split; [discriminate|]. split.
    + intros c [ <- |[]]. eauto.
    + intros r E. injection E as _ <-. reflexivity.
  - assert (Q : n / b < 2 ^ N.of_nat f).
    { apply N.div_lt_upper_bound; [lia|]. rewrite Nat2N.inj_succ, N.pow_succ_r' in L. eapply N.lt_le_trans; [exact L|]. apply N.mul_le_mono_r. lia. }
    assert (F0 : (0 < f)%nat).
    { destruct f; [|lia]. cbn in Q. assert (1 <= n / b) by (apply N.div_le_lower_bound; lia). lia. }
    destruct (IH _ Q F0) as (E & NE & C & Z). assert (M : n mod b < b) by (apply N.mod_lt; lia). split; [|split; [|split]].
    + rewrite (digits_snoc b _ (digit_char (n mod b)) (n mod b) 0 (n / b) E) by (apply digit_char_in; lia). f_equal. rewrite N.mul_comm. symmetry. apply N.div_mod'.
    + intros X. apply app_eq_nil in X. destruct X. discriminate.
    + intros c I. apply in_app_or in I. destruct I as [I|[ <- |[]]]; [auto|]. eauto.
    + intros r X. destruct (num_text f b (n / b)) as [|x w] eqn:W; [congruence|]. cbn [app] in X. injection X as -> _.
      rewrite (Z w eq_refl) in E. exfalso. assert (n / b = 0). { cbn [digits] in E. replace (digit_in b 48) with (Some 0) in E by (symmetry; apply (digit_char_in b 0); lia). injection E as <-. reflexivity. }
      assert (1 <= n / b) by (apply N.div_le_lower_bound; lia). lia.
Qed.
Lemma fuel_ok n : n < 2 ^ N.of_nat (S (N.to_nat (N.log2 n))).
Proof.
  rewrite Nat2N.inj_succ, N2Nat.id. destruct (N.eq_dec n 0) as [ -> |H]; [reflexivity|]. apply N.log2_spec. lia.
Qed.

Lemma dec_decimal n : decimal (dec n) n /\ (forall r, dec n = 48 :: r -> r = []).
Proof.
  destruct (num_text_ok 10 ltac:(lia) _ n (fuel_ok n) ltac:(lia)) as (E & NE & C & Z). fold (dec n) in *. split; [|exact Z].
  assert (D : forall c, In c (dec n) -> 48 <= c <= 57).
  { intros c I. destruct (C c I) as (d & L & ->). unfold digit_char. destruct (N.ltb_spec d 10); lia. }
  split; [exact NE|]. split; [exact D|]. pose proof (digits_app (dec n) [] 0 D Logic.I) as X. rewrite app_nil_r, E in X. injection X as X. exact X.
Qed.
Lemma dec_short n k : n < 10 ^ N.of_nat k -> (0 < k)%nat -> (length (dec n) <= k)%nat.
Proof.
  unfold dec. generalize (S (N.to_nat (N.log2 n))). intros f. revert n k. induction f as [|f IH]; intros n k L K; [cbn; lia|]. cbn [num_text].
  destruct (N.ltb_spec n 10); [cbn; lia|]. rewrite app_length. cbn [length]. destruct k as [|k]; [lia|]. rewrite Nat2N.inj_succ, N.pow_succ_r' in L.
  assert (n / 10 < 10 ^ N.of_nat k) by (apply N.div_lt_upper_bound; lia).
  destruct k as [|k]; [cbn in L; lia|]. specialize (IH (n / 10) (S k) H0 ltac:(lia)). lia.
Qed.
Lemma hex_short n k : n < 16 ^ N.of_nat k -> (0 < k)%nat -> (length (hex n) <= k)%nat.
Proof.
  unfold hex. generalize (S (N.to_nat (N.log2 n))). intros f. revert n k. induction f as [|f IH]; intros n k L K; [cbn; lia|]. cbn [num_text].
  destruct (N.ltb_spec n 16); [cbn; lia|]. rewrite app_length. cbn [length]. destruct k as [|k]; [lia|]. rewrite Nat2N.inj_succ, N.pow_succ_r' in L.
  assert (n / 16 < 16 ^ N.of_nat k) by (apply N.div_lt_upper_bound; lia).
  destruct k as [|k]; [cbn in L; lia|]. specialize (IH (n / 16) (S k) H0 ltac:(lia)). lia.
Qed.

(** [s] is the number [n] in base 16. *)
Definition hexadecimal (s : cstr) (n : N) : Prop :=
  digits 16 0 s = (n, []) /\ s <> [] /\ forall c, In c s -> 48 <= c <= 57 \/ 97 <= c <= 102.
Lemma hex_hexadecimal n : hexadecimal (hex n) n.
Proof.
  destruct (num_text_ok 16 ltac:(lia) _ n (fuel_ok n) ltac:(lia)) as (E & NE & C & Z). split; [exact E|]. split; [exact NE|].
  intros c I. destruct (C c I) as (d & L & ->). apply digit_char_range. exact L.
Qed.
Lemma hex_zeros n k : hexadecimal (repeat 48 k ++ hex n) n.
Proof.
  destruct (hex_hexadecimal n) as (E & NE & C). split; [|split].
  - induction k as [|k IH]; [exact E|exact IH].
  - intros X. apply app_eq_nil in X. destruct X. congruence.
  - intros c I. apply in_app_or in I. destruct I as [I|I]; [|auto]. apply repeat_spec in I. subst. lia.
Qed.

Lemma hex_digit c : 48 <= c <= 57 \/ 97 <= c <= 102 -> exists d, digit_in 16 c = Some d.
Proof.
  intros H. assert (X : exists d, d < 16 /\ c = digit_char d).
  { destruct H as [H|H]; [exists (c - 48)|exists (c - 87)]; unfold digit_char; (split; [lia|]); [destruct (N.ltb_spec (c - 48) 10)|destruct (N.ltb_spec (c - 87) 10)]; lia. }
  destruct X as (d & D & ->). rewrite digit_char_in by lia. eauto.
Qed.
Lemma hexadecimal_starts s n rest : hexadecimal s n -> starts_digit 16 (s ++ rest) = true.
Proof.
  intros (_ & NE & C). destruct s as [|c s]; [congruence|]. cbn [app starts_digit]. destruct (hex_digit c (C c (or_introl eq_refl))) as (d & ->). reflexivity.
Qed.
Lemma scan_hex b s n rest : b = 0 \/ b = 16 -> hexadecimal s n -> match rest with c :: _ => digit_in 16 c = None | [] => True end ->
  scan b (lit "0x" ++ s ++ rest) = Some (false, n, rest).
Proof.
  intros B H R. unfold scan. change (lit "0x" ++ s ++ rest) with (48 :: 120 :: (s ++ rest)). change (skip_space (48 :: 120 :: (s ++ rest))) with (48 :: 120 :: (s ++ rest)).
  change (sign_of (48 :: 120 :: (s ++ rest))) with (false, 48 :: 120 :: (s ++ rest)).
  assert (HP : hex_prefix (48 :: 120 :: (s ++ rest)) = Some (s ++ rest)) by (cbn [hex_prefix]; rewrite (hexadecimal_starts s n rest H); reflexivity).
  assert (BO : base_of b (48 :: 120 :: (s ++ rest)) = (16, s ++ rest)) by (unfold base_of; rewrite HP; destruct B as [ -> | -> ]; reflexivity).
  cbv beta iota zeta. rewrite BO, (hexadecimal_starts s n rest H). rewrite (digits_rest 16 s rest 0 n (proj1 H) R). reflexivity.
Qed.
Lemma strtoul2_hex s n : hexadecimal s n -> n < two64 -> strtoul2 (lit "0x" ++ s) = Ok n.
Proof.
  intros H L. unfold strtoul2. change (lit "0x" ++ s) with (48 :: 120 :: s). cbv iota beta.
  assert (T : strtoul 10 (48 :: 120 :: s) = (0, 120 :: s, false)) by reflexivity. rewrite T.
  pose proof (scan_hex 16 s n [] (or_intror eq_refl) H Logic.I) as S. rewrite app_nil_r in S. change (lit "0x" ++ s) with (48 :: 120 :: s) in S.
  unfold strtoul. rewrite S. replace (two64 <=? n) with false by (symmetry; apply N.leb_gt; exact L). reflexivity.
Qed.
