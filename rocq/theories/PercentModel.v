(** meta.probability: percentages, in IEEE-754 binary32. *)
From Coq Require Import String NArith ZArith List Bool Arith.
From Coq.Floats Require Import SpecFloat.
From Verif Require Import Bytes Types GenModel StrModel RateModel PrintModel.
Import ListNotations.
Local Open Scope string_scope.
Local Open Scope list_scope.
Local Open Scope N_scope.

(** (float)x, to the nearest, ties to even. *)
Definition to_float (x : spec_float) : spec_float :=
  match x with S754_finite s m e => binary_round 24 128 s m e | _ => x end.
(** The bytes of a float that is not negative. *)
Definition float_bytes (x : spec_float) : list N :=
  le_enc 4 (match x with
            | S754_zero _ => 0
            | S754_finite _ m e => if Npos m <? 2 ^ 23 then Npos m else Z.to_N (e + 150) * 2 ^ 23 + (Npos m - 2 ^ 23)
            | S754_infinity _ => 255 * 2 ^ 23
            | S754_nan => 511 * 2 ^ 22
            end).
(** A float that is neither negative nor infinite is m * 2^e. *)
Definition float_value (b : list N) : N * Z :=
  let w := le_dec (firstn 4 b) in
  let e := (w / 2 ^ 23) mod 256 in
  let f := w mod 2 ^ 23 in
  if e =? 0 then (f, (-149)%Z) else (f + 2 ^ 23, (Z.of_N e - 150)%Z).

(** matcher.c:376-398 _bf_parse_probability, on texts that start with a digit or a dot
    (RateModel.strtod).  37 is '%'. *)
Definition percent_of (s : cstr) : option (list N) :=
  let (v, rest) := strtod s in
  match rest with
  | [37] => if SFleb (S754_zero false) v && SFleb v (nearest 100 1) then Some (float_bytes (to_float v)) else None
  | _ => None
  end.

(** n / d rounded to the nearest, ties to even. *)
Definition round_even (n d : N) : N :=
  let q := n / d in
  match 2 * (n mod d) ?= d with
  | Lt => q
  | Gt => q + 1
  | Eq => if N.even q then q else q + 1
  end.
(** The decimal exponent of n / d, from [x] downwards. *)
Fixpoint exponent10 (fuel : nat) (x : Z) (n d : N) : Z :=
  match fuel with
  | O => x
  | S f => if (if (0 <=? x)%Z then 10 ^ Z.to_N x * d <=? n else d <=? n * 10 ^ Z.to_N (- x)) then x else exponent10 f (x - 1)%Z n d
  end.
(** Trailing zeros, which %g does not print. *)
Fixpoint drop_zeros (s : cstr) : cstr := match s with 48 :: r => drop_zeros r | _ => s end.
Definition no_zeros (s : cstr) : cstr := rev (drop_zeros (rev s)).
Definition pad (k : nat) (s : cstr) : cstr := repeat 48 (k - length s) ++ s.
(** printf("%g") of n / d, 0 < n / d < 10^6: six significant digits (ISO C 7.21.6.1). *)
Definition g_text (n d : N) : cstr :=
  let x0 := exponent10 60 5 n d in
  let r := round_even (n * 10 ^ Z.to_N (5 - x0)) d in
  let (m, x) := if r =? 1000000 then (100000, (x0 + 1)%Z) else (r, x0) in
  let with_point a b := match b with [] => a | _ => a ++ 46 :: b end in
  if (x <? -4)%Z then
    with_point (dec (m / 100000)) (no_zeros (pad 5 (dec (m mod 100000)))) ++ lit "e-" ++ pad 2 (dec (Z.to_N (- x)))
  else
    let k := Z.to_N (5 - x) in
    with_point (dec (m / 10 ^ k)) (no_zeros (pad (N.to_nat k) (dec (m mod 10 ^ k)))).
(** matcher.c:400-409 _bf_print_probability. *)
Definition percent_text (b : list N) : cstr :=
  let (m, e) := float_value b in
  match e with
  | Zneg p => if m mod 2 ^ Npos p =? 0 then dec (m / 2 ^ Npos p) else g_text m (2 ^ Npos p)
  | _ => dec (m * 2 ^ Z.to_N e)
  end ++ lit "%".
