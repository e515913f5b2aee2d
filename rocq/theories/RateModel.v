(** bfcli: the rate of "log every", parser.y _parse_log_rate, in IEEE-754 binary64. *)
From Coq Require Import String NArith ZArith List Bool Arith.
From Coq.Floats Require Import SpecFloat.
From Verif Require Import Bytes Types GenModel StrModel.
Import ListNotations.
Local Open Scope string_scope.
Local Open Scope list_scope.
Local Open Scope N_scope.
Local Open Scope res_scope.

Definition fl (n : N) : spec_float := match n with 0 => S754_zero false | Npos p => S754_finite false p 0 end.

(** The double nearest to n / d (ties to even). *)
Definition nearest (n d : N) : spec_float := SFdiv 53 1024 (fl n) (fl d).

(** The longest prefix of digits in base [b]: its value and its length, what follows. *)
Fixpoint run (b acc : N) (len : nat) (s : cstr) : N * nat * cstr :=
  match s with
  | c :: r => match digit_in b c with
              | Some d => run b (acc * b + d) (S len) r
              | None => (acc, len, s)
              end
  | [] => (acc, len, [])
  end.

(** An exponent, if there is one: a letter, then digits. *)
Definition exponent (lower b n : N) (s : cstr) : N * cstr :=
  match s with
  | c :: r =>
      if (c =? lower) || (c =? lower - 32) then
        let '(e, k, r1) := run 10 0 0 r in
        match k with O => (n, s) | _ => (n * b ^ e, r1) end
      else (n, s)
  | [] => (n, s)
  end.

(** strtod (ISO C 7.22.1.3) on the texts that can follow "every", lexer.l:47, 101-108,
    294: digits, a fraction and lower case letters, or letters and digits.  A sign, blanks
    and hexadecimal fractions can not occur.  "inf" and "nan" are read as 0 here: the
    caller refuses all three. *)
Definition strtod (s : cstr) : spec_float * cstr :=
  let plain :=
    let '(n, _, r) := run 10 0 0 s in
    let '(m, k, r1) :=
      match r with
      | 46 :: r1 => let '(m, k, r2) := run 10 n 0 r1 in match k with O => (n, O, r) | _ => (m, k, r2) end
      | _ => (n, O, r)
      end in
    let (v, r2) := exponent 101 10 m r1 in
    (nearest v (10 ^ N.of_nat k), r2) in
  match s with
  | 48 :: x :: r =>
      if (x =? 120) || (x =? 88) then
        let '(n, k, r1) := run 16 0 0 r in
        match k with
        | O => plain
        | _ => let (v, r2) := exponent 112 2 n r1 in (nearest v 1, r2)
        end
      else plain
  | _ => plain
  end.

(** (uint64_t)x: undefined outside of the range. *)
Definition to_u64 (x : spec_float) : res N :=
  match x with
  | S754_zero _ => Ok 0
  | S754_finite false m e =>
      let v := match e with
               | Z0 => Npos m
               | Zpos p => Npos m * 2 ^ Npos p
               | Zneg p => Npos m / 2 ^ Npos p
               end in
      if v <? two64 then Ok v else Er EUB
  | _ => Er EUB
  end.

Definition half : spec_float := S754_finite false 4503599627370496 (-53).

(** parser.y:85-95. *)
Definition multiplier (u : cstr) : option N :=
  if streq u (lit "ns") then Some 1
  else if streq u (lit "us") then Some 1000
  else if streq u (lit "ms") then Some 1000000
  else if streq u (lit "s") then Some 1000000000
  else None.

(** parser.y:75-107 _parse_log_rate: the result in nanoseconds.  "isfinite" holds: see
    [strtod].  (double)UINT64_MAX is 2^64. *)
Definition parse_log_rate (s : cstr) : res N :=
  let (v, rest) := strtod s in
  if SFleb v (S754_zero false) then Er EINVAL
  else match multiplier rest with
  | None => Er EINVAL
  | Some k =>
      match v with
      | S754_finite _ _ _ =>
          if SFltb (nearest two64 k) v then Er EINVAL
          else
            ns <- to_u64 (SFadd 53 1024 (SFmul 53 1024 v (nearest k 1)) half) ;
            if ns =? 0 then Er EINVAL else Ok ns
      | _ => Er EINVAL
      end
  end.
