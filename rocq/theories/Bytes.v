(** Byte strings and integer encodings used by every model file.
    Bytes are [N] values; "is a byte" is the predicate [byte].  The machines
    bpfilter supports (x86-64, arm64) are little-endian, so a C scalar in memory
    is read with [le_dec]; network order is read with [be_dec]. *)
From Coq Require Import NArith ZArith List Bool.
Import ListNotations.
Local Open Scope N_scope.

Definition byte (b : N) : Prop := b < 256.
Definition bytes (l : list N) : Prop := Forall byte l.

(** Value of a little-endian byte string. *)
Fixpoint le_dec (l : list N) : N :=
  match l with
  | [] => 0
  | b :: r => b + 256 * le_dec r
  end.

(** [n]-byte little-endian encoding of [v] (truncates to [8*n] bits). *)
Fixpoint le_enc (n : nat) (v : N) : list N :=
  match n with
  | O => []
  | S k => v mod 256 :: le_enc k (v / 256)
  end.

(** Value of a big-endian (network order) byte string. *)
Fixpoint be_acc (acc : N) (l : list N) : N :=
  match l with
  | [] => acc
  | b :: r => be_acc (acc * 256 + b) r
  end.
Definition be_dec (l : list N) : N := be_acc 0 l.

(** Sub-string of [n] bytes at offset [o]. *)
Definition sub (l : list N) (o n : nat) : list N := firstn n (skipn o l).

(** Byte at offset [o] (0 when out of range; only used in range). *)
Definition byte_at (l : list N) (o : nat) : N := nth o l 0.

Fixpoint bytes_eqb (a b : list N) : bool :=
  match a, b with
  | [], [] => true
  | x :: a', y :: b' => (x =? y) && bytes_eqb a' b'
  | _, _ => false
  end.

Definition two16 : N := 65536.
Definition two31 : N := 2147483648.
Definition two32 : N := 4294967296.
Definition two64 : N := 18446744073709551616.

Definition swap16 (v : N) : N := (v mod 256) * 256 + (v / 256) mod 256.

(** C conversion of a 32-bit unsigned value to the signed 32-bit immediate of a
    BPF instruction. *)
Definition i32 (v : N) : Z :=
  let u := v mod two32 in
  if u <? two31 then Z.of_N u else (Z.of_N u - Z.of_N two32)%Z.

(** C conversion of an integer to [int16_t] (jump offsets). *)
Definition i16 (z : Z) : Z := ((z + 32768) mod 65536 - 32768)%Z.

(** Sign extension of an immediate to a 64-bit register value, and truncation
    to a 32-bit one. *)
Definition imm64 (z : Z) : N := Z.to_N (z mod Z.of_N two64)%Z.
Definition imm32 (z : Z) : N := Z.to_N (z mod Z.of_N two32)%Z.

(** Results of the C functions: [Ok] or a (positive) errno. *)
Inductive res (A : Type) : Type := Ok (a : A) | Er (errno : N).
Arguments Ok {A} a.
Arguments Er {A} errno.

Definition EPERM := 1%N.   Definition ENOENT := 2%N.  Definition EBADF := 9%N.
Definition ENOMEM := 12%N. Definition EBUSY := 16%N.  Definition EEXIST := 17%N.
Definition EINVAL := 22%N. Definition EDOM := 33%N.   Definition ENOTEMPTY := 39%N.
Definition E2BIG := 7%N.   Definition ENOTSUP := 95%N. Definition EWOULDBLOCK := 11%N.

Definition bind {A B} (r : res A) (f : A -> res B) : res B :=
  match r with Ok a => f a | Er e => Er e end.
Declare Scope res_scope.
Delimit Scope res_scope with res.
Notation "x <- m ; k" := (bind m (fun x => k)) (at level 61, m at next level, right associativity) : res_scope.
