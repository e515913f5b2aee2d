(** What the string helpers promise. *)
From Coq Require Import NArith List Bool Arith.
From Verif Require Import Bytes StrModel.
Import ListNotations.
Local Open Scope N_scope.

(** The buffer [m] holds the NUL-terminated string [s] at index [i]. *)
Definition holds (m : mem) (i : nat) (s : cstr) : Prop :=
  (forall c, In c s -> c <> 0) /\ exists junk, skipn i m = s ++ 0 :: junk.

(** Space, \t, \n, \v, \f, \r. *)
Definition blank (c : N) : Prop := c = 32 \/ 9 <= c <= 13.
Definition all_blank (s : cstr) : Prop := forall c, In c s -> blank c.

Definition no_leading_blank (s : cstr) : Prop := forall c r, s = c :: r -> ~ blank c.
Definition no_trailing_blank (s : cstr) : Prop := forall r c, s = r ++ [c] -> ~ blank c.

(** [to]/[from] are the two directions of an enumeration. *)
Definition enum_inverse {A} (to : A -> option cstr) (from : cstr -> res A) : Prop :=
  (forall a, exists s, to a = Some s /\ from s = Ok a) /\
  (forall s a, from s = Ok a <-> to a = Some s) /\
  (forall s, (forall a, to a <> Some s) -> from s = Er EINVAL).

(** The same for a table of names whose case does not matter. *)
Definition lower (c : N) : N := if (65 <=? c) && (c <=? 90) then c + 32 else c.
Definition same_letters (a b : cstr) : Prop := map lower a = map lower b.
Definition names_inverse (to : N -> option cstr) (from : cstr -> res N) : Prop :=
  (forall v n s, to v = Some n -> same_letters s n -> from s = Ok v) /\
  (forall v s, from s = Ok v -> exists n, to v = Some n /\ same_letters s n) /\
  (forall s, (forall v n, to v = Some n -> ~ same_letters s n) -> from s = Er EINVAL).
