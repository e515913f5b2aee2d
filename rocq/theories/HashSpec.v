(** What a user expects of bf_hashset: a finite set that remembers the order in
    which its elements were added.  [eqb] is the user's equality callback. *)
From Coq Require Import NArith List Bool.
From Verif Require Import Bytes.
Import ListNotations.

(** Calls on one set.  [node] is what the allocator proposes for a new element
    and [table] tells whether the allocation of a slot array of that many slots
    would succeed. *)
Inductive hop (A : Type) :=
| HAdd (node : option nat) (table : N -> bool) (x : A)
| HContains (x : A)
| HDelete (x : A)
| HTake (x : A)
| HReserve (table : N -> bool) (n : N)
| HSize
| HEmpty
| HRead            (* bf_hashset_foreach *)
| HClean.
Arguments HAdd {A}.  Arguments HContains {A}. Arguments HDelete {A}. Arguments HTake {A}.
Arguments HReserve {A}. Arguments HSize {A}. Arguments HEmpty {A}. Arguments HRead {A}. Arguments HClean {A}.

Inductive hans (A : Type) :=
| HCode (rc : N)
| HTook (rc : N) (d : option A)
| HBool (b : bool)
| HNum (n : N)
| HSaw (l : list A)
| HFreed (rc : N) (l : list A). (* the data passed to the free callback, in order *)
Arguments HCode {A}. Arguments HTook {A}. Arguments HBool {A}. Arguments HNum {A}.
Arguments HSaw {A}.  Arguments HFreed {A}.

Section Spec.
Context {A : Type} (eqb : A -> A -> bool).

Definition member (l : list A) (x : A) : bool := existsb (fun y => eqb y x) l.
Definition minus (l : list A) (x : A) : list A := filter (fun y => negb (eqb y x)) l.

(** The equality callback is an equivalence and the hash callback respects it. *)
Definition good_callbacks (hash : A -> N) : Prop :=
  (forall x, eqb x x = true) /\
  (forall x y, eqb x y = true -> eqb y x = true) /\
  (forall x y z, eqb x y = true -> eqb y z = true -> eqb x z = true) /\
  (forall x y, eqb x y = true -> hash x = hash y).

(** No element equals a later one. *)
Fixpoint distinct (l : list A) : Prop :=
  match l with
  | [] => True
  | x :: r => (forall y, In y r -> eqb x y = false) /\ distinct r
  end.

(** One call: contents before, call, answer, contents after. *)
Inductive hstep : list A -> hop A -> hans A -> list A -> Prop :=
| HS_exist l nd tb x : member l x = true -> hstep l (HAdd nd tb x) (HCode EEXIST) l
| HS_add l nd tb x : member l x = false -> hstep l (HAdd nd tb x) (HCode 0) (l ++ [x])
| HS_full l nd tb x : member l x = false -> hstep l (HAdd nd tb x) (HCode ENOMEM) l
| HS_contains l x : hstep l (HContains x) (HBool (member l x)) l
| HS_delete l x y : In y l -> eqb y x = true ->
    hstep l (HDelete x) (HFreed 0 [y]) (minus l x)
| HS_no_delete l x : member l x = false -> hstep l (HDelete x) (HFreed ENOENT []) l
| HS_take l x y : In y l -> eqb y x = true -> hstep l (HTake x) (HTook 0 (Some y)) (minus l x)
| HS_no_take l x : member l x = false -> hstep l (HTake x) (HTook ENOENT None) l
| HS_reserve l tb n rc : rc = 0%N \/ rc = ENOMEM -> hstep l (HReserve tb n) (HCode rc) l
| HS_size l : hstep l HSize (HNum (N.of_nat (length l))) l
| HS_empty l : hstep l HEmpty (HBool (match l with [] => true | _ => false end)) l
| HS_read l : hstep l HRead (HSaw l) l
| HS_clean l : hstep l HClean (HFreed 0 l) [].

Inductive hsteps : list A -> list (hop A) -> list (hans A) -> list A -> Prop :=
| HS_nil l : hsteps l [] [] l
| HS_cons l o a l' os ans l'' :
    hstep l o a l' -> hsteps l' os ans l'' -> hsteps l (o :: os) (a :: ans) l''.
End Spec.
