(** What a user expects of bf_list: a finite sequence.  Nothing here mentions
    pointers; a node is named by its handle (the address the API gives out). *)
From Coq Require Import NArith List Bool Arith.
From Verif Require Import Bytes.
Import ListNotations.

(** Calls on one list.  [pick] is what the memory allocator proposes. *)
Inductive lop (A : Type) :=
| LAddHead (pick : option nat) (d : A)
| LAddTail (pick : option nat) (d : A)
| LPush (pick : option nat) (d : A)
| LDelete (handle : nat)
| LTakeData (handle : nat)
| LGetAt (i : N)
| LSize
| LRead            (* bf_list_foreach *)
| LReadRev         (* bf_list_foreach_rev *)
| LDropIf (f : A -> bool)  (* bf_list_foreach deleting some nodes on the way *)
| LClean.
Arguments LAddHead {A}. Arguments LAddTail {A}. Arguments LPush {A}.
Arguments LDelete {A}.  Arguments LTakeData {A}. Arguments LGetAt {A}.
Arguments LSize {A}.    Arguments LRead {A}.     Arguments LReadRev {A}.
Arguments LDropIf {A}.  Arguments LClean {A}.

(** What the caller observes. *)
Inductive lans (A : Type) :=
| LCode (rc : N)                 (* return code, 0 or a positive errno *)
| LKept (rc : N) (left : option A) (* return code and what remains the caller's *)
| LGave (d : option A)
| LNum (n : N)
| LSaw (l : list (nat * A))
| LFreed (l : list A).           (* the data passed to the free callback, in order *)
Arguments LCode {A}. Arguments LKept {A}. Arguments LGave {A}. Arguments LNum {A}.
Arguments LSaw {A}.  Arguments LFreed {A}.

Definition handles {A} (l : list (nat * A)) : list nat := map fst l.
Definition usable {A} (l : list (nat * A)) (pick : option nat) : option nat :=
  match pick with
  | Some p => if in_dec Nat.eq_dec p (handles l) then None else Some p
  | None => None
  end.

(** A caller may only name nodes that are in the list. *)
Definition lvalid {A} (l : list (nat * A)) (o : lop A) : Prop :=
  match o with
  | LDelete a | LTakeData a => In a (handles l)
  | _ => True
  end.

Definition without {A} (l : list (nat * A)) (a : nat) : list (nat * A) :=
  filter (fun e => negb (Nat.eqb (fst e) a)) l.
Definition data_of {A} (l : list (nat * A)) (a : nat) : option A :=
  option_map snd (find (fun e => Nat.eqb (fst e) a) l).

(** The sequence after the call, and the answer.  [nul] is the NULL pointer. *)
Definition lspec {A} (nul : A) (l : list (nat * A)) (o : lop A) : list (nat * A) * lans A :=
  match o with
  | LAddHead pick d =>
      match usable l pick with
      | Some p => ((p, d) :: l, LCode 0)
      | None => (l, LCode ENOMEM)
      end
  | LAddTail pick d =>
      match usable l pick with
      | Some p => (l ++ [(p, d)], LCode 0)
      | None => (l, LCode ENOMEM)
      end
  | LPush pick d =>
      match usable l pick with
      | Some p => (l ++ [(p, d)], LKept 0 None)
      | None => (l, LKept ENOMEM (Some d))
      end
  | LDelete a => (without l a, LGave (data_of l a))
  | LTakeData a =>
      (map (fun e => if Nat.eqb (fst e) a then (a, nul) else e) l, LGave (data_of l a))
  | LGetAt i => (l, LGave (option_map snd (nth_error l (N.to_nat i))))
  | LSize => (l, LNum (N.of_nat (length l)))
  | LRead => (l, LSaw l)
  | LReadRev => (l, LSaw (rev l))
  | LDropIf f =>
      (filter (fun e => negb (f (snd e))) l, LFreed (filter f (map snd l)))
  | LClean => ([], LFreed (map snd l))
  end.

Fixpoint lvalids {A} (nul : A) (l : list (nat * A)) (os : list (lop A)) : Prop :=
  match os with
  | [] => True
  | o :: r => lvalid l o /\ lvalids nul (fst (lspec nul l o)) r
  end.
Fixpoint lspecs {A} (nul : A) (l : list (nat * A)) (os : list (lop A))
  : list (nat * A) * list (lans A) :=
  match os with
  | [] => (l, [])
  | o :: r =>
      let x := lspec nul l o in
      let y := lspecs nul (fst x) r in (fst y, snd x :: snd y)
  end.
