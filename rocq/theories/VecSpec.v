(** What a user expects of bf_vector: a growable array of fixed-size elements. *)
From Coq Require Import NArith List Bool.
From Verif Require Import Bytes.
Import ListNotations.
Local Open Scope N_scope.

Definition EOVERFLOW : N := 75.

(** Calls on one vector.  An element is its byte string.  [room n] tells whether
    the allocator grants a buffer of [n] bytes; [junk] is what the newly granted
    bytes happen to contain. *)
Inductive vop :=
| VAdd (room : N -> bool) (junk : nat -> N) (e : list N)
| VAddMany (room : N -> bool) (junk : nat -> N) (es : list (list N))
| VSet (i : N) (e : list N)
| VRemove (i : N)
| VGet (i : N)
| VReserve (room : N -> bool) (junk : nat -> N) (n : N)
| VSize
| VRead            (* bf_vector_foreach *)
| VTake            (* the caller receives the buffer *)
| VClean.

Inductive vans :=
| VCode (rc : N)
| VGave (e : option (list N))
| VNum (n : N)
| VSaw (es : list (list N))
| VBuf (bytes : list N).

(** Elements passed by the caller have the size the vector was created with. *)
Definition vvalid (esz : N) (o : vop) : Prop :=
  match o with
  | VAdd _ _ e | VSet _ e => N.of_nat (length e) = esz
  | VAddMany _ _ es => Forall (fun e => N.of_nat (length e) = esz) es
  | _ => True
  end.

Definition refusal (rc : N) : Prop := rc = ENOMEM \/ rc = EOVERFLOW.

Definition replace_at (l : list (list N)) (i : nat) (e : list N) : list (list N) :=
  firstn i l ++ e :: skipn (S i) l.
Definition remove_at (l : list (list N)) (i : nat) : list (list N) :=
  firstn i l ++ skipn (S i) l.

Inductive vstep (esz : N) : list (list N) -> vop -> vans -> list (list N) -> Prop :=
| VS_add l rm jk e : vstep esz l (VAdd rm jk e) (VCode 0) (l ++ [e])
| VS_add_no l rm jk e rc : refusal rc -> vstep esz l (VAdd rm jk e) (VCode rc) l
| VS_many l rm jk es : vstep esz l (VAddMany rm jk es) (VCode 0) (l ++ es)
| VS_many_no l rm jk es rc : refusal rc -> es <> [] -> vstep esz l (VAddMany rm jk es) (VCode rc) l
| VS_set l i e : i < N.of_nat (length l) ->
    vstep esz l (VSet i e) (VCode 0) (replace_at l (N.to_nat i) e)
| VS_set_no l i e : N.of_nat (length l) <= i -> vstep esz l (VSet i e) (VCode EINVAL) l
| VS_remove l i : i < N.of_nat (length l) ->
    vstep esz l (VRemove i) (VCode 0) (remove_at l (N.to_nat i))
| VS_remove_no l i : N.of_nat (length l) <= i -> vstep esz l (VRemove i) (VCode EINVAL) l
| VS_get l i : vstep esz l (VGet i) (VGave (nth_error l (N.to_nat i))) l
| VS_reserve l rm jk n rc : rc = 0 \/ refusal rc -> vstep esz l (VReserve rm jk n) (VCode rc) l
| VS_size l : vstep esz l VSize (VNum (N.of_nat (length l))) l
| VS_read l : vstep esz l VRead (VSaw l) l
| VS_take l rest : vstep esz l VTake (VBuf (concat l ++ rest)) []
| VS_clean l : vstep esz l VClean (VCode 0) [].

Inductive vsteps (esz : N) : list (list N) -> list vop -> list vans -> list (list N) -> Prop :=
| VS_nil l : vsteps esz l [] [] l
| VS_cons l o a l' os ans l'' :
    vstep esz l o a l' -> vsteps esz l' os ans l'' -> vsteps esz l (o :: os) (a :: ans) l''.
