(** What the text of a set means, independently of the strtok loops: the key is a list of
    matcher names between parentheses, the payload a list of elements between braces,
    an element a list of values, one for each component of the key. *)
From Coq Require Import NArith List Bool Arith.
From Verif Require Import Bytes Types GenModel StrModel StrSpec EnumModel ParseModel SetSpec.
Import ListNotations.
Local Open Scope N_scope.

(** The pieces of a text between the characters that [sep] accepts; some can be empty. *)
Fixpoint pieces (sep : N -> bool) (s : cstr) : list cstr :=
  match s with
  | [] => [[]]
  | c :: r =>
      if sep c then [] :: pieces sep r
      else match pieces sep r with
           | w :: ws => (c :: w) :: ws
           | [] => [[c]]
           end
  end.

Definition is_blank (c : N) : bool := (c =? 32) || ((9 <=? c) && (c <=? 13)).
Fixpoint drop_blanks (s : cstr) : cstr :=
  match s with
  | c :: r => if is_blank c then drop_blanks r else s
  | [] => []
  end.
(** Without the blanks around it. *)
Definition strip (s : cstr) : cstr := rev (drop_blanks (rev (drop_blanks s))).

Definition nonempty (s : cstr) : bool := match s with [] => false | _ => true end.

(** '(' ')' ','   '{' '}' ';' newline   ',' *)
Definition key_sep (c : N) : bool := (c =? 40) || (c =? 41) || (c =? 44).
Definition elem_sep (c : N) : bool := (c =? 123) || (c =? 125) || (c =? 59) || (c =? 10).
Definition comp_sep (c : N) : bool := c =? 44.

Definition key_texts (s : cstr) : list cstr := map strip (filter nonempty (pieces key_sep s)).
Definition element_texts (s : cstr) : list cstr := filter nonempty (map strip (pieces elem_sep s)).
Definition component_texts (s : cstr) : list cstr := map strip (filter nonempty (pieces comp_sep s)).

(** [value pe t w v]: the bytes [v] are what the text [w] stands for in a component of
    type [t], as in a matcher of that type. *)
Definition value (pe : penv) (t : mtype) (w : cstr) (v : list N) : Prop :=
  exists p old, parser_of pe t OP_IN = Some p /\ length old = comp_size t /\ bytes old /\ p old w = Ok v.

Inductive values (pe : penv) : list mtype -> list cstr -> list N -> Prop :=
| V_nil : values pe [] [] []
| V_cons t ts w ws v vs : value pe t w v -> values pe ts ws vs -> values pe (t :: ts) (w :: ws) (v ++ vs).

(** The bytes of an element: its values, one after the other. *)
Definition element (pe : penv) (key : list mtype) (text : cstr) (e : list N) : Prop :=
  values pe key (component_texts text) e.

Definition key_names (texts : list cstr) (key : list mtype) : Prop :=
  Forall2 (fun w t => mtype_to_str t = Some w) texts key.

(** The first piece that is not empty is not blank: in "{ 80 }" it is " 80 ", in
    "{ newline 80 }" a blank. *)
Definition starts_well (payload : cstr) : Prop :=
  forall w ws, filter nonempty (pieces elem_sep payload) = w :: ws -> strip w <> [].

(** malloc answers with at least the block asked for. *)
Definition heap_ok (heap : nat -> option (list N)) : Prop :=
  forall i h, heap i = Some h -> bytes h /\ (192 <= length h)%nat.
