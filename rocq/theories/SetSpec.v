(** What a user expects of bf_set. *)
From Coq Require Import NArith List Bool Arith.
From Verif Require Import Bytes Types ListModel HashModel SetModel.
Import ListNotations.
Local Open Scope N_scope.

(** A component may be part of a set key when its matcher has the "in" operator. *)
Definition set_capable (t : mtype) : Prop := ops_size t OP_IN <> None.
Definition network (t : mtype) : Prop :=
  t = M_IP4_SNET \/ t = M_IP4_DNET \/ t = M_IP6_SNET \/ t = M_IP6_DNET.
Definition comp_size (t : mtype) : nat :=
  match ops_size t OP_IN with Some n => n | None => 0 end.

(** The keys bf_set_new accepts. *)
Definition good_key (key : list mtype) : Prop :=
  (1 <= length key <= 8)%nat /\ (forall t, In t key -> set_capable t) /\
  ((1 < length key)%nat -> forall t, In t key -> ~ network t).

Definition In_bytes (l : list (list N)) (e : list N) : bool := existsb (fun x => bytes_eqb x e) l.
Definition union (l a : list (list N)) : list (list N) :=
  l ++ filter (fun e => negb (In_bytes l e)) a.
Definition difference (l r : list (list N)) : list (list N) :=
  filter (fun e => negb (In_bytes r e)) l.

(** The sets a program can build with the API, whatever the allocator does. *)
Inductive set_reachable : uset -> Prop :=
| SR_new name key u : set_new name key = Ok u -> set_reachable u
| SR_add mem nd tb u e u' rc : set_reachable u ->
    set_add_elem mem nd tb u e = Ok (u', rc) -> set_reachable u'
| SR_reserve tb n u u' rc : set_reachable u -> set_reserve tb u n = Ok (u', rc) -> set_reachable u'
| SR_add_many nd tb u v u' v' rc : set_reachable u -> set_reachable v ->
    set_add_many nd tb u v = Ok (u', v', rc) -> set_reachable u'
| SR_add_many_left nd tb u v u' v' rc : set_reachable u -> set_reachable v ->
    set_add_many nd tb u v = Ok (u', Some v', rc) -> set_reachable v'
| SR_remove_many u v u' v' rc : set_reachable u -> set_reachable v ->
    set_remove_many u v = Ok (u', v', rc) -> set_reachable u'
| SR_remove_many_left u v u' v' rc : set_reachable u -> set_reachable v ->
    set_remove_many u v = Ok (u', Some v', rc) -> set_reachable v'.
