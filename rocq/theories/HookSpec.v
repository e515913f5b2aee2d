(** Hook options as the user writes them. *)
From Coq Require Import String NArith ZArith List.
From Verif Require Import Bytes Types StrModel PackModel PackSpec HookModel.
Import ListNotations.
Local Open Scope string_scope.
Local Open Scope list_scope.
Local Open Scope N_scope.

(** What one "name=value" text says. *)
Inductive setting := S_ifindex (n : N) | S_cgpath (s : cstr) | S_family | S_priorities (a b : N).

(** The number a text begins with, as strtoul(text, NULL, 0) reads it (blanks, an
    optional sign, 0x or 0 prefix; 0 if there is none), below 2^31. *)
Definition number (s : cstr) (n : N) : Prop := (exists rest, strtoul 0 s = (n, rest, false)) /\ n < two31.

Inductive reads : cstr -> setting -> Prop :=
| RD_ifindex v n : number v n -> reads (lit "ifindex=" ++ v) (S_ifindex n)
| RD_cgpath v : reads (lit "cgpath=" ++ v) (S_cgpath v)
| RD_family v : v = lit "inet4" \/ v = lit "inet6" -> reads (lit "family=" ++ v) S_family
| RD_priorities x y a b : ~ In 45 x -> y <> [] -> number x a -> number y b -> a <> b -> a <> 0 -> b <> 0 ->
    reads (lit "priorities=" ++ x ++ lit "-" ++ y) (S_priorities a b).

(** At most one setting of each kind, "family=" excepted. *)
Definition kind (s : setting) : optkind :=
  match s with S_ifindex _ => K_IFINDEX | S_cgpath _ => K_CGPATH | S_family => K_FAMILY | S_priorities _ _ => K_PRIORITIES end.
Definition no_duplicates (l : list setting) : Prop :=
  forall a b i j, nth_error l i = Some a -> nth_error l j = Some b -> kind a = kind b -> kind a <> K_FAMILY -> i = j.

(** The options [o] hold exactly the settings of [l]. *)
Definition holds_settings (o : hookopts) (l : list setting) : Prop :=
  (forall z, ho_ifindex o = Some z <-> exists n, In (S_ifindex n) l /\ z = Z.of_N n) /\
  (forall s, ho_cgpath o = Some s <-> In (S_cgpath s) l) /\
  ho_family o = None /\
  (forall p, ho_priorities o = Some p <-> exists a b, In (S_priorities a b) l /\ p = (Z.of_N a, Z.of_N b)).

(** The one option each hook needs. *)
Definition needs (h : hook) : optkind :=
  match h with
  | H_XDP | H_TC_INGRESS | H_TC_EGRESS => K_IFINDEX
  | H_NF_PRE_ROUTING | H_NF_LOCAL_IN | H_NF_FORWARD | H_NF_LOCAL_OUT | H_NF_POST_ROUTING => K_PRIORITIES
  | _ => K_CGPATH
  end.

(** C ints and unsigned ints. *)
Definition is_int (z : Z) : Prop := (- Z.of_N two31 <= z < Z.of_N two31)%Z.
Definition opts_in_range (o : hookopts) : Prop :=
  (forall z, ho_ifindex o = Some z -> is_int z) /\ (forall s, ho_cgpath o = Some s -> ~ In 0 s) /\
  (forall n, ho_family o = Some n -> n < two32) /\
  (forall a b, ho_priorities o = Some (a, b) -> is_int a /\ is_int b).
