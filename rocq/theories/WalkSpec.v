(** IPv6 extension headers as RFC 8200 (section 4), RFC 4302 (AH) and RFC 6275
    (mobility) lay them out.  Independent of the code generator. *)
From Coq Require Import NArith List Bool.
Import ListNotations.
Local Open Scope N_scope.

Definition octet (d : list N) (o : N) : N := nth (N.to_nat o) d 0.

(** Hop-by-hop, routing, fragment, authentication, destination options, mobility. *)
Definition ext_types : list N := [0; 43; 44; 51; 60; 135].

(** Size of the extension header of type [t] found at offset [o]. *)
Definition ext_size (d : list N) (t o : N) : N :=
  if t =? 44 then 8
  else if t =? 51 then (octet d (o + 1) + 2) * 4
  else (octet d (o + 1) + 1) * 8.

(** [transport_at d t o hs p q]: reading packet [d] from offset [o], where a header of
    type [t] starts, one meets the extension headers [hs] (type, offset), and then the
    upper-layer header, of protocol [p], at offset [q]. *)
Inductive transport_at (d : list N) : N -> N -> list (N * N) -> N -> N -> Prop :=
| ta_end : forall t o, ~ In t ext_types -> transport_at d t o [] t o
| ta_ext : forall t o hs p q, In t ext_types -> o + 2 <= N.of_nat (length d) ->
    transport_at d (octet d o) (o + ext_size d t o) hs p q -> transport_at d t o ((t, o) :: hs) p q.

(** The reserved octet of every fragment header is zero, as senders must set it. *)
Definition reserved_zero (d : list N) (hs : list (N * N)) : Prop := forall o, In (44, o) hs -> octet d (o + 1) = 0.

(** Is an extension header of type [t] among [hs]? *)
Definition has_ext (t : N) (hs : list (N * N)) : bool := existsb (fun h => fst h =? t) hs.
