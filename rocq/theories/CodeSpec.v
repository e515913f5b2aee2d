(** Vocabulary of the properties about pieces of generated code.  No proofs. *)
From Coq Require Import NArith ZArith List Bool.
From Verif Require Import Bytes Types World BpfModel PktSpec.
Import ListNotations.
Local Open Scope N_scope.

(** The instructions, executed one after the other without jump, lead from [s] to [s']. *)
Inductive straight (e : env) : list insn -> st -> st -> Prop :=
| st_nil : forall s, straight e [] s s
| st_cons : forall i r s s1 s', exec e i s = XNext s1 -> straight e r s1 s' -> straight e (i :: r) s s'.

(** The body a switch must run for value [x]: that of the first option equal to [x];
    the default one when there is none. *)
Inductive chosen (x : N) (d : list insn) : list (N * list insn) -> list insn -> Prop :=
| ch_here : forall b r, chosen x d ((x, b) :: r) b
| ch_later : forall y b r b', y <> x -> chosen x d r b' -> chosen x d ((y, b) :: r) b'
| ch_default : chosen x d [] d.

(** Two packets of the same flow: protocols, addresses, ports and IPv6 flow label. *)
Definition flow_label (v : view) : N := be_dec (sub (v_h3 v) 0 4) mod 2 ^ 20.

Record same_flow (a b : view) : Prop := mkFlow {
  sf_l3 : v_l3 a = v_l3 b;
  sf_l4 : v_l4 a = v_l4 b;
  sf_addr : forall t, In t [M_IP4_SADDR; M_IP4_DADDR; M_IP6_SADDR; M_IP6_DADDR] -> present a t = true -> fld a t = fld b t;
  sf_label : has_ip6 a = true -> flow_label a = flow_label b;
  sf_sport : fld a M_SPORT = fld b M_SPORT;
  sf_dport : fld a M_DPORT = fld b M_DPORT
}.
