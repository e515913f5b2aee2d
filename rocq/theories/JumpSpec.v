(** Jumps of a program that stay inside it. *)
From Coq Require Import ZArith List.
From Verif Require Import BpfModel.
Import ListNotations.

(** The offset of a jump instruction. *)
Definition jump_offset (i : insn) : option Z :=
  match i with Jmp _ _ _ _ o => Some o | Ja o => Some o | _ => None end.

(** Every jump goes forward, to an instruction of the program, and not into the second
    half of a two-slot instruction. *)
Definition jumps_inside (prog : list insn) : Prop :=
  forall k i o, nth_error prog k = Some i -> jump_offset i = Some o ->
    (0 <= o)%Z /\ exists j, nth_error prog (k + 1 + Z.to_nat o) = Some j /\ j <> Pad.
