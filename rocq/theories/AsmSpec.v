(** What a linked program is supposed to be, said without the fixups: each
    emission puts a known number of instructions at a known place, and each
    reference is to something. *)
From Coq Require Import ZArith NArith List Lia Bool.
From Verif Require Import Bytes Types BpfModel GenModel Frag AsmModel.
Import ListNotations.

(** What stands behind one instruction. *)
Inductive ref :=
| R_ins (w : word)                 (** itself *)
| R_skip (w : word) (n : nat)      (** a jump over the next n instructions *)
| R_open (w : word)                (** a jump to a next rule that never comes *)
| R_map (k : mapref) (w : word)    (** a load of a map *)
| R_call (id : nat)                (** a call of a stub *)
| R_text (m : list N)              (** the offset of a message *)
| R_len (m : list N).              (** the length of a message, NUL included *)

(** Instructions of a step, and up to the end of the rule. *)
Definition width (s : step) : nat := match s with E_end => 0 | E_print _ => 4 | _ => 1 end.
Fixpoint to_end (l : list step) : option nat :=
  match l with
  | [] => None
  | E_end :: _ => Some 0
  | s :: r => option_map (Nat.add (width s)) (to_end r)
  end.

Fixpoint layout (l : list step) : list ref :=
  match l with
  | [] => []
  | E_ins w :: r => R_ins w :: layout r
  | E_next w :: r => match to_end r with Some n => R_skip w n | None => R_open w end :: layout r
  | E_map k w :: r => R_map k w :: layout r
  | E_call id :: r => R_call id :: layout r
  | E_print m :: r => R_map M_printer ld_text :: R_text m :: R_len m :: R_ins call_printk :: layout r
  | E_end :: r => layout r
  end.

(** The message at an offset of the printer map: its bytes, then a NUL. *)
Definition text_at (buf : list N) (off : nat) (m : list N) : Prop :=
  firstn (length m + 1) (skipn off buf) = m ++ [0%N].

(** The instruction of a stub: as compiled, except that the loads of strings
    point into the printer map. *)
Definition stub_ref (st : stub) (j : nat) (x : word) : ref :=
  match find (fun p => Nat.eqb (fst p) j) (st_strs st) with
  | Some _ => R_map M_printer ld_text
  | None =>
      match find (fun p => Nat.eqb (S (fst p)) j) (st_strs st) with
      | Some p => R_text (snd p)
      | None => R_ins x
      end
  end.

(** What the instruction at place [i] of the image must be. *)
Definition plain_means (E : env) (buf : list N) (r : ref) (w : word) : Prop :=
  match r with
  | R_ins x | R_open x => w = x
  | R_skip x n =>   (* as an int16_t: the jump itself when it fits *)
      w = set_off x (to_s16 (Z.of_nat n))
      /\ ((Z.of_nat n < 32768)%Z -> w = set_off x (Z.of_nat n))
  | R_map k x => w = match e_fd E k with Some fd => set_imm x fd | None => x end
  | R_text m => exists off, w = text_half (Z.of_nat off) /\ text_at buf off m
  | R_len m => w = mov_len (Z.of_nat (length m + 1))
  | R_call _ => False
  end.
Definition stub_at (E : env) (buf : list N) (img : list word) (t : nat) (st : stub) : Prop :=
  forall j x, nth_error (st_insns st) j = Some x ->
    exists w, nth_error img (t + j) = Some w /\ plain_means E buf (stub_ref st j x) w.
Definition means (E : env) (buf : list N) (img : list word) (i : nat) (r : ref) (w : word) : Prop :=
  match r with
  | R_call id =>
      exists t st, e_stub E id = Some st /\ (i < t)%nat
        /\ w = set_imm call_rel (Z.of_nat t - Z.of_nat i - 1)
        /\ stub_at E buf img t st
  | _ => plain_means E buf r w
  end.

(** A stub's string loads are two instructions each and do not overlap: what
    the compiler emits. *)
Definition loads_apart (st : stub) : Prop :=
  ForallOrdPairs (fun p q => (S (fst p) < fst q \/ S (fst q) < fst p)%nat) (st_strs st)
  /\ Forall (fun p => (S (fst p) < length (st_insns st))%nat) (st_strs st).

(** When a program can be put together: jumps that fit, references that exist
    and are still open. *)
Definition ready (E : env) (r : ref) : Prop :=
  match r with
  | R_skip x n => w_off x = 0%Z /\ (Z.of_nat n < 32767)%Z
  | R_map k x => w_imm x = 0%Z /\ (e_fd E k <> None \/ k = M_log \/ k = M_state)
  | R_call id => e_stub E id <> None
  | _ => True
  end.
(** The most instructions it can have: its own and those of a stub per call. *)
Definition call_size (E : env) (r : ref) : nat :=
  match r with
  | R_call id => match e_stub E id with Some st => length (st_insns st) | None => 0 end
  | _ => 0
  end.
Definition at_most (E : env) (l : list step) : nat :=
  length (layout l) + list_sum (map (call_size E) (layout l)).

(** The maps and stubs the generated program names (elfstub.h:93-173 for the
    numbers of the stubs). *)
Definition map_named (m : mapid) : mapref :=
  match m with MCnt => M_counters | MLog => M_log | MState => M_state | MSet g => M_set g end.
Definition stub_named (c : callee) : option nat :=
  match c with
  | StubIp6Eh => Some 0 | StubIp6Nh => Some 1 | StubCounters => Some 2
  | StubLog => Some 3 | StubFlowHash => Some 4 | StubSockLog => Some 5
  | _ => None
  end.
(** An instruction of the program GenModel generates, in the image. *)
Definition carried (E : env) (enc : insn -> word) (buf : list N) (img : list word) (i : nat) (x : insn) (w : word) : Prop :=
  match x with
  | LdMap _ m => w = match e_fd E (map_named m) with Some fd => set_imm (enc x) fd | None => enc x end
  | Call c =>
      match stub_named c with
      | Some id =>
          exists t st, e_stub E id = Some st /\ (i < t)%nat
            /\ w = set_imm call_rel (Z.of_nat t - Z.of_nat i - 1)
            /\ stub_at E buf img t st
      | None => w = enc x
      end
  | _ => w = enc x
  end.
(** The encoding of a jump keeps its offset where the offset belongs. *)
Definition jumps_encoded (enc : insn -> word) : Prop :=
  forall i o, jumpish i = true -> enc (GenModel.set_off i o) = AsmModel.set_off (enc i) o.

(** Each stub that is called is there once. *)
Definition stub_size (E : env) (id : nat) : nat :=
  match e_stub E id with Some st => length (st_insns st) | None => 0 end.
