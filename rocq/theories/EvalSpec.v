(** Declarative reading of a chain: which rules match a packet, which one decides,
    which counters move.  Independent of the code generator and of the machine. *)
From Coq Require Import NArith ZArith List Bool.
From Verif Require Import Bytes Types World PktSpec.
Import ListNotations.
Local Open Scope N_scope.

(** A rule whose matchers only look at the packet: no random draw, no mark. *)
Definition steady (r : rule) : Prop :=
  forall m, In m (r_matchers r) -> m_type m <> M_PROBABILITY /\ m_type m <> M_MARK.

(** A world that says nothing (used where the world is irrelevant). *)
Definition w_nil : world := mkW (fun _ => (0, 0)) (fun _ => 0) [] 0 0 0 0 None.

Section Read.
  Variable D : dialect.
  Variable thr : list N -> option N.
  Variable sets : list bset.
  Variable v : view.

  (** A matcher accepts the packet: all the protocols it talks about are there and
      its condition (or the opposite one, when negated) holds. *)
  Definition accepts (m : matcher) : bool :=
    forallb (applies D v) (types_of sets m) &&
    xorb (m_neg m)
      (match m_type m with
       | M_FLOW_PROBABILITY => below thr N.leb (v_fhash v) (m_pay m)
       | _ => cond D v w_nil sets m
       end).

  (** A rule matches when it is enabled and all its matchers accept. *)
  Definition matches (r : rule) : bool := negb (r_disabled r) && forallb accepts (r_matchers r).

  Definition terminal (r : rule) : bool := match r_verdict r with V_CONTINUE => false | _ => true end.

  (** The rule that decides: the first one that matches with a terminal verdict. *)
  Definition decider (rs : list rule) : option rule := find (fun r => matches r && terminal r) rs.

  (** The rules that are looked at: up to the decider included. *)
  Fixpoint looked_at (rs : list rule) : list rule :=
    match rs with
    | [] => []
    | r :: rest => if matches r && terminal r then [r] else r :: looked_at rest
    end.

  (** Does the packet move counter [i] of a chain?  Rule counters are numbered by the
      rules' indices; the policy counter comes right after them. *)
  Definition moves (rs : list rule) (i : N) : bool :=
    existsb (fun r => matches r && r_counters r && (r_index r =? i)) (looked_at rs) ||
    ((i =? N.of_nat (length rs)) && match decider rs with None => true | Some _ => false end).
End Read.

(** The rules are numbered by their position. *)
Definition indexed (rs : list rule) : Prop :=
  forall i r, nth_error rs i = Some r -> r_index r = N.of_nat i.

(** One packet of [len] bytes more (64-bit counters). *)
Definition bumped (p : N * N) (len : N) : N * N := ((fst p + 1) mod two64, (snd p + len) mod two64).
