(** Marks and rate-limited logs over a packet and over histories.  No proofs. *)
From Coq Require Import NArith ZArith List Bool.
From Verif Require Import Bytes Types World BpfModel GenModel PktSpec EvalSpec Deploy.
Import ListNotations.
Local Open Scope N_scope.

(** The rules of a chain that act on a packet: they are looked at and match. *)
Definition acting (D : dialect) (thr : list N -> option N) (sets : list bset) (v : view) (rs : list rule) : list rule :=
  filter (matches D thr sets v) (looked_at D thr sets v rs).

(** The mark left by a list of acting rules: the last mark set, or the original. *)
Definition mark_after (rs : list rule) (m0 : N) : N :=
  fold_left (fun m r => if mark_is_set r then mark_get r else m) rs m0.

(** Published entries of a rule. *)
Definition entries (i : N) (w : world) : list logent := filter (fun l => lg_rule l =? i) (w_log w).

(** A rate-limited source: [evs] are the packets that matched the rule, oldest first,
    each with the time it was seen and whether it was let through; [last] is the time
    of the latest one that went through before.  One goes through exactly when at
    least [rate] nanoseconds have passed since the previous one that did. *)
Fixpoint limited (rate last : N) (evs : list (N * bool)) : Prop :=
  match evs with
  | [] => True
  | (now, b) :: rest => b = (rate <=? since now last) /\ limited rate (if b then now else last) rest
  end.

Definition last_through (last : N) (evs : list (N * bool)) : N :=
  fold_left (fun l (p : N * bool) => if snd p then fst p else l) evs last.

Definition through (evs : list (N * bool)) : nat := length (filter snd evs).

(** Does rule [r] of chain [c] act on the packet of [e]? *)
Definition acts (c : chain) (e : env) (r : rule) : bool :=
  match view_of e c with
  | Some v => existsb (fun q => r_index q =? r_index r) (acting Generated prob_threshold (c_sets c) v (c_rules c))
  | None => false
  end.
