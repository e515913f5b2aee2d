(** A chain, the program generated for it, and an environment it runs in. *)
From Coq Require Import NArith ZArith List Bool.
From Verif Require Import Bytes Types World BpfModel GenModel PktSpec ViewSpec Wf ViewModel HeadFacts5 ProgThm EvalSpec.
Import ListNotations.
Local Open Scope N_scope.

(** [prog] was generated for [c] and runs in [e].  The two size conditions exclude
    rules of more than 100 matchers (finding F7: 16-bit jump offsets) and set keys of
    more than 64 bytes (finding F29). *)
Record deployed (c : chain) (prog : list insn) (e : env) : Prop := mkDep {
  dp_chain : wf_chain c;
  dp_small : forall r, In r (c_rules c) -> (length (r_matchers r) <= 100)%nat;
  dp_keys : forall r m, In r (c_rules c) -> In m (r_matchers r) -> key_fits c m;
  dp_gen : gen_program c = Ok prog;
  dp_env : wf_env c e
}.

(** Running the program on the packet of [e], with one step per instruction. *)
Definition exec (e : env) (prog : list insn) (w : world) : outcome := run e prog (length prog) 0 (start w).

(** The packet as the program reads it; None when a header is missing. *)
Definition view_of (e : env) (c : chain) : option view := seen e c.

(** Does the packet of [e] move counter [i] of chain [c]?  Rule and policy counters as
    in [moves]; the error counter (number of rules + 1) when a header is missing. *)
Definition hit (c : chain) (e : env) (i : N) : bool :=
  match view_of e c with
  | Some v => moves Generated prob_threshold (c_sets c) v (c_rules c) i
  | None => i =? n_rules c + 1
  end.

(** ** Histories of packets *)
Definition with_mark (w : world) (m : N) : world := w_set_mark w m.

(** The program is run on each packet in turn; each packet comes with its own mark;
    counters, rate-limit stamps, log and random source persist. *)
Fixpoint play (prog : list insn) (ps : list (env * N)) (w : world) : option world :=
  match ps with
  | [] => Some w
  | (e, mk) :: rest =>
      match exec e prog (with_mark w mk) with
      | Done _ w' => play prog rest w'
      | _ => None
      end
  end.

(** Packets and bytes of a history that move counter [i]. *)
Definition npkts (c : chain) (ps : list (env * N)) (i : N) : N :=
  N.of_nat (length (filter (fun p => hit c (fst p) i) ps)).

Definition nbytes (c : chain) (ps : list (env * N)) (i : N) : N :=
  fold_right N.add 0 (map (fun p => p_len (packet_of (fst p) (c_hook c))) (filter (fun p => hit c (fst p) i) ps)).
