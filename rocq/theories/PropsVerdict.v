(** C16: the kernel return code of every verdict. *)
From Coq Require Import NArith ZArith List Bool.
From Verif Require Import Bytes Types World BpfModel GenModel PktSpec.
Import ListNotations.
Local Open Scope N_scope.

(** For every flavor, a verdict the generator accepts is encoded, in the 64-bit
    return register, as the code the kernel uses for it, and the generator accepts
    exactly ACCEPT, DROP and NEXT. *)
Theorem verdict_codes_correct : forall f v k,
  get_verdict f v = Ok k -> kernel_code f v = Some (imm64 k).
Proof. intros [] [] k H; cbn in H; inversion H; subst; reflexivity. Qed.

Theorem verdict_codes_total : forall f v,
  (exists k, get_verdict f v = Ok k) <-> (v = V_ACCEPT \/ v = V_DROP \/ v = V_NEXT).
Proof.
  intros [] []; split; intros H; try (now auto);
    try (destruct H as [k H]; discriminate H);
    try (destruct H as [H|[H|H]]; discriminate H); cbn; eexists; reflexivity.
Qed.

Example verdict_codes_case : get_verdict F_TC V_NEXT = Ok (-1)%Z /\ imm64 (-1) = two64 - 1.
Proof. split; reflexivity. Qed.

Print Assumptions verdict_codes_correct.
Print Assumptions verdict_codes_total.
