(** Reasoning about one process that runs alone, with crashes and failures. *)
From Coq Require Import NArith ZArith List Bool Lia.
From Verif Require Import Bytes Types World BpfModel GenModel BytesFacts StrModel SetModel PackModel HookModel KernModel LockModel CtlModel SysSpec SysFacts.
Import ListNotations.
Local Open Scope N_scope.

(** [I] holds in every state, [Q] at the end. *)
Fixpoint wps {A} (F : call -> bool) (p : pid) (I : kst -> Prop) (m : prog A) (Q : A -> kst -> Prop) (k : kst) : Prop :=
  I k /\
  match m with
  | Ret a => Q a k
  | Do c f => forall d, env_ok F c d -> wps F p I (f (snd (ksys k p c d))) Q (fst (ksys k p c d))
  end.

Lemma wps_inv {A} F p I (m : prog A) Q k : wps F p I m Q k -> I k.
Proof. destruct m; intros H; apply H. Qed.
Lemma wps_stops {A} F p I (m : prog A) Q k k' : stops F p m k k' -> wps F p I m Q k -> I k'.
Proof. induction 1; intros W; [eapply wps_inv; exact W|]. apply IHstops. cbn [wps] in W. apply W. assumption. Qed.
Lemma wps_ends {A} F p I (m : prog A) Q k a k' : ends F p m k a k' -> wps F p I m Q k -> Q a k'.
Proof. induction 1; intros W; [apply W|]. apply IHends. cbn [wps] in W. apply W. assumption. Qed.

Lemma wps_bind {A B} F p I (m : prog A) (f : A -> prog B) Q : forall k,
  wps F p I m (fun a k' => wps F p I (f a) Q k') k -> wps F p I (pbind m f) Q k.
Proof.
  induction m as [a|c g IH]; intros k; cbn [wps pbind].
  - intros [_ H]. exact H.
  - intros [HI H]. split; [exact HI|]. intros d E. apply IH, H, E.
Qed.
Lemma wps_post {A} F p (I J : kst -> Prop) (m : prog A) (Q R : A -> kst -> Prop) :
  (forall k, I k -> J k) -> (forall a k, Q a k -> R a k) -> forall k, wps F p I m Q k -> wps F p J m R k.
Proof.
  intros HI HQ. induction m as [a|c g IH]; intros k; cbn [wps]; intros [A1 A2]; (split; [auto|]); auto.
Qed.
Lemma wps_conj {A} F p I J (m : prog A) Q R : forall k,
  wps F p I m Q k -> wps F p J m R k -> wps F p (fun k => I k /\ J k) m (fun a k => Q a k /\ R a k) k.
Proof.
  induction m as [a|c g IH]; intros k; cbn [wps]; intros [A1 A2] [B1 B2]; (split; [auto|]); auto.
Qed.
Lemma wps_ret {A} F p (I : kst -> Prop) (a : A) (Q : A -> kst -> Prop) k : I k -> Q a k -> wps F p I (Ret a) Q k.
Proof. intros. split; assumption. Qed.
Lemma wps_do {A} F p (I : kst -> Prop) c (f : reply -> prog A) (Q : A -> kst -> Prop) k :
  I k -> (forall d, env_ok F c d -> wps F p I (f (snd (ksys k p c d))) Q (fst (ksys k p c d))) -> wps F p I (Do c f) Q k.
Proof. intros. split; assumption. Qed.

(** The solo run is one of the runs. *)
Lemma solo_ends {A} F p (m : prog A) : forall k, ends F p m k (fst (solo p m k)) (snd (solo p m k)).
Proof. induction m as [a|c f IH]; intros k; cbn [solo]; [constructor|]. apply En_next with (d := E_none); [exact Logic.I|apply IH]. Qed.
Lemma solo_wps {A} p I (m : prog A) Q k : wps no_fault p I m Q k -> Q (fst (solo p m k)) (snd (solo p m k)).
Proof. apply wps_ends, solo_ends. Qed.

Lemma solo_bind {A B} p (m : prog A) (f : A -> prog B) : forall k,
  solo p (pbind m f) k = solo p (f (fst (solo p m k))) (snd (solo p m k)).
Proof. induction m as [a|c g IH]; intros k; cbn [pbind solo]; [reflexivity|apply IH]. Qed.

(** Calls that a program can make. *)
Fixpoint allc {A} (P : call -> Prop) (m : prog A) : Prop :=
  match m with Ret _ => True | Do c f => P c /\ forall r, allc P (f r) end.
Lemma allc_can {A} P (m : prog A) c : can_call m c -> allc P m -> P c.
Proof. induction 1; intros W; [apply W|]. apply IHcan_call, W. Qed.
Lemma allc_bind {A B} P (m : prog A) (f : A -> prog B) : allc P m -> (forall a, allc P (f a)) -> allc P (pbind m f).
Proof.
  induction m as [a|c g IH]; intros H HF; cbn [pbind allc] in *; [apply HF|]. destruct H as [H1 H2]. split; [exact H1|].
  intros r. apply IH; [apply H2|exact HF].
Qed.
