(** Consequences of the specifications of the updates. *)
From Coq Require Import NArith ZArith List Bool Lia.
From Verif Require Import Bytes Types World BpfModel GenModel ChainModel NewSpec NewFacts NewFacts2 BytesFacts StrModel SetModel SetSpec MapModel PackModel PackSpec PackFacts4 HookModel KernModel LockModel CtlModel SysSpec SysFacts RelyFacts SeqFacts StageFacts EvoFacts CtlSpec HandleFacts PinFacts AttachFacts LockSeqFacts LoadFacts RestoreFacts WithFacts IsolFacts UnloadFacts AttachOpFacts SetOpFacts HistSpec HistFacts CtlFacts CountFacts UpdSpec UpdFacts UpdOpFacts UpdSetFacts HistInv.
Import ListNotations.
Local Open Scope N_scope.

Lemma built_up_to_date c : chain_built c -> up_to_date c.
Proof.
  intros B r H. pose proof (se_rules _ (built_settled _ B)) as E. destruct (check_rules_ok _ _ _ _ _ _ _ E) as (_ & L & X & _).
  apply In_nth_error in H. destruct H as (k & H). rewrite map_length in L.
  assert (K : (k < length (map enabled (c_rules (nc_chain c))))%nat) by (rewrite map_length; apply nth_error_Some; congruence).
  destruct (nth_error (map enabled (c_rules (nc_chain c))) k) as [r0|] eqn:Y; [|apply nth_error_None in Y; lia].
  destruct (X k r0 Y) as (r' & N1 & SO & _ & D). rewrite H in N1. injection N1 as <-. rewrite D.
  unfold uses_empty_set, mixes_protocols, talks_about. rewrite (so_matchers _ _ SO). reflexivity.
Qed.

(** A failed update. *)
Lemma same_unchanged p i k0 k : sane k0 -> i < k_next k0 -> evo p (k_ents k0) (Some (i, dview k0 i)) [] [] k0 k -> unchanged k0 k.
Proof.
  intros S0 LI EV.
  assert (PIN : forall j q, dview k j q = dview k0 j q).
  { intros j q. destruct (N.eq_dec j i) as [->|NE]; [exact (proj2 (ev_view _ _ _ _ _ _ _ EV i _ eq_refl) q)|].
    assert (NX : forall D, Some (i, dview k0 i) <> Some (j, D)) by (intros D X; injection X as X _; congruence).
    unfold dview. destruct (N.lt_ge_cases j (k_next k0)) as [L|L]; [rewrite (ev_dirs _ _ _ _ _ _ _ EV j L NX); reflexivity|].
    rewrite (ev_fresh _ _ _ _ _ _ _ EV j L NX), (sane_fresh _ S0 _ L). reflexivity. }
  constructor.
  - exact (ev_ents _ _ _ _ _ _ _ EV).
  - exact PIN.
  - intros f. exact (none_new _ _ _ _ _ _ f S0 EV).
  - intros o v. exact (old_objs _ _ _ _ _ _ o v S0 EV).
  - intros o [(j & q & X)|(f & r & X)]; [left; exists j, q; rewrite <- X; symmetry; apply PIN|right; exists f, r; rewrite <- X; symmetry; exact (none_new _ _ _ _ _ _ f S0 EV)].
Qed.

Lemma held_readable mm k0 i c hd c' e : holds_chain k0 i c hd -> chain_copy (m_nd mm) (m_tb mm) c = Ok c' -> ~ unread no_fault mm k0 i e.
Proof.
  intros HC CC U. pose proof HC as ((x & t & P1 & P2 & P3) & _). unfold pin in P1. fold (dview k0 i P_ctx) in P1.
  destruct U as [U|[(A & _)|[(y & A & A')|(y & t' & hd' & A & A' & A'')]]].
  - exact (no_fault_not U).
  - congruence.
  - assert (y = x) by congruence. subst y. exact (A' _ P2).
  - assert (y = x) by congruence. subst y. rewrite P2 in A'. injection A' as <- <-. destruct A'' as [A''|[A''|(_ & q & Q1 & Q2)]].
    + unfold chain_copy in CC. rewrite P3 in CC. cbn [bind] in CC. congruence.
    + exact (no_fault_not A'').
    + exact (holds_rnames _ _ _ _ _ HC Q1 Q2).
Qed.
Lemma spared_none : spared no_fault. Proof. intros c _. reflexivity. Qed.

Lemma update_works p m1 m2 c' k0 i c hd : sane k0 -> k_fds k0 = [] -> ent_find (nc_name c') (k_ents k0) = Some i -> holds_chain k0 i c hd ->
  chain_built c -> storable c -> few_sets c -> tidy k0 i -> loadable c' -> few_sets c' -> c_hook (nc_chain c') = c_hook (nc_chain c) ->
  plenty m1 -> plenty m2 -> Forall (fun u => forall l, set_read u = Ok l -> N.of_nat (length l) < two32) (nc_sets c) ->
  fst (solo p (chain_update m1 m2 c') k0) = Ok tt.
Proof.
  intros S0 FD EI HC B S FEW TD ((B' & S' & N') & (img & G) & _ & SZ') FEW' HK P1 P2 SZ.
  pose proof (solo_ends no_fault p (chain_update m1 m2 c') k0) as EN. destruct (fst (solo p (chain_update m1 m2 c') k0)) as [[]|e] eqn:R; [reflexivity|exfalso].
  pose proof (wps_ends _ _ _ _ _ _ _ _ EN (chain_update_ok no_fault p (fun _ => True) _ _ _ k0 i c hd S0 spared_none EI HC B S B' S' TD HK (few_names_built _ B FEW) (few_names_built _ B' FEW') (fun _ _ _ _ _ _ _ => Logic.I))) as (_ & [U|[U|[U|[U|(U & _)]]]]).
  - destruct U as [U|[U|[(_ & U)|(j & EJ & [U|U])]]]; [exact (no_fault_not U)|exact (rest_clash _ _ _ FD U)|congruence|exact (rest_clash _ _ _ FD U)|].
    assert (j = i) by congruence. subst j. destruct (chain_round_trip_generous (m_nd m1) (m_tb m1) c P1 B S SZ) as (x & RT & _). exact (held_readable _ _ _ _ _ _ _ HC RT U).
  - destruct (chain_round_trip_generous (m_nd m2) (m_tb m2) c' P2 B' S' SZ') as (x & RT & _). congruence.
  - exact (no_fault_not U).
  - congruence.
  - discriminate U.
Qed.
