(** The invariant of histories holds. *)
From Coq Require Import NArith ZArith List Bool Lia.
From Verif Require Import Bytes Types World BpfModel GenModel BytesFacts StrModel SetModel MapModel PackModel PackSpec PackFacts4 HookModel KernModel LockModel CtlModel SysSpec SysFacts RelyFacts SeqFacts StageFacts EvoFacts CtlSpec HandleFacts PinFacts AttachFacts LockSeqFacts LoadFacts RestoreFacts WithFacts IsolFacts UnloadFacts AttachOpFacts SetOpFacts HistSpec HistFacts RulesetFacts RulesetSetFacts CtlFacts CountFacts UpdSpec UpdFacts UpdOpFacts UpdSetFacts.
Import ListNotations.
Local Open Scope N_scope.

Lemma ends_forget {A} F p (m : prog A) k k' : ends F p (forget m) k tt k' -> exists r, ends F p m k r k'.
Proof.
  unfold forget. revert k. induction m as [a|c f IH]; intros k H; cbn [pbind] in H.
  - inversion H; subst. exists a. constructor.
  - inversion H as [|? ? ? d ? ? EV EN]; subst. destruct (IH _ _ EN) as (r & X). exists r. econstructor; eassumption.
Qed.

(** A failed update leaves the pins as they were. *)
Lemma after_same p n i k0 k : inv k0 -> ent_find n (k_ents k0) = Some i -> evo p (k_ents k0) (Some (i, dview k0 i)) [] [] k0 k -> after n k0 k.
Proof.
  intros I0 EN EV. eapply after_sub; [exact EV|auto|]. intros j H. rewrite EN in H. injection H as <-.
  eapply as_frame; [exact (in_named _ I0 _ _ EN)| |].
  - intros q. exact (proj2 (ev_view _ _ _ _ _ _ _ EV i _ eq_refl) q).
  - intros q o v X Y. eapply old_objs; [apply I0|exact EV|exact Y].
Qed.
Lemma after_updated p n i hd c c' keep k0 k : inv k0 -> ent_find n (k_ents k0) = Some i -> chain_built c' -> storable c' -> nc_name c' = n ->
  updated p k0 i hd c c' keep k -> after n k0 k.
Proof.
  intros I0 EN B S NM U. destruct (up_evo _ _ _ _ _ _ _ _ U) as (D & M & EV). eapply after_sub; [exact EV|auto|].
  intros j H. rewrite EN in H. injection H as <-. destruct (up_holds _ _ _ _ _ _ _ _ U) as (hd' & HC & _). right. exists c', hd'. auto.
Qed.
Lemma confined_inv n k0 k : inv k0 -> is_staging n = false -> confined k0 n k -> after n k0 k -> inv k.
Proof.
  intros I0 NS CF A. pose proof (in_sane _ I0) as S0.
  eapply (inv_after n); [exact I0|exact (cf_sane _ _ _ CF)|eapply confined_separate; [exact S0|apply I0|exact CF]|apply confined_others; [exact S0|apply I0|exact CF]|exact NS|exact A].
Qed.
Lemma fits_inv F p a k0 k : inv k0 -> no_fds k0 p -> fits k0 a -> spared F -> ends F p (run_api a) k0 tt k -> inv k.
Proof.
  intros I0 NF FT SP EN. pose proof (in_sane _ I0) as S0.
  destruct a; cbn [fits] in FT; try contradiction; unfold run_api in EN; apply ends_forget in EN; destruct EN as (r & EN).
  - destruct FT as ((B' & S' & N') & FEW' & i & c0 & hd & EI & HC & B & S & FEW & TD & HK).
    eapply confined_inv; [exact I0|exact N'|eapply only_confined; [exact S0|exact NF|apply on_chain_update; reflexivity|eapply ends_stops; exact EN]|].
    pose proof (wps_ends _ _ _ _ _ _ _ _ EN (chain_update_ok F p (fun _ => True) _ _ _ k0 i c0 hd S0 SP EI HC B S B' S' TD HK (few_names_built _ B FEW) (few_names_built _ B' FEW') (fun _ _ _ _ _ _ _ => Logic.I))) as H.
    destruct r as [u|e]; [exact (after_updated _ _ _ _ _ _ _ _ _ I0 EI B' S' eq_refl H)|]. destruct H as (EV & _). eapply after_same; eassumption.
  - destruct FT as (N' & SS & i & c0 & hd & EI & HC & B & S & FEW & TD & SE).
    eapply confined_inv; [exact I0|exact N'|eapply only_confined; [exact S0|exact NF|apply on_chain_update_set|eapply ends_stops; exact EN]|].
    pose proof (wps_ends _ _ _ _ _ _ _ _ EN (chain_update_set_ok F p (fun _ => True) _ _ _ _ _ _ _ _ k0 i c0 hd S0 SP EI HC B S SS TD FEW (fun _ _ _ _ _ _ _ => Logic.I))) as H.
    destruct r as [u|e]; [|eapply after_same; eassumption]. destruct H as (c' & ED & S' & B' & U). eapply after_updated; [exact I0|exact EI|apply B', SE, ED|exact S'|rewrite (ed_name _ _ _ _ ED); exact (named_holds _ _ _ _ _ (in_named _ I0 _ _ EI) HC)|exact U].
Qed.

Lemma history_all k : history no_update k -> inv k /\ k_fds k = [] /\ uniq_names k.
Proof.
  induction 1 as [k B|k p a k' H (IH & FD & UN) P ST|k p F a k' H (IH & FD & UN) FT SP EN].
  - split; [apply inv_boot, B|split; [apply B|]]. destruct B as (_ & E & _). unfold uniq_names. rewrite E. constructor.
  - split; [|split; [eapply closed_none; eassumption|exact (stops_uniq _ _ _ _ _ ST UN)]]. apply inv_closed. pose proof (none_no_fds _ p FD) as NF.
    destruct a; cbn [no_update] in P; try contradiction; cbn [run_api] in ST; try apply stops_forget in ST.
    all: try solve [eapply ro_inv; [exact ST|auto using ro_ruleset_get, ro_chain_get, ro_prog_fd, ro_logs_fd|exact IH]].
    + eapply sweep_inv; eassumption.
    + exact (wps_stops _ _ _ _ _ _ _ ST (ruleset_set_ok any_fault p inv _ _ _ _ _ k IH UN NF P (fun _ X => X))).
    + exact (wps_stops _ _ _ _ _ _ _ ST (ruleset_flush_ok any_fault p inv _ k IH UN (fun _ X _ => X))).
    + eapply set_inv; eassumption.
    + eapply load_inv; eassumption.
    + eapply attach_inv; eassumption.
    + eapply flush_inv; eassumption.
  - split; [|split; [eapply closed_none; [eapply ends_stops; exact EN|exact FD]|exact (stops_uniq _ _ _ _ _ (ends_stops _ _ _ _ _ _ EN) UN)]].
    apply inv_closed. eapply fits_inv; [exact IH|apply none_no_fds, FD|exact FT|exact SP|exact EN].
Qed.
Lemma history_inv k : history no_update k -> inv k /\ k_fds k = [].
Proof. intros H. destruct (history_all k H) as (A & B & _). auto. Qed.

Lemma others_at_stop k p a n k' : history no_update k -> about a = Some n -> stops any_fault p (run_api a) k k' -> others_kept n k k'.
Proof.
  intros H A ST. destruct (history_inv _ H) as [[S0 SE _ _] FD]. pose proof (none_no_fds _ p FD) as NF.
  destruct a; cbn [about] in A; try discriminate A; injection A as <-; cbn [run_api] in ST; apply stops_forget in ST.
  all: try solve [eapply set_others; eassumption | eapply load_others; eassumption].
  all: apply confined_others; [exact S0|exact SE|]; eapply only_confined; [exact S0|exact NF| |exact ST];
    auto using on_chain_get, on_chain_prog_fd, on_chain_logs_fd, on_chain_attach, on_chain_flush, on_chain_update, on_chain_update_set.
Qed.
