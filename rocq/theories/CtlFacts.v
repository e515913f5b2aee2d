(** Consequences of the specifications of the operations. *)
From Coq Require Import NArith ZArith List Bool Lia.
From Verif Require Import Bytes Types World BpfModel GenModel BytesFacts StrModel SetModel MapModel PackModel PackSpec PackFacts4 HookModel KernModel LockModel CtlModel SysSpec SysFacts RelyFacts SeqFacts StageFacts EvoFacts CtlSpec HandleFacts PinFacts AttachFacts LockSeqFacts LoadFacts RestoreFacts WithFacts IsolFacts UnloadFacts AttachOpFacts SetOpFacts HistSpec HistFacts.
Import ListNotations.
Local Open Scope N_scope.

Lemma cut_stops {A} F p (m : prog A) : forall n k, stops F p m k (cut n p m k).
Proof.
  induction m as [a|c f IH]; intros [|n] k; try apply Sp_here. cbn [cut]. apply Sp_next with (d := E_none); [exact Logic.I|]. apply IH.
Qed.
Lemma spoil_ends {A} F e p (m : prog A) : forall k, ends F p m k (fst (spoil F e p m k)) (snd (spoil F e p m k)).
Proof.
  induction m as [a|c f IH]; intros k; [constructor|]. cbn [spoil]. cbv zeta.
  apply En_next with (d := if F c && can_fail c then E_fail e else E_none); [|apply IH].
  destruct (F c) eqn:E; cbn [andb]; [destruct (can_fail c); [exact E|exact Logic.I]|exact Logic.I].
Qed.

Lemma none_new p E X M k0 k f : sane k0 -> evo p E X M [] k0 k -> fd_find f (k_fds k) = fd_find f (k_fds k0).
Proof.
  intros S0 EV. destruct (N.lt_ge_cases f (k_next k0)) as [L|L]; [exact (ev_old _ _ _ _ _ _ _ EV f L)|].
  destruct (ev_new _ _ _ _ _ _ _ EV f L) as [X0|[[] _]]. rewrite X0. symmetry. apply kinv_fresh; [apply sane_kinv, S0|exact L].
Qed.
Lemma old_objs p E X S k0 k o v : sane k0 -> evo p E X [] S k0 k -> k_objs k0 o = Some v -> k_objs k o = Some v.
Proof. intros S0 EV H. rewrite (ev_objs _ _ _ _ _ _ _ EV) by (eapply sane_obj; eauto). exact H. Qed.
Lemma same_dirs p E M S k0 k i : sane k0 -> evo p E None M S k0 k -> k_dirs k i = k_dirs k0 i.
Proof.
  intros S0 EV. destruct (N.lt_ge_cases i (k_next k0)) as [L|L]; [apply (ev_dirs _ _ _ _ _ _ _ EV); [exact L|discriminate]|].
  rewrite (ev_fresh _ _ _ _ _ _ _ EV) by (exact L || discriminate). symmetry. exact (sane_fresh _ S0 _ L).
Qed.
Lemma grow_unchanged p k0 k : sane k0 -> grow p [] k0 k -> unchanged k0 k.
Proof.
  intros S0 G. constructor.
  - exact (ev_ents _ _ _ _ _ _ _ G).
  - intros i q. unfold pin. rewrite (same_dirs _ _ _ _ _ _ _ S0 G). reflexivity.
  - intros f. exact (none_new _ _ _ _ _ _ _ S0 G).
  - intros o v. exact (old_objs _ _ _ _ _ _ _ _ S0 G).
  - intros o [(i & q & H)|(f & q & H)]; [left; exists i, q; unfold pin in *; rewrite <- (same_dirs _ _ _ _ _ _ i S0 G); exact H|].
    right. exists f, q. rewrite <- (none_new _ _ _ _ _ _ f S0 G). exact H.
Qed.
Lemma unchanged_new n k0 k : unchanged k0 k -> nothing_new n k0 k.
Proof.
  intros [A B C D E]. constructor; auto.
  - intros m j. rewrite A. auto.
  - intros m j. rewrite A. auto.
  - intros i q o. rewrite B. auto.
  - intros i q o. rewrite B. auto.
Qed.
Lemma trim_new p n k0 k : sane k0 -> evo p (trim k0 L_WRITE n) None [] [] k0 k -> nothing_new n k0 k.
Proof.
  intros S0 G. assert (PN : forall i q, pin k i q = pin k0 i q) by (intros i q; unfold pin; rewrite (same_dirs _ _ _ _ _ _ _ S0 G); reflexivity).
  constructor.
  - intros m j. rewrite (ev_ents _ _ _ _ _ _ _ G). apply trim_sub.
  - intros m j H. rewrite (ev_ents _ _ _ _ _ _ _ G). destruct (list_eq_dec N.eq_dec m n) as [->|NE].
    + destruct (trim_write k0 n j H) as [(_ & B)|(-> & _)]; [right; split; [reflexivity|exact B]|left; exact H].
    + left. unfold trim. destruct (ent_find n (k_ents k0)) as [i|]; [|exact H]. destruct (k_dirs k0 i); [|exact H].
      rewrite ent_find_del. destruct (bytes_eqb m n) eqn:Y; [|exact H]. exfalso. apply NE. apply bytes_eqb_eq, Y.
  - intros i q o. rewrite PN. auto.
  - intros i q o. rewrite PN. auto.
  - intros f. exact (none_new _ _ _ _ _ _ _ S0 G).
  - intros o v. exact (old_objs _ _ _ _ _ _ _ _ S0 G).
  - intros o [(i & q & H)|(f & q & H)]; [left; exists i, q; rewrite <- PN; exact H|]. right. exists f, q. rewrite <- (none_new _ _ _ _ _ _ f S0 G). exact H.
Qed.

Lemma load_failed F p mm c k0 e k : sane k0 -> chain_built c -> storable c -> ends F p (chain_load mm c) k0 (Er e) k ->
  unchanged k0 k /\ load_refused F mm k0 c e.
Proof.
  intros S0 CB CS EN. pose proof (wps_ends _ _ _ _ _ _ _ _ EN (chain_load_ok F p (fun _ => True) mm c k0 S0 CB CS (fun _ _ _ => Logic.I) (fun _ _ _ => Logic.I) (fun _ _ _ => Logic.I))) as H.
  cbn beta iota in H. destruct H as (G & R). split; [eapply grow_unchanged; eassumption|exact R].
Qed.
Lemma load_works p mm c k0 : sane k0 -> chain_built c -> storable c ->
  ~ clash k0 (D_pindir L_NONE) L_WRITE -> (forall s, is_staging s = true -> ent_find s (k_ents k0) = None) -> ent_find (nc_name c) (k_ents k0) = None ->
  is_staging (nc_name c) = false -> (forall i, generous (m_nd mm i) (m_tb mm)) -> (exists img, gen_program (nc_chain c) = Ok img) -> NoDup (set_names (nc_chain c)) ->
  Forall (fun u => forall l, set_read u = Ok l -> N.of_nat (length l) < two32) (nc_sets c) ->
  fst (solo p (chain_load mm c) k0) = Ok tt.
Proof.
  intros S0 CB CS NC NS NE NST GEN (img & GP) ND SZ.
  pose proof (solo_ends no_fault p (chain_load mm c) k0) as EN. destruct (fst (solo p (chain_load mm c) k0)) as [[]|e] eqn:R; [reflexivity|exfalso].
  destruct (load_failed _ _ _ _ _ _ _ S0 CB CS EN) as (_ & H).
  destruct (chain_round_trip_generous (m_nd mm) (m_tb mm) c GEN CB CS SZ) as (c' & RT & _).
  assert (PK : exists t, chain_pack c = Ok t) by (unfold chain_copy in RT; destruct (chain_pack c) eqn:PK; [eauto|cbn [bind] in RT; congruence]).
  destruct H as [H|[H|[H|[H|[H|H]]]]]; [|tauto|congruence|congruence|destruct PK; congruence|tauto].
  destruct H as [(x & H)|[(s & A & B)|[H|H]]]; [discriminate H|exact (B (NS s A))|exact (H NE)|congruence].
Qed.

Lemma attach_failed F p mm n o k0 e k : sane k0 -> all_consistent k0 -> ends F p (chain_attach mm n o) k0 (Er e) k -> nothing_new n k0 k.
Proof.
  intros S0 CONS EN. pose proof (wps_ends _ _ _ _ _ _ _ _ EN (chain_attach_ok F p (fun _ => True) mm n o k0 S0 (CONS n) (fun _ _ _ => Logic.I) (fun _ _ _ => Logic.I) (fun _ _ _ _ _ _ _ _ _ _ _ => Logic.I) (fun _ _ _ _ _ _ _ _ _ _ => Logic.I))) as H.
  cbn beta iota in H. destruct H as [([G|G] & _)|(i & c & hd & EI & HC & (D & EV & OF & SUB & SAME) & _)];
    [eapply unchanged_new, grow_unchanged; eassumption|eapply trim_new; eassumption|].
  pose proof (sane_ent _ S0 _ _ EI) as LI.
  assert (OTH : forall j, j <> i -> k_dirs k j = k_dirs k0 j).
  { intros j NE. destruct (N.lt_ge_cases j (k_next k0)) as [L|L]; [apply (ev_dirs _ _ _ _ _ _ _ EV); [exact L|congruence]|].
    rewrite (ev_fresh _ _ _ _ _ _ _ EV) by (exact L || congruence). symmetry. exact (sane_fresh _ S0 _ L). }
  assert (VW : forall q, pin k i q = D q) by (intros q; apply (ev_view _ _ _ _ _ _ _ EV i D eq_refl)).
  assert (PN : forall j q x, pin k j q = Some x -> pin k0 j q = Some x).
  { intros j q x. destruct (N.eq_dec j i) as [->|NE]; [|unfold pin; rewrite (OTH j NE); auto].
    rewrite VW. destruct (SUB q) as [-> | ->]; [auto|discriminate]. }
  constructor.
  - intros m j. rewrite (ev_ents _ _ _ _ _ _ _ EV). auto.
  - intros m j. rewrite (ev_ents _ _ _ _ _ _ _ EV). auto.
  - exact PN.
  - intros j q x H. destruct (N.eq_dec j i) as [->|NE]; [|left; unfold pin; rewrite (OTH j NE); exact H].
    rewrite VW. destruct (SUB q) as [E|E]; [left; rewrite E; exact H|].
    destruct (hd_link hd) as [x'|] eqn:HL; [left; rewrite SAME by discriminate; exact H|].
    right. split; [exact EI|]. split; [|exists c, hd; auto].
    destruct (pname_eqb_spec q P_link_extra) as [|Q1]; [left; assumption|]. destruct (pname_eqb_spec q P_ctx_tmp) as [|Q2]; [right; assumption|].
    exfalso. assert (D q = dview k0 i q) as E'; [|rewrite E' in E; unfold pin in H; unfold dview in E; congruence].
    apply OF. intros [Y|[Y|[]]]; subst q; congruence.
  - intros f. exact (none_new _ _ _ _ _ _ _ S0 EV).
  - intros x v. exact (old_objs _ _ _ _ _ _ _ _ S0 EV).
  - intros x [(j & q & H)|(f & q & H)]; [left; exists j, q; apply PN, H|]. right. exists f, q. rewrite <- (none_new _ _ _ _ _ _ f S0 EV). exact H.
Qed.
Lemma ends_stops {A} F p (m : prog A) k a k' : ends F p m k a k' -> stops F p m k k'.
Proof. induction 1; [apply Sp_here|]. eapply Sp_next; eassumption. Qed.
Lemma unchanged_fds k k' : sane k' -> unchanged k k' -> k_fds k = [] -> k_fds k' = [].
Proof.
  intros S U H. destruct (k_fds k') as [|[f x] l] eqn:E; [reflexivity|exfalso].
  pose proof (uc_fds _ _ U f) as X. rewrite E, H in X. cbn in X. rewrite N.eqb_refl in X. discriminate X.
Qed.
