(** Installing the chains of a ruleset: bf_ruleset_set. *)
From Coq Require Import NArith ZArith List Bool Lia.
From Verif Require Import Bytes Types World BpfModel GenModel BytesFacts StrModel SetModel MapModel PackModel PackSpec PackFacts4 HookModel KernModel LockModel CtlModel SysSpec SysFacts RelyFacts SeqFacts StageFacts EvoFacts CtlSpec HandleFacts PinFacts AttachFacts LockSeqFacts LoadFacts RestoreFacts WithFacts IsolFacts UnloadFacts AttachOpFacts SetOpFacts HistSpec HistFacts RulesetFacts.
Import ListNotations.
Local Open Scope N_scope.

Lemma wps_mono2 {A} F p (I J : kst -> Prop) (m : prog A) (Q R : A -> kst -> Prop) :
  (forall k, I k -> J k) -> (forall a k, Q a k -> I k -> R a k) -> forall k, wps F p I m Q k -> wps F p J m R k.
Proof.
  intros HI HQ. induction m as [a|c g IH]; intros k; cbn [wps]; intros [A1 A2]; (split; [auto|]); auto.
Qed.
Lemma wps_also {A} F p (I J : kst -> Prop) (m : prog A) (Q : A -> kst -> Prop) k :
  (forall d a k', J k' -> J (fst (ksys k' p a d))) -> J k -> wps F p I m Q k -> wps F p I m (fun a k' => Q a k' /\ J k') k.
Proof.
  intros HJ. revert k. induction m as [a|c g IH]; intros k K; cbn [wps]; intros [A1 A2]; (split; [auto|]); auto.
Qed.

(** ** One chain of the list *)
Lemma finish_one_ok F p (I : kst -> Prop) b pd cf c0 c opts k0 i k : sane k0 -> same_chain c0 c ->
  being_made p k0 (nc_name c0) i [cf] k -> desc_of k p pd = Some (D_pindir L_WRITE) -> desc_of k p cf = Some (D_dir i L_WRITE) ->
  pd < k_next k0 -> k_next k0 <= cf ->
  (forall S k', grow p S k0 k' -> I k') -> (forall S k', half_made p k0 (nc_name c0) S k' -> I k') ->
  (forall S k', made F p k0 c0 opts S k' -> I k') ->
  wps F p I (rs <~ cgen_set (mkCg c handle_new) opts cf ;;
             release_chain (mkLk (Some b) (Some pd) L_WRITE (Some (cf, nc_name c0, L_WRITE))) ;;;
             cgen_free (fst rs) ;;;
             Ret (snd rs)) (fun r k' =>
    match r with
    | Ok _ => made F p k0 c0 opts [] k' /\ all_tidy (nc_name c0) k'
    | Er e => grow p [] k0 k' /\ not_made F c e
    end) k.
Proof.
  intros S0 SC B DP DC LP LC HG HH HM. pose proof B as (FN & LI & EV). pose proof (ev_sane _ _ _ _ _ _ _ EV) as SK.
  pose proof (ev_next _ _ _ _ _ _ _ EV) as NX. pose proof (ev_ents _ _ _ _ _ _ _ EV) as EN.
  assert (TR : forall D S k', evo p (k_ents k) (Some (i, D)) [] S k k' -> evo p ((nc_name c0, i) :: k_ents k0) (Some (i, D)) [] (S ++ [cf]) k0 k').
  { intros D S k' E. rewrite EN in E. exact (evo_trans _ _ _ _ _ _ _ _ _ _ _ _ EV E eq_refl). }
  apply wps_bind.
  eapply wps_post with (I := I); [auto| |apply (cgen_set_ok F p I c opts cf i L_WRITE k SK DC)]; cycle 1.
  { apply (ev_view _ _ _ _ _ _ _ EV). reflexivity. }
  { intros S D k' E H. eapply HH. exists (nc_name c0), i, D. split; [left; reflexivity|]. split; [exact FN|split; [exact LI|]]. split; [eapply TR; exact E|exact H]. }
  { intros S D k' h E H1 H2. eapply HM. exists i, D, (handle_desc h). split; [exact FN|split; [exact LI|]]. split; [eapply TR; exact E|].
    split; [eapply holds_same; [exact SC|exact H1]|]. destruct SC as (_ & _ & EC). rewrite EC. apply as_asked_handle, H2. }
  intros [g r] k1. unfold set_done. cbn [fst snd]. intros (GC & LF & D & E1 & R).
  specialize (TR D _ _ E1). pose proof (ev_sane _ _ _ _ _ _ _ E1) as S1.
  assert (IC : forall k', k_dirs k' = k_dirs k1 -> k_objs k' = k_objs k1 ->
     (forall SS, evo p ((nc_name c0, i) :: k_ents k0) (Some (i, D)) [] SS k0 k' -> I k')).
  { intros k' DK OK SS E'. destruct r as [u|e].
    - destruct R as (HC & LA & _). eapply HM. exists i, D, (handle_desc (g_handle g)). split; [exact FN|split; [exact LI|split; [exact E'|]]].
      split; [|destruct SC as (_ & _ & EC); rewrite EC; apply as_asked_handle, LA].
      eapply holds_same; [exact SC|]. eapply holds_frame; [exact HC| |]; [intros q; unfold dview; rewrite DK; reflexivity|intros q o v _ X; rewrite OK; exact X].
    - destruct R as (DN & _). eapply HH. exists (nc_name c0), i, D. split; [left; reflexivity|]. split; [exact FN|]. split; [exact LI|]. split; [exact E'|apply DN]. }
  assert (EN1 : k_ents k1 = (nc_name c0, i) :: k_ents k0) by exact (ev_ents _ _ _ _ _ _ _ TR).
  assert (EDI : forall e, r = Er e -> k_dirs k1 i = []).
  { intros e ->. apply view_empty. intros q. rewrite (proj2 (ev_view _ _ _ _ _ _ _ TR i D eq_refl)). apply R. }
  assert (EDN : forall u, r = Ok u -> k_dirs k1 i <> []).
  { intros u -> X. destruct R as (((o & t & A & _) & _) & _). unfold pin in A. rewrite X in A. discriminate A. }
  assert (DP1 : desc_of k1 p pd = Some (D_pindir L_WRITE)) by (eapply evo_desc; [exact E1|exact SK|exact DP]).
  assert (TE : trim k1 L_WRITE (nc_name c0) = match r with Ok _ => (nc_name c0, i) :: k_ents k0 | Er _ => k_ents k0 end).
  { unfold trim. rewrite EN1, ent_find_head. destruct r as [u|e].
    - destruct (k_dirs k1 i) eqn:X; [destruct (EDN u eq_refl eq_refl)|reflexivity].
    - rewrite (EDI e eq_refl). apply ent_del_head, FN. }
  assert (IX : forall E' Z k', cle (trim k1 L_WRITE (nc_name c0)) k1 k' -> evo p E' (Some (i, D)) [] Z k0 k' -> I k').
  { intros E' Z k' C3 E3. pose proof (ev_ents _ _ _ _ _ _ _ E3) as EE.
    assert (X : E' = (nc_name c0, i) :: k_ents k0 \/ (E' = k_ents k0 /\ forall q, D q = None)).
    { destruct (ce_ents _ _ _ C3) as [Y|Y]; rewrite EE in Y; [left; rewrite Y; exact EN1|]. rewrite TE in Y. destruct r; [auto|right; split; [exact Y|apply R]]. }
    destruct X as [-> | [-> EM]].
    - eapply IC; [apply (ce_dirs _ _ _ C3)|apply (ce_objs _ _ _ C3)|exact E3].
    - eapply HG. eapply made_old; [exact LI|exact EM|exact E3]. }
  apply wps_bind.
  eapply wps_post with (I := I); [auto| |apply (release_chain_ok F p I b pd L_WRITE cf (nc_name c0) L_WRITE _ _ _ _ (hfds (g_handle g)) k0 k1 S0 TR DP1 LC)]; cycle 1.
  { intros x Hx. apply in_app_or in Hx as [Y|[Y|[]]]; auto. }
  { exact IX. }
  intros lk' k2 (_ & E2 & C2 & F2).
  apply wps_bind.
  eapply wps_post with (I := I); [auto| |apply (closes_cgen p g F I k0 _ _ _ _ [] k2 E2 S0)]; cycle 1.
  { intros f Hf. specialize (LF f Hf). lia. }
  { intros x Hx. auto. }
  { intros Z k' C E'. eapply IX; [eapply cle_cl; [exact C2|exact C]|exact E']. }
  intros [] k3 (C3 & E3 & F3). pose proof (cle_cl _ _ _ _ C2 C3) as C4. rewrite TE in E3. destruct r as [u|e].
  - apply wps_ret.
    + eapply IX; [exact C4|exact E3].
    + destruct R as (HC & LA & _ & _ & TD). split.
      2:{ intros j. rewrite (ev_ents _ _ _ _ _ _ _ E3), ent_find_head. intros J. injection J as <-. unfold tidy, pin in *.
          rewrite (ce_dirs _ _ _ C4), (ce_objs _ _ _ C4). exact TD. }
      exists i, D, (handle_desc (g_handle g)). split; [exact FN|split; [exact LI|split; [exact E3|]]].
      split; [|destruct SC as (_ & _ & EC); rewrite EC; apply as_asked_handle, LA].
      eapply holds_same; [exact SC|]. eapply holds_frame; [exact HC| |].
      * intros q. unfold dview. rewrite (ce_dirs _ _ _ C4). reflexivity.
      * intros q o v _ X. rewrite (ce_objs _ _ _ C4). exact X.
  - assert (G3 : grow p [] k0 k3) by (eapply made_old; [exact LI|apply R|exact E3]).
    apply wps_ret; [eapply HG; exact G3|]. split; [exact G3|exact (proj2 R)].
Qed.

Definition one_refused (F : call -> bool) (mm : mem) (k0 : kst) (c : nchain) (e : N) : Prop :=
  refused F k0 (nc_name c) \/ chain_copy (m_nd mm) (m_tb mm) c = Er e \/
  gen_program (nc_chain c) = Er e \/ chain_pack c = Er e \/ ~ NoDup (set_names (nc_chain c)).
Lemma set_one_ok F p (I : kst -> Prop) mm c o b f k0 : sane k0 -> chain_built c -> storable c ->
  owns k0 p (mkLk (Some b) (Some f) L_WRITE None) b f L_WRITE ->
  (forall S k', grow p S k0 k' -> I k') -> (forall S k', half_made p k0 (nc_name c) S k' -> I k') ->
  (forall S k', made F p k0 c o S k' -> I k') ->
  wps F p I (set_one mm (mkLk (Some b) (Some f) L_WRITE None) c o) (fun r k' =>
    match r with
    | Ok _ => made F p k0 c o [] k' /\ all_tidy (nc_name c) k'
    | Er e => grow p [] k0 k' /\ one_refused F mm k0 c e
    end) k0.
Proof.
  intros S0 CB CS OW HG HH HM. pose proof (evo_refl p k0 S0) as G0.
  set (Q := fun (r : res unit) k' => match r with Ok _ => made F p k0 c o [] k' /\ all_tidy (nc_name c) k' | Er e => grow p [] k0 k' /\ one_refused F mm k0 c e end).
  assert (FAIL : forall e k, grow p [] k0 k -> one_refused F mm k0 c e -> wps F p I (Ret (Er e)) Q k).
  { intros e k G C. apply wps_ret; [eapply HG; exact G|]. split; assumption. }
  unfold set_one. apply wps_copy; [exact CB|exact CS|eapply HG; exact G0| |].
  2:{ intros e [HF|HE]; apply FAIL; [exact G0|left; left; exact HF|exact G0|right; left; exact HE]. }
  intros c' HE SC.
  assert (CH : forall X : res unit -> prog (res unit), wps F p I (X (Ok tt)) Q k0 -> (forall e, faulty F -> wps F p I (X (Er e)) Q k0) -> wps F p I (pbind (copy_hookopts o) X) Q k0).
  { intros X H1 H2. unfold copy_hookopts. destruct o as [oo|]; [|exact H1]. apply pbind_assoc. apply wps_alloc; [eapply HG; exact G0|exact H1|].
    intros HF e. cbn [pbind]. apply H2. eapply faulty_intro; exact HF. }
  apply CH; [|intros e HF; apply FAIL; [exact G0|left; left; exact HF]]. clear CH.
  unfold cgen_new. apply pbind_assoc. apply wps_alloc; [eapply HG; exact G0| |].
  2:{ intros HF e. cbn [pbind]. apply FAIL; [exact G0|]. left. left. eapply faulty_intro; exact HF. }
  cbn [pbind g_chain]. destruct SC as (SN & SC'). rewrite <- SN. pose proof (conj SN SC' : same_chain c c') as SC.
  apply wps_bind.
  eapply wps_post with (I := I); [auto| |apply (acquire_new_ok F p I _ b f (nc_name c) k0 S0 OW HG)]; cycle 1.
  { intros S s i k' HS B. eapply HH. eapply being_half; [exact HS|exact B]. }
  intros [lk'|e] k2.
  2:{ intros (G2 & C).
      apply wps_bind. eapply wps_post with (I := I); [auto| |apply (closes_cgen p (mkCg c' handle_new) F I k0 _ _ _ _ [] k2 G2 S0)]; cycle 1.
      { intros x []. }
      { intros x H; left; exact H. }
      { intros Z k' _ E'. eapply HG. exact E'. }
      intros [] k3 (_ & G3 & _). apply FAIL; [exact G3|]. left. exact C. }
  intros (cf & i & -> & B2 & DC & LC).
  destruct OW as (_ & DB & DF & NE).
  assert (DP2 : desc_of k2 p f = Some (D_pindir L_WRITE)) by (destruct B2 as (_ & _ & E2); eapply evo_desc; [exact E2|exact S0|exact DF]).
  cbn [chain_fd lk_chain].
  eapply wps_post with (I := I); [auto| |apply (finish_one_ok F p I b f cf c c' o k0 i k2 S0 SC B2 DP2 DC (desc_lt _ _ _ _ S0 DF) LC HG HH HM)].
  intros [u|e] k3; [exact (fun H => H)|]. intros (G3 & NM). split; [exact G3|].
  destruct SC as (_ & SS & EC).
  destruct NM as [X|[X|[X|X]]]; [left; left; exact X|right; right; left; rewrite EC; exact X| |do 4 right; rewrite EC; exact X].
  do 3 right. left. rewrite (same_chain_pack c c'); [exact X|]. repeat split; assumption.
Qed.

(** The process has nothing open but the two directories of the lock. *)
Definition quiet (p : pid) (k : kst) : Prop := forall f d, desc_of k p f = Some d -> d = D_bpffs \/ exists m, d = D_pindir m.
Lemma quiet_evo p E X M k0 k : evo p E X M [] k0 k -> quiet p k0 -> quiet p k.
Proof.
  intros EV Q f d D. apply desc_of_find in D. destruct (N.lt_ge_cases f (k_next k0)) as [L|L].
  - rewrite (ev_old _ _ _ _ _ _ _ EV f L) in D. apply (Q f). apply find_desc_of, D.
  - destruct (ev_new _ _ _ _ _ _ _ EV f L) as [X0|([] & _)]. congruence.
Qed.
Lemma quiet_none p k : no_fds k p -> quiet p k.
Proof. intros H f d X. destruct (H f d X). Qed.
Lemma reach_quiet k0 p OD OO : sane k0 -> quiet p k0 -> reach k0 p OD OO k0.
Proof.
  intros S H. constructor; auto; try lia.
  - intros f o X. destruct (H _ _ X) as [Y|(m & Y)]; discriminate Y.
  - intros f j m X. destruct (H _ _ X) as [Y|(m' & Y)]; discriminate Y.
  - intros j q o X. left. eauto.
Qed.

Lemma set_one_in k0 p F mm c o b f k (n := nc_name c) : sane k0 -> chain_built c -> storable c ->
  reach k0 p (own_dir2 k0 n) (own_obj k0 n) k ->
  wps F p (reach k0 p (own_dir2 k0 n) (own_obj k0 n)) (set_one mm (mkLk (Some b) (Some f) L_WRITE None) c o)
    (fun _ k' => reach k0 p (own_dir2 k0 n) (own_obj k0 n) k') k.
Proof.
  intros S0 CB CS RK. set (R := reach k0 p (own_dir2 k0 n) (own_obj k0 n)) in *. unfold set_one.
  assert (CL : forall k e, R k -> wps F p R (Ret (Er e)) (fun (_ : res unit) k' => R k') k) by (intros; apply wps_ret; assumption).
  apply wps_copy; [exact CB|exact CS|exact RK| |intros e _; apply CL, RK]. intros c' _ (SN & _).
  apply bind_only2; [exact S0|apply on_copy_hookopts|exact RK|]. intros [[]|e] k5 R5; [|apply CL, R5].
  unfold cgen_new. apply pbind_assoc. apply wps_alloc; [exact R5| |intros _ e; apply CL, R5]. cbn [pbind g_chain]. rewrite <- SN. fold n.
  apply wps_bind. eapply wps_post with (I := R); [auto| |apply acquire_in; [exact S0|exact R5]].
  intros [lk'|e] k2 [R2 H2].
  - destruct (chain_fd lk'); [|apply wps_ret; exact R2].
    apply only_wps2; [exact S0| |exact R2]. apply allc_bind; [apply on_cgen_set|]. intros rs. apply allc_bind; [apply on_release, H2|]. intros lk2.
    apply allc_bind; [apply on_cgen_free|]. intros; exact Logic.I.
  - apply bind_only2; [exact S0|apply on_cgen_free|exact R2|]. intros [] k6 R6. apply CL, R6.
Qed.

(** At every stop the directories are consistent. *)
Lemma set_one_inv F p (I : kst -> Prop) mm c o b f k0 : inv k0 -> quiet p k0 -> usual c -> (forall k', inv k' -> I k') ->
  owns k0 p (mkLk (Some b) (Some f) L_WRITE None) b f L_WRITE ->
  wps F p I (set_one mm (mkLk (Some b) (Some f) L_WRITE None) c o) (fun r k' => inv k' /\
    match r with
    | Ok _ => made F p k0 c o [] k' /\ all_tidy (nc_name c) k'
    | Er e => grow p [] k0 k' /\ one_refused F mm k0 c e
    end) k0.
Proof.
  intros I0 QU (CB & CS & NS) HI OW. pose proof (in_sane _ I0) as S0. set (n := nc_name c) in *.
  pose proof (set_one_in k0 p F mm c o b f k0 S0 CB CS (reach_quiet _ _ _ _ S0 QU)) as W1. cbv zeta in W1. fold n in W1.
  assert (W2 := set_one_ok F p (fun k => after n k0 k /\ one_new n k0 k) mm c o b f k0 S0 CB CS OW).
  pose proof (wps_conj _ _ _ _ _ _ _ _ W1 (W2
    ltac:(intros S k' G; split; [eapply after_grow; [exact I0|exact G]|eapply one_none; [exact G|discriminate]])
    ltac:(intros S k' H; split; [eapply (after_half p n S k0); [exact S0|auto|exact (fun j => in_named _ I0 n j)|exact H]|];
      destruct H as (s & i & D & SN & FN & LI & EV & DC);
      eapply (one_more p _ i D S n k0); [lia|intros j L; exact (sane_fresh _ S0 _ L)|exact EV|exact LI| |exact S0];
      destruct SN as [->|[_ EM]]; [right|left; exact EM]; intros i0 X; fold n in FN; congruence)
    ltac:(intros S k' H; split; [eapply (after_made F p c o S k0); [exact S0|exact CB|exact CS|auto|exact H]|];
      destruct H as (i & D & hd & FN & LI & EV & _);
      eapply (one_more p _ i D S n k0); [lia|intros j L; exact (sane_fresh _ S0 _ L)|exact EV|exact LI| |exact S0];
      right; intros i0 X; fold n in FN; congruence))) as W.
  assert (INV : forall k, reach k0 p (own_dir2 k0 n) (own_obj k0 n) k -> after n k0 k -> one_new n k0 k -> inv k).
  { intros k R A (i' & Z1 & Z2).
    eapply (inv_after n); [exact I0|exact (rc_sane _ _ _ _ _ R)|exact (separate_new k0 p n k i' S0 (in_sep _ I0) R Z1 Z2)|eapply reach_others; [exact S0|apply I0|exact R]|exact NS|exact A]. }
  clear W1 W2. eapply wps_mono2; [| |exact W].
  - intros k (R & A & O). apply HI, INV; assumption.
  - cbn beta. intros r k (R & P) (_ & A & O). split; [apply INV; assumption|exact P].
Qed.

(** ** The loop *)
(** All the chains of [l] are there, in new directories, and what was there still is. *)
Record placed (F : call -> bool) (k0 : kst) (l : list (nchain * option hookopts)) (k : kst) : Prop := {
  pl_next : k_next k0 <= k_next k;
  pl_there : forall c o, In (c, o) l -> exists i hd, ent_find (nc_name c) (k_ents k) = Some i /\ k_next k0 <= i /\
    holds_chain k i c hd /\ as_asked F (nc_chain c) o hd /\ tidy k i;
  pl_ents : forall n i, ent_find n (k_ents k0) = Some i -> ent_find n (k_ents k) = Some i;
  pl_dirs : forall i, i < k_next k0 -> k_dirs k i = k_dirs k0 i;
  pl_objs : forall o, o < k_next k0 -> k_objs k o = k_objs k0 o;
  pl_more : forall n i, ent_find n (k_ents k) = Some i -> ent_find n (k_ents k0) = Some i \/ exists c o, In (c, o) l /\ nc_name c = n
}.
Lemma placed_nil F k : placed F k [] k.
Proof. constructor; auto; [lia|intros c o []]. Qed.
Lemma placed_step F p c o k0 k1 l k : sane k1 -> made F p k0 c o [] k1 -> all_tidy (nc_name c) k1 -> placed F k1 l k -> placed F k0 ((c, o) :: l) k.
Proof.
  intros S1 (i & D & hd & FN & LI & EV & HC & LA) TD [P1 P2 P3 P4 P5 P6].
  pose proof (ev_ents _ _ _ _ _ _ _ EV) as EE. pose proof (ev_next _ _ _ _ _ _ _ EV) as NX.
  assert (EI : ent_find (nc_name c) (k_ents k1) = Some i) by (rewrite EE; apply ent_find_head).
  assert (LI1 : i < k_next k1) by apply (ev_view _ _ _ _ _ _ _ EV _ _ eq_refl).
  assert (OB : forall q o v, dview k1 i q = Some o -> k_objs k1 o = Some v -> k_objs k o = Some v).
  { intros q o' v X Y. rewrite P5; [exact Y|exact (sane_pin_lt _ _ _ _ S1 X)]. }
  assert (DV : forall q, dview k i q = dview k1 i q) by (intros q; unfold dview; rewrite P4 by exact LI1; reflexivity).
  constructor; [lia| | | | |].
  - intros c1 o1 [X|X].
    + injection X as <- <-. exists i, hd. split; [exact (P3 _ _ EI)|]. split; [exact LI|].
      split; [eapply holds_frame; [exact HC|exact DV|exact OB]|]. split; [exact LA|].
      destruct (TD i EI) as (oc & t & hd' & T1 & T2 & T3). exists oc, t, hd'. unfold pin in *. fold (dview k i P_ctx). rewrite DV. split; [exact T1|].
      split; [eapply OB; [exact T1|exact T2]|]. intros q. fold (dview k i q). rewrite DV. apply T3.
    + destruct (P2 c1 o1 X) as (i1 & hd1 & Y1 & Y2 & Y3). exists i1, hd1. split; [exact Y1|]. split; [lia|exact Y3].
  - intros n j X. apply P3. rewrite EE. cbn [ent_find]. destruct (bytes_eqb n (nc_name c)) eqn:B; [|exact X]. apply bytes_eqb_eq in B. congruence.
  - intros j L. rewrite P4 by lia. apply (ev_dirs _ _ _ _ _ _ _ EV j L). intros D' H. injection H as <- _. lia.
  - intros j L. rewrite P5 by lia. apply (ev_objs _ _ _ _ _ _ _ EV j L).
  - intros n j X. destruct (P6 n j X) as [Y|(c1 & o1 & Y1 & Y2)].
    + rewrite EE in Y. cbn [ent_find] in Y. destruct (bytes_eqb n (nc_name c)) eqn:B; [|left; exact Y]. apply bytes_eqb_eq in B. right. exists c, o. split; [left; reflexivity|auto].
    + right. exists c1, o1. split; [right; exact Y1|exact Y2].
Qed.

Lemma set_chains_ok F p (I : kst -> Prop) mm b f : (forall k', inv k' -> I k') -> f <> b -> forall l i k0, inv k0 -> quiet p k0 ->
  desc_of k0 p b = Some D_bpffs -> desc_of k0 p f = Some (D_pindir L_WRITE) -> Forall (fun x => usual (fst x)) l ->
  wps F p I (set_chains mm (mkLk (Some b) (Some f) L_WRITE None) i l) (fun r k' =>
    inv k' /\ quiet p k' /\ desc_of k' p b = Some D_bpffs /\ desc_of k' p f = Some (D_pindir L_WRITE) /\
    match r with
    | Ok _ => placed F k0 l k'
    | Er e => exists l1 c o l2 k1, l = l1 ++ (c, o) :: l2 /\ placed F k0 l1 k1 /\ one_refused F (mm (i + length l1)%nat) k1 c e /\ inv k1 /\ grow p [] k1 k'
    end) k0.
Proof.
  intros HI NE. induction l as [|[c o] l IH]; intros i k0 I0 QU DB DF FA; cbn [set_chains].
  - apply wps_ret; [apply HI, I0|]. split; [exact I0|]. split; [exact QU|]. split; [exact DB|]. split; [exact DF|apply placed_nil].
  - inversion FA as [|x y US FA']; subst. cbn [fst] in US. pose proof (in_sane _ I0) as S0.
    assert (OW : owns k0 p (mkLk (Some b) (Some f) L_WRITE None) b f L_WRITE) by (split; [reflexivity|split; [exact DB|split; [exact DF|exact NE]]]).
    apply wps_bind. eapply wps_post with (I := I); [auto| |apply (set_one_inv F p I (mm i) c o b f k0 I0 QU US HI OW)].
    intros [[]|e] k1 (I1 & P).
    + destruct P as (MD & TD).
      assert (EV : exists E X, evo p E X [] [] k0 k1) by (destruct MD as (j & D & hd & _ & _ & EV & _); eauto). destruct EV as (E & X & EV).
      eapply wps_post with (I := I); [auto| |apply (IH (S i) k1 I1)]; cycle 1.
      * eapply quiet_evo; [exact EV|exact QU].
      * eapply evo_desc; [exact EV|exact S0|exact DB].
      * eapply evo_desc; [exact EV|exact S0|exact DF].
      * exact FA'.
      * intros r k2 (J1 & J2 & J3 & J4 & J5). split; [exact J1|]. split; [exact J2|]. split; [exact J3|]. split; [exact J4|].
        destruct r as [[]|e].
        { eapply placed_step; [apply I1|exact MD|exact TD|exact J5]. }
        destruct J5 as (l1 & c1 & o1 & l2 & k3 & -> & Y1 & Y2 & Y3). exists ((c, o) :: l1), c1, o1, l2, k3. split; [reflexivity|].
        split; [eapply placed_step; [apply I1|exact MD|exact TD|exact Y1]|]. split; [|exact Y3]. cbn [length]. rewrite Nat.add_succ_r. exact Y2.
    + destruct P as (G & RF). apply wps_ret; [apply HI, I1|]. split; [exact I1|]. split; [eapply quiet_evo; [exact G|exact QU]|].
      split; [eapply grow_desc; [exact G|exact S0|exact DB]|]. split; [eapply grow_desc; [exact G|exact S0|exact DF]|].
      exists [], c, o, l, k0. split; [reflexivity|]. split; [apply placed_nil|]. cbn [length]. rewrite Nat.add_0_r. auto.
Qed.

(** ** bf_ruleset_set *)
Lemma cl_less k k' : cl k k' -> less k k'.
Proof.
  intros C. constructor.
  - apply (cl_sane _ _ C).
  - rewrite (cl_next _ _ C). lia.
  - rewrite (cl_ents _ _ C). auto.
  - intros j q o. unfold dview. rewrite (cl_dirs _ _ C). auto.
  - intros o L. left. rewrite (cl_objs _ _ C). reflexivity.
  - rewrite (cl_ents _ _ C). auto.
Qed.
Lemma cl_inv k k' : inv k -> cl k k' -> inv k'.
Proof. intros I0 C. eapply inv_frame; [exact I0|apply (cl_sane _ _ C)|apply (cl_ents _ _ C)|apply (cl_dirs _ _ C)|apply (cl_objs _ _ C)]. Qed.
Lemma close_cl p k x s : sane k -> cl k (fst (kdo k p (C_close x) s)).
Proof.
  intros S. pose proof (kdo_sane k p (C_close x) s S) as S'. cbn [kdo] in *. destruct (desc_of k p x); cbn [fst] in *; [|apply cl_refl, S].
  constructor; try reflexivity; [exact S'|]. intros f y. cbn [with_fds k_fds]. rewrite fd_find_del. destruct (f =? x); [discriminate|auto].
Qed.
Lemma cleanup_cl F p (I : kst -> Prop) b f m k0 : sane k0 -> (forall k', cl k0 k' -> I k') ->
  wps F p I (lock_cleanup (mkLk (Some b) (Some f) m None)) (fun _ k' => cl k0 k') k0.
Proof.
  intros S HI. unfold lock_cleanup, release_chain. cbn [lk_bpffs lk_pin lk_chain pbind close_opt].
  apply wps_ign; [apply HI, cl_refl, S| |intros _ X; discriminate X]. intros s. pose proof (close_cl p k0 f s S) as C1.
  unfold sys_. cbn [pbind]. fold (sys_ (C_close b)). change (Do (C_close b) (fun _ => Ret tt)) with (sys_ (C_close b)).
  change (sys_ (C_close b)) with (pbind (sys_ (C_close b)) (fun _ => Ret tt)).
  apply wps_ign; [apply HI, C1| |intros _ X; discriminate X]. intros s2. pose proof (cl_trans _ _ _ C1 (close_cl p _ b s2 (cl_sane _ _ C1))) as C2.
  apply wps_ret; [apply HI, C2|exact C2].
Qed.
Lemma flush_later F mm k0 kb k : sane k0 -> k_next k0 <= k_next kb -> flush_result F mm k0 kb -> less kb k -> flush_result F mm k0 k.
Proof. intros S L H LS n i c hd A B C. destruct (H n i c hd A B C) as [X|[X|X]]; auto. right. right. eapply wiped_later; [exact S|exact L|exact X|exact LS]. Qed.
Lemma placed_back F p S kb k0 l k : sane kb -> grow p S kb k0 -> placed F k0 l k -> placed F kb l k.
Proof.
  intros SB G [P1 P2 P3 P4 P5 P6]. pose proof (ev_next _ _ _ _ _ _ _ G) as NX. pose proof (ev_ents _ _ _ _ _ _ _ G) as EE. constructor.
  - lia.
  - intros c o X. destruct (P2 c o X) as (i & hd & Y1 & Y2 & Y3). exists i, hd. split; [exact Y1|]. split; [lia|exact Y3].
  - intros n i X. apply P3. rewrite EE. exact X.
  - intros i L. rewrite P4 by lia. apply (ev_dirs _ _ _ _ _ _ _ G i L). discriminate.
  - intros o L. rewrite P5 by lia. apply (ev_objs _ _ _ _ _ _ _ G o L).
  - intros n i X. destruct (P6 n i X) as [Y|Y]; [left; rewrite <- EE; exact Y|right; exact Y].
Qed.
Lemma placed_cl F k0 l k k' : placed F k0 l k -> cl k k' -> placed F k0 l k'.
Proof.
  intros [P1 P2 P3 P4 P5 P6] C. constructor.
  - rewrite (cl_next _ _ C). exact P1.
  - intros c o X. destruct (P2 c o X) as (i & hd & Y1 & Y2 & Y3 & Y4 & Y5). exists i, hd. rewrite (cl_ents _ _ C). split; [exact Y1|]. split; [exact Y2|].
    split; [eapply holds_frame; [exact Y3| |]; [intros q; unfold dview; rewrite (cl_dirs _ _ C); reflexivity|intros q o' v _ Z; rewrite (cl_objs _ _ C); exact Z]|].
    split; [exact Y4|]. unfold tidy, pin. rewrite (cl_dirs _ _ C), (cl_objs _ _ C). exact Y5.
  - rewrite (cl_ents _ _ C). exact P3.
  - rewrite (cl_dirs _ _ C). exact P4.
  - rewrite (cl_objs _ _ C). exact P5.
  - rewrite (cl_ents _ _ C). exact P6.
Qed.

Definition strangers (p : pid) (k0 k : kst) : Prop := forall x, In x (k_fds k) -> In x (k_fds k0) \/ fst (snd x) = p.
Definition set_result (F : call -> bool) (p : pid) (m1 m2 m3 : nat -> mem) (cs : list nchain) (os : list (option hookopts)) (k0 : kst) (r : res unit) (k' : kst) : Prop :=
  match r with
  | Ok _ => length cs = length os /\ exists kb, inv kb /\ k_next kb = k_next k0 /\ less k0 kb /\ flush_result F m1 k0 kb /\ placed F kb (combine cs os) k'
  | Er e =>
      (grow p [] k0 k' /\ (length cs <> length os \/ faulty F \/ clash k0 (D_pindir L_NONE) L_WRITE)) \/
      exists kb l1 c o l2 k1 k2, inv kb /\ k_next kb = k_next k0 /\ k_fds kb = k_fds k0 /\ less k0 kb /\ flush_result F m1 k0 kb /\ combine cs os = l1 ++ (c, o) :: l2 /\
        placed F kb l1 k1 /\ one_refused F (m2 (length l1)) k1 c e /\ inv k1 /\ grow p [] k1 k2 /\ inv k2 /\ quiet p k2 /\
        strangers p k0 k2 /\
        flush_result F m3 k2 k' /\ less k2 k'
  end.
Definition steady (p : pid) (k0 k : kst) : Prop := uniq_names k /\ strangers p k0 k.
Lemma ksys_steady p k0 d a k : steady p k0 k -> steady p k0 (fst (ksys k p a d)).
Proof. intros (U & X). split; [apply ksys_uniq, U|]. intros x H. destruct (ksys_fds _ _ _ _ _ H) as [Y|Y]; auto. Qed.

Lemma ruleset_set_ok F p (I : kst -> Prop) m1 m2 m3 cs os k0 : inv k0 -> uniq_names k0 -> no_fds k0 p -> Forall usual cs -> (forall k', inv k' -> I k') ->
  wps F p I (ruleset_set m1 m2 m3 cs os) (fun r k' => inv k' /\ set_result F p m1 m2 m3 cs os k0 r k') k0.
Proof.
  intros I0 U0 NF US HI. pose proof (in_sane _ I0) as S0.
  assert (HG : forall S k', grow p S k0 k' -> I k') by (intros S k' X; apply HI; eapply inv_grow; [exact I0|exact X]).
  pose proof (ksys_steady p k0) as UQ.
  assert (U0' : steady p k0 k0) by (split; [exact U0|intros x X; left; exact X]).
  unfold ruleset_set. destruct (length cs =? length os)%nat eqn:LE; cbn [negb].
  2:{ apply wps_ret; [apply HI, I0|]. split; [exact I0|]. left. split; [apply evo_refl, S0|]. left. apply Nat.eqb_neq, LE. }
  apply Nat.eqb_eq in LE.
  apply wps_bind. eapply wps_post with (I := I); [auto| |apply (wps_also F p I (steady p k0) _ _ k0 UQ U0' (lock_init_ok F p I L_WRITE k0 S0 HG))].
  intros [lk|e] k1 (P & U1).
  2:{ destruct P as (G & C). apply wps_ret; [eapply HG, G|]. split; [eapply inv_grow; [exact I0|exact G]|]. left. split; [exact G|right; exact C]. }
  destruct P as (b & f & (-> & DB & DF & NE) & G1 & LB & LF).
  apply wps_bind. eapply wps_post with (I := I); [auto| |apply (wps_also F p I (steady p k0) _ _ k1 UQ U1 (flush_all_ok F p I m1 b f k0 k1 I0 U0 (fun k' X _ => HI k' X) NE [f; b] (incl_refl _) G1 DB DF))].
  intros r k2 ((DB2 & DF2 & kb & B1 & B2 & B3 & B4 & B5 & B6) & U2). pose proof (inv_grow _ _ _ _ B1 B5) as I2.
  destruct r as [[]|e].
  2:{ destruct B6 as (-> & HF). apply wps_bind. eapply wps_post with (I := I); [auto| |apply (lock_cleanup_ok F p I b f L_WRITE _ None [] [f; b] [] k0 k2 S0 B5 LB LF)].
      - intros [] k3 (G3 & _). pose proof (inv_grow _ _ _ _ I0 G3) as I3. apply wps_ret; [apply HI, I3|]. split; [exact I3|]. left. split; [exact G3|auto].
      - intros x [<-|[<-|[]]]; auto.
      - intros Z k' _ E'. eapply HG. exact E'. }
  assert (Q2 : quiet p k2).
  { intros x d D. apply desc_of_find in D. destruct (N.lt_ge_cases x (k_next kb)) as [L|L].
    - rewrite (ev_old _ _ _ _ _ _ _ B5 x L), B3 in D. destruct (NF x d). apply find_desc_of, D.
    - destruct (ev_new _ _ _ _ _ _ _ B5 x L) as [X0|([<-|[<-|[]]] & _)]; [congruence| |]; apply find_desc_of in D; [right; exists L_WRITE|left]; congruence. }
  assert (FC : Forall (fun x => usual (fst x)) (combine cs os)).
  { rewrite Forall_forall in US |- *. intros [c o] X. apply US. exact (in_combine_l _ _ _ _ X). }
  apply wps_bind. eapply wps_post with (I := I); [auto| |apply (wps_also F p I (steady p k0) _ _ k2 UQ U2 (set_chains_ok F p I m2 b f HI NE (combine cs os) 0 k2 I2 Q2 DB2 DF2 FC))].
  intros r k3 ((I3 & Q3 & DB3 & DF3 & P) & U3). destruct r as [[]|e].
  - apply wps_bind. eapply wps_post with (I := I); [auto| |apply (cleanup_cl F p I b f L_WRITE k3 (in_sane _ I3))].
    + intros [] k4 C. pose proof (cl_inv _ _ I3 C) as I4. apply wps_ret; [apply HI, I4|]. split; [exact I4|]. split; [exact LE|]. exists kb.
      split; [exact B1|]. split; [exact B2|]. split; [exact B4|]. split; [exact B6|]. eapply placed_cl; [|exact C]. eapply placed_back; [apply B1|exact B5|exact P].
    + intros k' C. apply HI. eapply cl_inv; [exact I3|exact C].
  - destruct P as (l1 & c & o & l2 & kl & EL & PL & RF & IL & GL). cbn [Nat.add] in RF.
    apply wps_bind. eapply wps_post with (I := I); [auto| |apply (flush_all_ok F p I m3 b f k3 k3 I3 (proj1 U3) (fun k' X _ => HI k' X) NE [] ltac:(intros ? []) (evo_refl p k3 (in_sane _ I3)) DB3 DF3)].
    intros r k4 (DB4 & DF4 & kc & C1 & C2 & C3 & C4 & C5 & C6). pose proof (inv_grow _ _ _ _ C1 C5) as I4.
    assert (FR : flush_result F m3 k3 kc).
    { destruct r as [u|e']; [exact C6|]. destruct C6 as (_ & HF). intros n i c' hd _ _ _. left. left. exact HF. }
    apply wps_bind. eapply wps_post with (I := I); [auto| |apply (cleanup_cl F p I b f L_WRITE k4 (in_sane _ I4))].
    + intros [] k5 C. pose proof (cl_inv _ _ I4 C) as I5. apply wps_ret; [apply HI, I5|]. split; [exact I5|]. right.
      assert (LS : less kc k5) by (eapply less_trans; [eapply grow_less; [apply C1|exact C5]|apply cl_less, C]).
      exists kb, l1, c, o, l2, kl, k3. split; [exact B1|]. split; [exact B2|]. split; [exact B3|]. split; [exact B4|]. split; [exact B6|]. split; [exact EL|].
      split; [eapply placed_back; [apply B1|exact B5|exact PL]|]. split; [exact RF|]. split; [exact IL|]. split; [exact GL|]. split; [exact I3|]. split; [exact Q3|]. split; [exact (proj2 U3)|].
      split; [eapply (flush_later F m3 k3 kc); [apply I3|lia|exact FR|exact LS]|eapply less_trans; [exact C4|exact LS]].
    + intros k' C. apply HI. eapply cl_inv; [exact I4|exact C].
Qed.
