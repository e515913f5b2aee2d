(** bf_chain_load and the second half of bf_chain_set, run by one process alone. *)
From Coq Require Import NArith ZArith List Bool Lia.
From Verif Require Import Bytes Types World BpfModel GenModel BytesFacts StrModel SetModel MapModel PackModel PackSpec PackFacts4 HookModel KernModel LockModel CtlModel SysSpec SysFacts RelyFacts SeqFacts StageFacts EvoFacts CtlSpec HandleFacts PinFacts AttachFacts LockSeqFacts.
Import ListNotations.
Local Open Scope N_scope.

(** ** Packing and copying *)
Lemma same_set_pack u v : same_set u v -> set_pack u = set_pack v.
Proof. intros (A & B & C & D & E). unfold set_pack. rewrite A, B, E. reflexivity. Qed.
Lemma same_chain_pack a b : same_chain a b -> chain_pack a = chain_pack b.
Proof.
  intros (A & B & C). unfold chain_pack. rewrite A, C.
  replace (map_res set_pack (nc_sets a)) with (map_res set_pack (nc_sets b)); [reflexivity|].
  induction B as [|u v us vs H B IH]; cbn [map_res]; [reflexivity|]. rewrite (same_set_pack _ _ H), IH. reflexivity.
Qed.
Lemma holds_same k i a b hd : same_chain a b -> holds_chain k i b hd -> holds_chain k i a hd.
Proof.
  intros S [H1 H2]. pose proof S as (_ & _ & E). split; [rewrite (same_chain_pack _ _ S)|rewrite E]; assumption.
Qed.

(** ** Consistency is a matter of the pins and of the objects *)
Lemma holds_frame k k' i c hd : holds_chain k i c hd ->
  (forall q, dview k' i q = dview k i q) -> (forall q o v, dview k i q = Some o -> k_objs k o = Some v -> k_objs k' o = Some v) -> holds_chain k' i c hd.
Proof.
  intros [(o & t & A & B & C) H] D O. split.
  - exists o, t. unfold pin in *. fold (dview k' i P_ctx). rewrite D. split; [exact A|]. split; [exact (O _ _ _ A B)|exact C].
  - eapply complete_mono; [| |exact H].
    + intros q x X. unfold pin in *. fold (dview k' i q). rewrite D. exact X.
    + intros q x v X. exact (O q x v X).
Qed.
Lemma consistent_frame k k' i : consistent k i ->
  (forall q, dview k' i q = dview k i q) -> (forall q o v, dview k i q = Some o -> k_objs k o = Some v -> k_objs k' o = Some v) -> consistent k' i.
Proof.
  intros [H|(c & hd & H & B & S)] D O.
  - left. unfold pin in *. fold (dview k' i P_ctx). rewrite D. exact H.
  - right. exists c, hd. split; [|auto]. eapply holds_frame; eauto.
Qed.
(** Nothing but directory [i] was touched. *)
Lemma consistent_evo p E X S k0 k' j : sane k0 -> evo p E X [] S k0 k' -> j < k_next k0 -> (forall D, X <> Some (j, D)) ->
  consistent k0 j -> consistent k' j.
Proof.
  intros S0 EV L NX C. eapply consistent_frame; [exact C| |].
  - intros q. unfold dview. rewrite (ev_dirs _ _ _ _ _ _ _ EV j L NX). reflexivity.
  - intros q o v _ H. eapply evo_obj; [exact EV|exact S0|exact H|reflexivity].
Qed.
Lemma all_grow p S k0 k' : sane k0 -> all_consistent k0 -> grow p S k0 k' -> all_consistent k'.
Proof.
  intros S0 A G n i H. rewrite (ev_ents _ _ _ _ _ _ _ G) in H.
  eapply consistent_evo; [exact S0|exact G|exact (sane_ent _ S0 _ _ H)|discriminate|exact (A n i H)].
Qed.
Lemma all_evo p E i D S k0 k' : sane k0 -> all_consistent k0 -> evo p E (Some (i, D)) [] S k0 k' ->
  (forall n j, ent_find n E = Some j -> j <> i -> ent_find n (k_ents k0) = Some j) ->
  (forall n, ent_find n E = Some i -> consistent k' i) -> all_consistent k'.
Proof.
  intros S0 A EV HE HI n j H. rewrite (ev_ents _ _ _ _ _ _ _ EV) in H.
  destruct (N.eq_dec j i) as [->|NE]; [exact (HI n H)|].
  specialize (HE n j H NE). eapply consistent_evo; [exact S0|exact EV|exact (sane_ent _ S0 _ _ HE)| |exact (A n j HE)].
  intros D' X. injection X as X _. congruence.
Qed.
Lemma all_cle k k' E : all_consistent k -> cle E k k' -> (forall n i, ent_find n E = Some i -> ent_find n (k_ents k) = Some i) -> all_consistent k'.
Proof.
  intros A C HE n i H. assert (HN : ent_find n (k_ents k) = Some i).
  { destruct (ce_ents _ _ _ C) as [X|X]; rewrite X in H; [exact H|exact (HE n i H)]. }
  eapply consistent_frame; [exact (A n i HN)| |].
  - intros q. unfold dview. rewrite (ce_dirs _ _ _ C). reflexivity.
  - intros q o v _ X. rewrite (ce_objs _ _ _ C). exact X.
Qed.
Lemma ent_find_del n m l : ent_find m (ent_del n l) = if bytes_eqb m n then None else ent_find m l.
Proof.
  induction l as [|[x i] l IH]; cbn [ent_del filter fst ent_find]; [destruct (bytes_eqb m n); reflexivity|].
  fold (ent_del n l). destruct (name_eqb_spec n x) as [->|NE]; cbn [negb].
  - rewrite IH. destruct (bytes_eqb m x); reflexivity.
  - cbn [ent_find]. rewrite IH. destruct (name_eqb_spec m x) as [->|]; [|reflexivity].
    destruct (name_eqb_spec x n); [congruence|reflexivity].
Qed.
Lemma trim_sub k m n x i : ent_find x (trim k m n) = Some i -> ent_find x (k_ents k) = Some i.
Proof.
  unfold trim. destruct m; auto. destruct (ent_find n (k_ents k)); auto. destruct (k_dirs k i0); auto.
  rewrite ent_find_del. destruct (bytes_eqb x n); [discriminate|auto].
Qed.

(** ** Composition with what happened before *)
Lemma made_from p S S' k0 k1 n i k2 : grow p S k0 k1 -> being_made p k1 n i S' k2 -> being_made p k0 n i (S' ++ S) k2.
Proof.
  intros G (FN & LI & EV). pose proof (ev_next _ _ _ _ _ _ _ G). pose proof (ev_ents _ _ _ _ _ _ _ G) as EN. rewrite EN in *.
  split; [exact FN|split; [lia|]]. exact (evo_trans _ _ _ _ _ _ _ _ _ _ _ _ G EV Logic.I).
Qed.

(** The chain is installed in a new directory: the points at which the process can be
    stopped, and the result. *)
Definition half_made (p : pid) (k0 : kst) (n : name) (S : list fd) (k' : kst) : Prop :=
  exists s i D, (s = n \/ (is_staging s = true /\ forall q, D q = None)) /\ ent_find s (k_ents k0) = None /\ k_next k0 <= i /\
    evo p ((s, i) :: k_ents k0) (Some (i, D)) [] S k0 k' /\ D P_ctx = None.
Definition as_asked (F : call -> bool) (ch : chain) (opts : option hookopts) (hd : hdesc) : Prop :=
  match opts with
  | None => hd_link hd = None
  | Some o => hd_link hd = Some (c_hook ch, o) \/ (hd_link hd = None /\ is_cgroup (c_hook ch) /\ (faulty F \/ ho_cgpath o = None))
  end.
Lemma as_asked_handle F ch opts h : link_as_asked F ch opts h -> as_asked F ch opts (handle_desc h).
Proof.
  unfold link_as_asked, as_asked, handle_desc. cbn [hd_link]. destruct opts as [o|]; [|intros ->; reflexivity].
  intros [(l & -> & A & B)|(-> & A)]; [left; rewrite A, B; reflexivity|right; auto].
Qed.
Definition made (F : call -> bool) (p : pid) (k0 : kst) (c : nchain) (opts : option hookopts) (S : list fd) (k' : kst) : Prop :=
  exists i D hd, ent_find (nc_name c) (k_ents k0) = None /\ k_next k0 <= i /\
    evo p ((nc_name c, i) :: k_ents k0) (Some (i, D)) [] S k0 k' /\ holds_chain k' i c hd /\ as_asked F (nc_chain c) opts hd.
Definition all_tidy (n : name) (k : kst) : Prop := forall i, ent_find n (k_ents k) = Some i -> tidy k i.
Definition not_made (F : call -> bool) (c : nchain) (e : N) : Prop :=
  faulty F \/ gen_program (nc_chain c) = Er e \/ chain_pack c = Er e \/ ~ NoDup (set_names (nc_chain c)).

Lemma being_half p k0 n s i S k : (s = n \/ is_staging s = true) -> being_made p k0 s i S k -> half_made p k0 n S k.
Proof. intros H (A & B & C). exists s, i, nothing. split; [destruct H; [auto|right; split; [exact H|reflexivity]]|]. auto 6. Qed.

Lemma finish_set_ok F p (I : kst -> Prop) b pd cf c0 c opts k0 i k : sane k0 -> same_chain c0 c ->
  being_made p k0 (nc_name c0) i [cf; pd; b] k -> desc_of k p pd = Some (D_pindir L_WRITE) -> desc_of k p cf = Some (D_dir i L_WRITE) ->
  k_next k0 <= cf -> k_next k0 <= pd -> k_next k0 <= b ->
  (forall S k', grow p S k0 k' -> I k') -> (forall S k', half_made p k0 (nc_name c0) S k' -> I k') ->
  (forall S k', made F p k0 c0 opts S k' -> I k') ->
  wps F p I (rs <~ cgen_set (mkCg c handle_new) opts cf ;;
             cgen_free (fst rs) ;;;
             lock_cleanup (mkLk (Some b) (Some pd) L_WRITE (Some (cf, nc_name c0, L_WRITE))) ;;;
             Ret (snd rs)) (fun r k' =>
    match r with
    | Ok _ => made F p k0 c0 opts [] k' /\ all_tidy (nc_name c0) k'
    | Er e => grow p [] k0 k' /\ not_made F c e
    end) k.
Proof.
  intros S0 SC B DP DC LC LP LB HG HH HM. pose proof B as (FN & LI & EV). pose proof (ev_sane _ _ _ _ _ _ _ EV) as SK.
  pose proof (ev_next _ _ _ _ _ _ _ EV) as NX. pose proof (ev_ents _ _ _ _ _ _ _ EV) as EN.
  assert (TR : forall D S k', evo p (k_ents k) (Some (i, D)) [] S k k' -> evo p ((nc_name c0, i) :: k_ents k0) (Some (i, D)) [] (S ++ [cf; pd; b]) k0 k').
  { intros D S k' E. rewrite EN in E. exact (evo_trans _ _ _ _ _ _ _ _ _ _ _ _ EV E eq_refl). }
  apply wps_bind.
  eapply wps_post with (I := I); [auto| |apply (cgen_set_ok F p I c opts cf i L_WRITE k SK DC)]; cycle 1.
  { apply (ev_view _ _ _ _ _ _ _ EV). reflexivity. }
  { intros S D k' E H. eapply HH. exists (nc_name c0), i, D. split; [left; reflexivity|]. split; [exact FN|split; [exact LI|]]. split; [eapply TR; exact E|exact H]. }
  { intros S D k' h E H1 H2. eapply HM. exists i, D, (handle_desc h). split; [exact FN|split; [exact LI|]]. split; [eapply TR; exact E|].
    split; [eapply holds_same; [exact SC|exact H1]|]. destruct SC as (_ & _ & EC). rewrite EC. apply as_asked_handle, H2. }
  intros [g r] k1. unfold set_done. cbn [fst snd]. intros (GC & LF & D & E1 & R).
  specialize (TR D _ _ E1). pose proof (ev_sane _ _ _ _ _ _ _ E1) as S1.
  assert (IC : forall k', k_dirs k' = k_dirs k1 -> k_objs k' = k_objs k1 ->
     (forall SS, evo p ((nc_name c0, i) :: k_ents k0) (Some (i, D)) [] SS k0 k' -> I k')).
  { intros k' DK OK SS E'. destruct r as [u|e].
    - destruct R as (HC & LA & _). eapply HM. exists i, D, (handle_desc (g_handle g)). split; [exact FN|split; [exact LI|split; [exact E'|]]].
      split; [|destruct SC as (_ & _ & EC); rewrite EC; apply as_asked_handle, LA].
      eapply holds_same; [exact SC|]. eapply holds_frame; [exact HC| |]; [intros q; unfold dview; rewrite DK; reflexivity|intros q o v _ X; rewrite OK; exact X].
    - destruct R as (DN & _). eapply HH. exists (nc_name c0), i, D. split; [left; reflexivity|]. split; [exact FN|]. split; [exact LI|]. split; [exact E'|apply DN]. }
  assert (EN1 : k_ents k1 = (nc_name c0, i) :: k_ents k0) by exact (ev_ents _ _ _ _ _ _ _ TR).
  assert (EDI : forall e, r = Er e -> k_dirs k1 i = []).
  { intros e ->. apply view_empty. intros q. rewrite (proj2 (ev_view _ _ _ _ _ _ _ TR i D eq_refl)). apply R. }
  assert (EDN : forall u, r = Ok u -> k_dirs k1 i <> []).
  { intros u -> X. destruct R as (((o & t & A & _) & _) & _). unfold pin in A. rewrite X in A. discriminate A. }
  apply wps_bind.
  eapply wps_post with (I := I); [auto| |apply (closes_cgen p g F I k0 _ _ _ _ [cf; pd; b] k1 TR S0)]; cycle 1.
  { intros f Hf. specialize (LF f Hf). lia. }
  { intros x Hx. apply in_app_or in Hx as [Y|Y]; auto. }
  { intros Z k' C E'. eapply IC; [apply (cl_dirs _ _ C)|apply (cl_objs _ _ C)|exact E']. }
  intros [] k2 (C2 & E2 & F2). pose proof (ev_sane _ _ _ _ _ _ _ E2) as S2.
  assert (DP2 : desc_of k2 p pd = Some (D_pindir L_WRITE)).
  { apply find_desc_of. rewrite F2; [|intros X; specialize (LF _ X); pose proof (desc_lt _ _ _ _ SK DP); lia].
    apply desc_of_find. eapply evo_desc; [exact E1|exact SK|exact DP]. }
  assert (TE : trim k2 L_WRITE (nc_name c0) = match r with Ok _ => (nc_name c0, i) :: k_ents k0 | Er _ => k_ents k0 end).
  { unfold trim. rewrite (ev_ents _ _ _ _ _ _ _ E2), ent_find_head, (cl_dirs _ _ C2). destruct r as [u|e].
    - destruct (k_dirs k1 i) eqn:X; [destruct (EDN u eq_refl eq_refl)|reflexivity].
    - rewrite (EDI e eq_refl). apply ent_del_head, FN. }
  apply wps_bind.
  eapply wps_post with (I := I); [auto| |apply (chain_cleanup_ok F p I b pd L_WRITE cf (nc_name c0) L_WRITE _ _ _ [cf; pd; b] [] k0 k2 S0 E2 DP2 LC LB LP)]; cycle 1.
  { intros x [<-|[<-|[<-|[]]]]; auto. }
  { intros E' Z k' C3 E3. pose proof (ev_ents _ _ _ _ _ _ _ E3) as EE.
    assert (X : E' = (nc_name c0, i) :: k_ents k0 \/ (E' = k_ents k0 /\ forall q, D q = None)).
    { destruct (ce_ents _ _ _ C3) as [Y|Y]; rewrite EE in Y; [left; rewrite Y; apply (ev_ents _ _ _ _ _ _ _ E2)|]. rewrite TE in Y. destruct r; [auto|right; split; [exact Y|apply R]]. }
    destruct X as [-> | [-> EM]].
    - eapply IC; [rewrite (ce_dirs _ _ _ C3); apply (cl_dirs _ _ C2)|rewrite (ce_objs _ _ _ C3); apply (cl_objs _ _ C2)|exact E3].
    - eapply HG. eapply made_old; [exact LI|exact EM|exact E3]. }
  intros [] k3 (E3 & C3). rewrite TE in E3. destruct r as [u|e].
  - apply wps_ret.
    + eapply IC; [rewrite (ce_dirs _ _ _ C3); apply (cl_dirs _ _ C2)|rewrite (ce_objs _ _ _ C3); apply (cl_objs _ _ C2)|exact E3].
    + destruct R as (HC & LA & _ & _ & TD). split.
      2:{ intros j. rewrite (ev_ents _ _ _ _ _ _ _ E3), ent_find_head. intros J. injection J as <-. unfold tidy, pin in *.
          rewrite (ce_dirs _ _ _ C3), (cl_dirs _ _ C2), (ce_objs _ _ _ C3), (cl_objs _ _ C2). exact TD. }
      exists i, D, (handle_desc (g_handle g)). split; [exact FN|split; [exact LI|split; [exact E3|]]].
      split; [|destruct SC as (_ & _ & EC); rewrite EC; apply as_asked_handle, LA].
      eapply holds_same; [exact SC|]. eapply holds_frame; [exact HC| |].
      * intros q. unfold dview. rewrite (ce_dirs _ _ _ C3), (cl_dirs _ _ C2). reflexivity.
      * intros q o v _ X. rewrite (ce_objs _ _ _ C3), (cl_objs _ _ C2). exact X.
  - assert (G3 : grow p [] k0 k3) by (eapply made_old; [exact LI|apply R|exact E3]).
    apply wps_ret; [eapply HG; exact G3|]. split; [exact G3|exact (proj2 R)].
Qed.

(** ** bf_chain_load *)
Definition load_refused (F : call -> bool) (mm : mem) (k0 : kst) (c : nchain) (e : N) : Prop :=
  refused F k0 (nc_name c) \/ clash k0 (D_pindir L_NONE) L_WRITE \/ chain_copy (m_nd mm) (m_tb mm) c = Er e \/
  gen_program (nc_chain c) = Er e \/ chain_pack c = Er e \/ ~ NoDup (set_names (nc_chain c)).

Lemma wps_copy {A} F p (I : kst -> Prop) mm c (g : res nchain -> prog A) Q k : chain_built c -> storable c -> I k ->
  (forall c', chain_copy (m_nd mm) (m_tb mm) c = Ok c' -> same_chain c c' -> wps F p I (g (Ok c')) Q k) ->
  (forall e, faulty F \/ chain_copy (m_nd mm) (m_tb mm) c = Er e -> wps F p I (g (Er e)) Q k) ->
  wps F p I (pbind (copy_chain mm c) g) Q k.
Proof.
  intros B S HI H1 H2. unfold copy_chain. apply pbind_assoc. apply wps_alloc; [exact HI| |].
  - cbn [pbind]. destruct (chain_round_trip (m_nd mm) (m_tb mm) c B S) as [(c' & E & SC)|E]; rewrite E; [apply H1; auto|apply H2; auto].
  - intros HF e. cbn [pbind]. apply H2. left. eapply faulty_intro; exact HF.
Qed.

Lemma refused_grow F p S k0 k n : grow p S k0 k -> refused F k n -> refused F k0 n.
Proof. intros G. unfold refused. rewrite (ev_ents _ _ _ _ _ _ _ G). auto. Qed.

Lemma chain_load_ok F p (I : kst -> Prop) mm c k0 : sane k0 -> chain_built c -> storable c ->
  (forall S k', grow p S k0 k' -> I k') -> (forall S k', half_made p k0 (nc_name c) S k' -> I k') ->
  (forall S k', made F p k0 c None S k' -> I k') ->
  wps F p I (chain_load mm c) (fun r k' =>
    match r with
    | Ok _ => made F p k0 c None [] k' /\ all_tidy (nc_name c) k'
    | Er e => grow p [] k0 k' /\ load_refused F mm k0 c e
    end) k0.
Proof.
  intros S0 CB CS HG HH HM. unfold chain_load, lock_init_for_chain. cbn [andb negb is_write].
  apply pbind_assoc. apply wps_bind.
  eapply wps_post with (I := I); [auto| |apply (lock_init_ok F p I L_WRITE k0 S0 HG)].
  intros [lk|e] k1.
  2:{ intros (G & C). cbn [pbind]. apply wps_ret; [eapply HG; exact G|]. split; [exact G|]. unfold load_refused, refused. tauto. }
  intros (b & f & OW & G1 & LB & LF). pose proof (ev_sane _ _ _ _ _ _ _ G1) as S1. pose proof (ev_next _ _ _ _ _ _ _ G1) as N1.
  apply pbind_assoc. apply wps_bind.
  eapply wps_post with (I := I); [auto| |apply (acquire_new_ok F p I lk b f (nc_name c) k1 S1 OW)]; cycle 1.
  { intros S k' G. eapply HG. eapply grow_trans; [exact G1|exact G]. }
  { intros S s i k' HS B. eapply HH. eapply being_half; [exact HS|]. eapply made_from; [exact G1|exact B]. }
  intros [lk'|e] k2.
  2:{ intros (G & C). destruct OW as (-> & _). apply pbind_assoc.
      assert (G2 : grow p [f; b] k0 k2) by (exact (grow_trans _ _ _ _ _ _ G1 G)).
      apply wps_bind. eapply wps_post with (I := I); [auto| |apply (lock_cleanup_ok F p I b f L_WRITE _ None [] [f; b] [] k0 k2 S0 G2 LB LF)].
      - intros [] k3 (G3 & _). cbn [pbind]. apply wps_ret; [eapply HG; exact G3|]. split; [exact G3|]. left. eapply refused_grow; [exact G1|exact C].
      - intros x [<-|[<-|[]]]; auto.
      - intros Z k' _ E'. eapply HG. exact E'. }
  intros (cf & i & -> & B2 & DC & LC). pose proof (made_from _ _ _ _ _ _ _ _ G1 B2) as B. cbn [app] in B.
  destruct OW as (_ & DB & DF & NE).
  assert (DP2 : desc_of k2 p f = Some (D_pindir L_WRITE)) by (destruct B2 as (_ & _ & E2); eapply evo_desc; [exact E2|exact S1|exact DF]).
  assert (LC0 : k_next k0 <= cf) by lia.
  assert (HB : forall S k', being_made p k0 (nc_name c) i S k' -> I k') by (intros S k' X; eapply HH, being_half; [left; reflexivity|exact X]).
  assert (FAIL : forall e, load_refused F mm k0 c e ->
    wps F p I (lock_cleanup (mkLk (Some b) (Some f) L_WRITE (Some (cf, nc_name c, L_WRITE))) ;;; Ret (Er e)) (fun (r : res unit) k' =>
      match r with Ok _ => made F p k0 c None [] k' /\ all_tidy (nc_name c) k' | Er e => grow p [] k0 k' /\ load_refused F mm k0 c e end) k2).
  { intros e C. pose proof B as (FN & LI & EV).
    assert (TE : trim k2 L_WRITE (nc_name c) = k_ents k0).
    { unfold trim. rewrite (ev_ents _ _ _ _ _ _ _ EV), ent_find_head.
      rewrite (proj1 (view_empty k2 i) (proj2 (ev_view _ _ _ _ _ _ _ EV i nothing eq_refl))). apply ent_del_head, FN. }
    apply wps_bind.
    eapply wps_post with (I := I); [auto| |apply (chain_cleanup_ok F p I b f L_WRITE cf (nc_name c) L_WRITE _ _ _ [cf; f; b] [] k0 k2 S0 EV DP2 LC0 LB LF)].
    - intros [] k3 (E3 & C3). rewrite TE in E3. assert (G3 : grow p [] k0 k3) by (eapply made_old; [exact LI|intros q; reflexivity|exact E3]).
      apply wps_ret; [eapply HG; exact G3|]. auto.
    - intros x [<-|[<-|[<-|[]]]]; auto.
    - intros E' Z k' C3 E3. pose proof (ev_ents _ _ _ _ _ _ _ E3) as EE. destruct (ce_ents _ _ _ C3) as [Y|Y]; rewrite EE in Y; clear EE.
      + eapply HB. split; [exact FN|split; [exact LI|]]. rewrite (ev_ents _ _ _ _ _ _ _ EV) in Y. subst E'. exact E3.
      + rewrite TE in Y. subst E'. eapply HG. eapply made_old; [exact LI|intros q; reflexivity|exact E3]. }
  cbn [pbind]. apply wps_copy; [exact CB|exact CS|eapply HB; exact B| |].
  2:{ intros e [HF|HE]; apply FAIL; [left; left; exact HF|right; right; left; exact HE]. }
  intros c' HE SC. unfold cgen_new. apply pbind_assoc. apply wps_alloc; [eapply HB; exact B| |].
  2:{ intros HF e. cbn [pbind]. apply FAIL. left. left. eapply faulty_intro; exact HF. }
  cbn [pbind chain_fd lk_chain].
  eapply wps_post with (I := I); [auto| |apply (finish_set_ok F p I b f cf c c' None k0 i k2 S0 SC B DP2 DC LC0 LF LB HG HH HM)].
  intros [u|e] k3; [auto|]. intros (G3 & C3). split; [exact G3|]. unfold load_refused.
  destruct SC as (SN & SS & SE). destruct C3 as [C3|[C3|[C3|C3]]].
  - left. left. exact C3.
  - rewrite SE. auto 6.
  - rewrite (same_chain_pack c c') by (split; auto). auto 8.
  - rewrite SE. auto 8.
Qed.
