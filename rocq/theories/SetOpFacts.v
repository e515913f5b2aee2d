(** bf_chain_set as a whole. *)
From Coq Require Import NArith ZArith List Bool Lia.
From Verif Require Import Bytes Types World BpfModel GenModel BytesFacts StrModel SetModel MapModel PackModel PackSpec PackFacts4 HookModel KernModel LockModel CtlModel SysSpec SysFacts RelyFacts SeqFacts StageFacts EvoFacts CtlSpec HandleFacts PinFacts AttachFacts LockSeqFacts LoadFacts RestoreFacts WithFacts IsolFacts UnloadFacts AttachOpFacts.
Import ListNotations.
Local Open Scope N_scope.

(** The state [k1] without what is newer than [k0]: the state a process would have started
    from had the first part of its work been done before. *)
Definition base (k0 k1 : kst) : kst :=
  mkK (k_pindir k1) (k_ents k1) (fun j => if j <? k_next k0 then k_dirs k1 j else []) (fun o => if o <? k_next k0 then k_objs k1 o else None)
    (k_fds k0) (k_next k0) (k_cpus k0).

Lemma base_grow p E X M S k0 k1 : sane k0 -> evo p E X M S k0 k1 -> (forall n i, ent_find n E = Some i -> ent_find n (k_ents k0) = Some i) ->
  (forall i D, X = Some (i, D) -> i < k_next k0) ->
  (forall j q o, j < k_next k0 -> dview k1 j q = Some o -> o < k_next k0) -> sane (base k0 k1) /\ grow p S (base k0 k1) k1.
Proof.
  intros S0 EV HE HX HP. pose proof (ev_sane _ _ _ _ _ _ _ EV) as S1. pose proof (ev_ents _ _ _ _ _ _ _ EV) as EE.
  assert (OLD : forall o v, k_objs k0 o = Some v -> exists w, k_objs k1 o = Some w).
  { intros o v H. rewrite (ev_objs _ _ _ _ _ _ _ EV) by (eapply sane_obj; eauto). destruct (assoc o M); eauto. }
  split.
  - constructor; cbn.
    + exact (sane_fd _ S0).
    + intros n i H. rewrite EE in H. eapply sane_ent; [exact S0|apply HE; exact H].
    + exact (sane_inj _ S1).
    + exact (sane_dir _ S0).
    + exact (sane_lock _ S0).
    + intros o v H. destruct (N.ltb_spec o (k_next k0)); [assumption|discriminate H].
    + intros j q o H. destruct (N.ltb_spec j (k_next k0)) as [L|L]; [|discriminate H].
      destruct (sane_pin _ S1 j q o H) as (v & X'). exists v. rewrite (proj2 (N.ltb_lt o (k_next k0))); [exact X'|eapply HP; eauto].
    + intros f q o H. destruct (sane_fdo _ S0 f q o H) as (v & X'). destruct (OLD o v X') as (w & Y). exists w.
      rewrite (proj2 (N.ltb_lt o (k_next k0))); [exact Y|eapply sane_obj; eauto].
    + exact (sane_uniq _ S0).
    + intros i L. destruct (N.ltb_spec i (k_next k0)); [lia|reflexivity].
  - constructor; cbn.
    + exact S1.
    + apply (ev_next _ _ _ _ _ _ _ EV).
    + apply (ev_cpus _ _ _ _ _ _ _ EV).
    + reflexivity.
    + intros j L _. rewrite (proj2 (N.ltb_lt j (k_next k0))) by exact L. reflexivity.
    + discriminate.
    + intros o L. rewrite (proj2 (N.ltb_lt o (k_next k0))) by exact L. reflexivity.
    + apply (ev_old _ _ _ _ _ _ _ EV).
    + apply (ev_new _ _ _ _ _ _ _ EV).
    + intros j L _. apply (ev_fresh _ _ _ _ _ _ _ EV j L). intros D EQ. specialize (HX _ _ EQ). lia.
Qed.
Lemma base_evo p E X M S k0 k1 : sane k0 -> sane (base k0 k1) -> evo p E X M S k0 k1 -> (forall i D, X = Some (i, D) -> i < k_next k0) -> evo p E X M [] k0 (base k0 k1).
Proof.
  intros S0 SB EV HX. constructor; cbn.
  - exact SB.
  - lia.
  - reflexivity.
  - apply (ev_ents _ _ _ _ _ _ _ EV).
  - intros j L N. rewrite (proj2 (N.ltb_lt j (k_next k0))) by exact L. apply (ev_dirs _ _ _ _ _ _ _ EV j L N).
  - intros i D EQ. split; [exact (HX i D EQ)|]. intros q. unfold dview. cbn. rewrite (proj2 (N.ltb_lt i (k_next k0))) by exact (HX i D EQ).
    apply (proj2 (ev_view _ _ _ _ _ _ _ EV i D EQ)).
  - intros o L. rewrite (proj2 (N.ltb_lt o (k_next k0))) by exact L. apply (ev_objs _ _ _ _ _ _ _ EV o L).
  - reflexivity.
  - intros f L. left. apply kinv_fresh; [apply sane_kinv, S0|exact L].
  - intros j L _. destruct (N.ltb_spec j (k_next k0)); [lia|reflexivity].
Qed.

Lemma install_ok F p (I : kst -> Prop) mm c o b f k0 k1 : sane k0 -> chain_built c -> storable c ->
  grow p [f; b] k0 k1 -> owns k1 p (mkLk (Some b) (Some f) L_WRITE None) b f L_WRITE -> k_next k0 <= b -> k_next k0 <= f ->
  (forall S k', grow p S k0 k' -> I k') -> (forall S k', half_made p k0 (nc_name c) S k' -> I k') ->
  (forall S k', made F p k0 c o S k' -> I k') ->
  wps F p I (install mm (mkLk (Some b) (Some f) L_WRITE None) c o) (fun r k' =>
    match r with
    | Ok _ => made F p k0 c o [] k' /\ all_tidy (nc_name c) k'
    | Er e => grow p [] k0 k' /\ load_refused F mm k0 c e
    end) k1.
Proof.
  intros S0 CB CS G1 OW LB LF HG HH HM. pose proof (ev_sane _ _ _ _ _ _ _ G1) as S1. pose proof (ev_next _ _ _ _ _ _ _ G1) as N1.
  set (Q := fun (r : res unit) k' => match r with Ok _ => made F p k0 c o [] k' /\ all_tidy (nc_name c) k' | Er e => grow p [] k0 k' /\ load_refused F mm k0 c e end).
  assert (FAIL : forall e k, grow p [f; b] k0 k -> load_refused F mm k0 c e ->
     wps F p I (lock_cleanup (mkLk (Some b) (Some f) L_WRITE None) ;;; Ret (Er e)) Q k).
  { intros e k G C. apply wps_bind. eapply wps_post with (I := I); [auto| |apply (lock_cleanup_ok F p I b f L_WRITE _ None [] [f; b] [] k0 k S0 G LB LF)].
    - intros [] k3 (G3 & _). apply wps_ret; [eapply HG; exact G3|]. split; assumption.
    - intros x [<-|[<-|[]]]; auto.
    - intros Z k' _ E'. eapply HG. exact E'. }
  unfold install. apply wps_copy; [exact CB|exact CS|eapply HG; exact G1| |].
  2:{ intros e [HF|HE]; apply FAIL; [exact G1|left; left; exact HF|exact G1|right; right; left; exact HE]. }
  intros c' HE SC.
  assert (CH : forall X : res unit -> prog (res unit), wps F p I (X (Ok tt)) Q k1 -> (forall e, faulty F -> wps F p I (X (Er e)) Q k1) -> wps F p I (pbind (copy_hookopts o) X) Q k1).
  { intros X H1 H2. unfold copy_hookopts. destruct o as [oo|]; [|exact H1]. apply pbind_assoc. apply wps_alloc; [eapply HG; exact G1|exact H1|].
    intros HF e. cbn [pbind]. apply H2. eapply faulty_intro; exact HF. }
  apply CH; [|intros e HF; apply FAIL; [exact G1|left; left; exact HF]]. clear CH.
  unfold cgen_new. apply pbind_assoc. apply wps_alloc; [eapply HG; exact G1| |].
  2:{ intros HF e. cbn [pbind]. apply FAIL; [exact G1|]. left. left. eapply faulty_intro; exact HF. }
  cbn [pbind].
  apply wps_bind.
  eapply wps_post with (I := I); [auto| |apply (acquire_new_ok F p I _ b f (nc_name c) k1 S1 OW)]; cycle 1.
  { intros S k' G. eapply HG. eapply grow_trans; [exact G1|exact G]. }
  { intros S s i k' HS B. eapply HH. eapply being_half; [exact HS|]. eapply made_from; [exact G1|exact B]. }
  intros [lk'|e] k2.
  2:{ intros (G & C). pose proof (grow_trans _ _ _ _ _ _ G1 G) as G2. cbn [app] in G2.
      change (cgen_free (mkCg c' handle_new)) with (handle_free handle_new). cbn [handle_free handle_new].
      apply wps_bind. eapply wps_post with (I := I); [auto| |apply (closes_cgen p (mkCg c' handle_new) F I k0 _ _ _ _ [f; b] k2 G2 S0)]; cycle 1.
      { intros x []. }
      { intros x H; left; exact H. }
      { intros Z k' _ E'. eapply HG. exact E'. }
      intros [] k3 (_ & G3 & _). apply FAIL; [exact G3|]. left. eapply refused_grow; [exact G1|exact C]. }
  intros (cf & i & -> & B2 & DC & LC). pose proof (made_from _ _ _ _ _ _ _ _ G1 B2) as B. cbn [app] in B.
  destruct OW as (_ & DB & DF & NE).
  assert (DP2 : desc_of k2 p f = Some (D_pindir L_WRITE)) by (destruct B2 as (_ & _ & E2); eapply evo_desc; [exact E2|exact S1|exact DF]).
  assert (LC0 : k_next k0 <= cf) by lia.
  cbn [chain_fd lk_chain].
  eapply wps_post with (I := I); [auto| |apply (finish_set_ok F p I b f cf c c' o k0 i k2 S0 SC B DP2 DC LC0 LF LB HG HH HM)].
  intros [u|e] k3; [auto|]. intros (G3 & C3). split; [exact G3|]. unfold load_refused.
  destruct SC as (SN & SS & SE). destruct C3 as [C3|[C3|[C3|C3]]].
  - left. left. exact C3.
  - rewrite SE. auto 6.
  - rewrite (same_chain_pack c c') by (split; auto). auto 8.
  - rewrite SE. auto 8.
Qed.

(** What is left of the chain [n] when the new one is built. *)
Definition cleared (F : call -> bool) (p : pid) (m1 : mem) (k0 : kst) (n : name) (kb : kst) : Prop :=
  (kb = k0 /\ (faulty F \/ ent_find n (k_ents k0) = None \/ exists i, ent_find n (k_ents k0) = Some i /\ clash k0 (D_dir i L_NONE) L_WRITE)) \/
  (evo p (trim k0 L_WRITE n) None [] [] k0 kb /\ exists i, ent_find n (k_ents k0) = Some i /\ unread F m1 k0 i ENOENT) \/
  exists i c hd, ent_find n (k_ents k0) = Some i /\ holds_chain k0 i c hd /\ flushed F p k0 n i hd kb.

Lemma trim_find k m n x i : ent_find x (trim k m n) = Some i -> ent_find x (k_ents k) = Some i.
Proof. apply trim_sub. Qed.

Lemma chain_set_ok F p (I : kst -> Prop) m1 m2 c o k0 : sane k0 -> (forall i, ent_find (nc_name c) (k_ents k0) = Some i -> consistent k0 i) ->
  chain_built c -> storable c ->
  (forall S k', grow p S k0 k' -> I k') -> (forall S k', evo p (trim k0 L_WRITE (nc_name c)) None [] S k0 k' -> I k') ->
  (forall i D M Z E' k', ent_find (nc_name c) (k_ents k0) = Some i -> E' = k_ents k0 \/ E' = ent_del (nc_name c) (k_ents k0) ->
     evo p E' (Some (i, D)) M Z k0 k' -> D P_ctx = None -> I k') ->
  (forall kb S k', cleared F p m1 k0 (nc_name c) kb -> sane kb -> half_made p kb (nc_name c) S k' -> I k') ->
  (forall kb S k', cleared F p m1 k0 (nc_name c) kb -> sane kb -> made F p kb c o S k' -> I k') ->
  wps F p I (chain_set m1 m2 c o) (fun r k' =>
    match r with
    | Ok _ => exists kb, cleared F p m1 k0 (nc_name c) kb /\ sane kb /\ made F p kb c o [] k' /\ all_tidy (nc_name c) k'
    | Er e => ((grow p [] k0 k' \/ evo p (trim k0 L_WRITE (nc_name c)) None [] [] k0 k') /\ unopened F m1 k0 (nc_name c) L_WRITE L_WRITE e /\
                (e = ENOENT -> faulty F \/ clash k0 (D_pindir L_NONE) L_WRITE)) \/
        exists kb, cleared F p m1 k0 (nc_name c) kb /\ sane kb /\ grow p [] kb k' /\ load_refused F m2 kb c e
    end) k0.
Proof.
  intros S0 CONS CB CS HG HT HU HH HM. set (n := nc_name c) in *.
  set (Q := fun (r : res unit) k' => match r with Ok _ => _ | Er _ => _ end).
  unfold chain_set. fold n. apply wps_bind.
  eapply wps_post with (I := I); [auto| |apply (lock_init_ok F p I L_WRITE k0 S0 HG)].
  intros [lk|e] k1.
  2:{ intros (G & C). apply wps_ret; [eapply HG; exact G|]. left. split; [left; exact G|]. unfold unopened. tauto. }
  intros (b & f & OW & G1 & LB & LF). pose proof (ev_sane _ _ _ _ _ _ _ G1) as S1. pose proof (ev_next _ _ _ _ _ _ _ G1) as N1.
  pose proof OW as (-> & DB & DF & NE).
  (* the second half, from a state that differs from [k0] by what was cleared *)
  assert (INST : forall E X M k, evo p E X M [f; b] k0 k -> (forall x i, ent_find x E = Some i -> ent_find x (k_ents k0) = Some i) ->
     (forall i D, X = Some (i, D) -> i < k_next k0) -> (forall j q ob, j < k_next k0 -> dview k j q = Some ob -> ob < k_next k0) ->
     desc_of k p b = Some D_bpffs -> desc_of k p f = Some (D_pindir L_WRITE) ->
     (forall S k', grow p S (base k0 k) k' -> I k') ->
     (evo p E X M [] k0 (base k0 k) -> cleared F p m1 k0 n (base k0 k)) ->
     wps F p I (install m2 (mkLk (Some b) (Some f) L_WRITE None) c o) Q k).
  { intros E X M k EV HE HX HP DBk DFk HGb CLR. destruct (base_grow _ _ _ _ _ _ _ S0 EV HE HX HP) as (SB & GB).
    specialize (CLR (base_evo _ _ _ _ _ _ _ S0 SB EV HX)).
    eapply wps_post with (I := I); [auto| |apply (install_ok F p I m2 c o b f (base k0 k) k SB CB CS GB)].
    - intros [u|e] k'.
      + intros (A & B). exists (base k0 k). auto.
      + intros (A & B). right. exists (base k0 k). auto.
    - split; [reflexivity|auto].
    - exact LB.
    - exact LF.
    - exact HGb.
    - intros S k' H. eapply HH; eauto.
    - intros S k' H. eapply HM; eauto. }
  assert (PINOLD : forall j q ob, j < k_next k0 -> dview k0 j q = Some ob -> ob < k_next k0).
  { intros j q ob _ H. destruct (sane_pin _ S0 _ _ _ H) as (v & X). eapply sane_obj; eauto. }
  assert (GROWN : forall k, (faulty F \/ ent_find n (k_ents k0) = None \/ exists i, ent_find n (k_ents k0) = Some i /\ clash k0 (D_dir i L_NONE) L_WRITE) -> grow p [f; b] k0 k -> desc_of k p b = Some D_bpffs -> desc_of k p f = Some (D_pindir L_WRITE) ->
     wps F p I (install m2 (mkLk (Some b) (Some f) L_WRITE None) c o) Q k).
  { intros k WHY G DBk DFk. eapply wps_post with (I := I); [auto| |apply (install_ok F p I m2 c o b f k0 k S0 CB CS G)].
    - intros [u|e] k'.
      + intros (A & B). exists k0. split; [left; auto|]. auto.
      + intros (A & B). right. exists k0. split; [left; auto|]. auto.
    - split; [reflexivity|auto].
    - exact LB.
    - exact LF.
    - exact HG.
    - intros S k' H. eapply HH; [left; auto|exact S0|exact H].
    - intros S k' H. eapply HM; [left; auto|exact S0|exact H]. }
  assert (FAIL : forall E k (e : N), evo p E None [] [f; b] k0 k -> (E = k_ents k0 \/ E = trim k0 L_WRITE n) -> unopened F m1 k0 n L_WRITE L_WRITE e -> e <> ENOENT ->
     wps F p I (lock_cleanup (mkLk (Some b) (Some f) L_WRITE None) ;;; Ret (Er e)) Q k).
  { intros E k e G HE C NEe. assert (HI : forall Z k', evo p E None [] Z k0 k' -> I k') by (intros Z k' H; destruct HE as [-> | ->]; [eapply HG|eapply HT]; exact H).
    apply wps_bind. eapply wps_post with (I := I); [auto| |apply (lock_cleanup_ok F p I b f L_WRITE _ None [] [f; b] [] k0 k S0 G LB LF)].
    - intros [] k3 (G3 & _). apply wps_ret; [eapply HI; exact G3|]. left. split; [destruct HE as [-> | ->]; [left|right]; exact G3|]. split; [exact C|intros X; contradiction].
    - intros x [<-|[<-|[]]]; auto.
    - intros Z k' _ E'. eapply HI. exact E'. }
  apply wps_bind.
  eapply wps_post with (I := I); [auto| |apply (acquire_old_ok F p I _ b f L_WRITE n L_WRITE k1 S1 OW)]; cycle 1.
  { intros S k' G. eapply HG. eapply grow_trans; [exact G1|exact G]. }
  intros [lk'|e] k2.
  2:{ intros (G & C). pose proof (grow_trans _ _ _ _ _ _ G1 G) as G2. cbn [app] in G2.
      destruct (N.eqb_spec e ENOENT) as [->|NEe].
      - apply GROWN; [| exact G2|eapply grow_desc; [exact G|exact S1|exact DB]|eapply grow_desc; [exact G|exact S1|exact DF]].
        rewrite (ev_ents _ _ _ _ _ _ _ G1) in C. destruct C as [C|[(_ & C)|(i & C1 & C2)]]; [left; exact C|right; left; exact C|right; right].
        exists i. split; [exact C1|]. eapply clash_dir_back; [exact S0|exact G1| |exact DB|exact DF|exact C2]. intros x [<-|[<-|[]]]; auto.
      - eapply FAIL; [exact G2|left; reflexivity| |exact NEe].
        rewrite (ev_ents _ _ _ _ _ _ _ G1) in C. destruct C as [C|[C|(i & C1 & C2)]]; [left; exact C|destruct C; contradiction|].
        right. right. right. exists i. split; [exact C1|]. left. eapply clash_dir_back; [exact S0|exact G1| |exact DB|exact DF|exact C2].
        intros x [<-|[<-|[]]]; auto. }
  intros (cf & i & -> & FN & G2 & DC & LC). pose proof (grow_trans _ _ _ _ _ _ G1 G2) as G02. cbn [app] in G02.
  rewrite (ev_ents _ _ _ _ _ _ _ G1) in FN. pose proof (sane_ent _ S0 _ _ FN) as LI.
  pose proof (ev_sane _ _ _ _ _ _ _ G2) as S2. pose proof (ev_next _ _ _ _ _ _ _ G2) as N2.
  assert (DF2 : desc_of k2 p f = Some (D_pindir L_WRITE)) by (eapply grow_desc; [exact G2|exact S1|exact DF]).
  assert (DB2 : desc_of k2 p b = Some D_bpffs) by (eapply grow_desc; [exact G2|exact S1|exact DB]).
  assert (LF2 : f < k_next k1 /\ b < k_next k1) by (split; [eapply desc_lt; [exact S1|exact DF]|eapply desc_lt; [exact S1|exact DB]]).
  assert (LC2 : cf < k_next k2) by (eapply desc_lt; [exact S2|exact DC]).
  assert (CFN : cf <> f /\ cf <> b) by lia.
  cbn [get_cgen chain_fd lk_chain].
  apply wps_bind. eapply wps_post with (I := I); [auto| |apply (cgen_restore_ok F p I m1 cf i L_WRITE k2 S2)]; cycle 1.
  { intros S k' G. eapply HG. eapply grow_trans; [exact G02|exact G]. }
  { exact DC. }
  intros [g|e] k3 L; pose proof L as L0; apply (loaded_grow _ _ _ _ _ _ _ _ _ S0 G02 LI) in L.
  - destruct L as (ox & t & hd & A1 & A2 & A3 & G3 & GO & HD & HP & LX & AP). destruct L0 as (_ & _ & _ & _ & _ & _ & (G23 & _)).
    assert (OC : opened_chain F p m1 k0 n L_WRITE L_WRITE b f cf i hd g k3).
    { constructor; auto.
      - eauto.
      - intros q x H. destruct (GO q x H) as (Lx & Y). split; [lia|]. split; [lia|]. split; [lia|exact Y].
      - eapply grow_desc; [exact G23|exact S2|exact DC].
      - eapply grow_desc; [exact G23|exact S2|exact DF2].
      - split; [lia|]. split; lia. }
    destruct (opened_held _ _ _ _ _ _ _ _ _ _ _ _ _ _ S0 OC (CONS i FN)) as (c0 & HC & _ & _ & _ & HOK & _).
    destruct (opened_links _ _ _ _ _ _ _ _ _ _ _ _ _ _ OC) as (O & LO & L1 & L2 & _).
    pose proof (opened_fds _ _ _ _ _ _ _ _ _ _ _ _ _ _ OC) as FDS.
    apply wps_bind. eapply wps_post with (I := I); [auto| |apply (cgen_unload_ok F p I g cf i L_WRITE O (k_ents k0) [] [cf; f; b] k0 k3 G3 S0 LI (oc_cf _ _ _ _ _ _ _ _ _ _ _ _ _ _ OC) LO HOK)]; cycle 1.
    { intros x H. apply FDS, H. }
    { exact AP. }
    { eapply HG, G3. }
    { intros D M Z k' E' DN _. eapply HU; [exact FN|left; reflexivity|exact E'|exact DN]. }
    intros [] k4 U. destruct U as [(D & M & E4 & DN4 & UN & KEEP) UO DWN UF].
    assert (EE : k_ents k4 = k_ents k0) by apply (ev_ents _ _ _ _ _ _ _ E4).
    assert (TR : (trim k4 L_WRITE n = ent_del n (k_ents k0) /\ forall q, D q = None) \/ (trim k4 L_WRITE n = k_ents k0 /\ exists q, D q <> None)).
    { pose proof FN as FN'. rewrite <- EE in FN'. destruct (trim_write k4 n i FN') as [(A & Z)|(A & q & B)]; rewrite EE in A; [left; split; [exact A|intros q; rewrite <- (proj2 (ev_view _ _ _ _ _ _ _ E4 i D eq_refl) q); apply Z]|right].
      split; [exact A|]. exists q. rewrite <- (proj2 (ev_view _ _ _ _ _ _ _ E4 i D eq_refl) q). exact B. }
    assert (FK : forall x, x = f \/ x = b -> fd_find x (k_fds k4) = fd_find x (k_fds k3)).
    { intros x H. apply UF. intros X. destruct (FDS _ X) as (_ & _ & Y & Z). destruct H; congruence. }
    assert (DF4 : desc_of k4 p f = Some (D_pindir L_WRITE)).
    { apply find_desc_of. rewrite FK by auto. apply desc_of_find, (oc_pd _ _ _ _ _ _ _ _ _ _ _ _ _ _ OC). }
    assert (DB4 : desc_of k4 p b = Some D_bpffs).
    { apply find_desc_of. rewrite FK by auto. apply desc_of_find. eapply grow_desc; [exact G23|exact S2|exact DB2]. }
    assert (EX : forall E', E' = k_ents k4 \/ E' = trim k4 L_WRITE n -> E' = k_ents k0 \/ E' = ent_del n (k_ents k0)).
    { intros E' [-> | ->]; [left; exact EE|]. destruct TR as [(T & _)|(T & _)]; rewrite T; auto. }
    apply wps_bind. eapply wps_post with (I := I); [auto| |apply (release_chain_ok F p I b f L_WRITE cf n L_WRITE _ _ _ [cf; f; b] [f; b] k0 k4 S0 E4 DF4)]; try lia; cycle 1.
    { intros x [<-|H]; auto. }
    { intros E' Z k' C EV. pose proof (ev_ents _ _ _ _ _ _ _ EV) as Y. eapply HU; [exact FN| |exact EV|exact DN4].
      apply EX. destruct (ce_ents _ _ _ C) as [X|X]; rewrite Y in X; auto. }
    intros lk2 k5 (-> & E5 & C5 & F5).
    assert (ENTS : trim k4 L_WRITE n = k_ents k0 \/ trim k4 L_WRITE n = ent_del n (k_ents k0)) by (apply EX; auto).
    assert (DIN : forall q, D q = dview k0 i q \/ D q = None).
    { intros q. destruct (pname_dec q P_ctx) as [->|Q1]; [right; exact DN4|]. destruct (in_dec pname_dec q (hnames (g_handle g))) as [X|X]; [right; apply UN, X|].
      left. rewrite KEEP by assumption. eapply dview_grow; [exact G3|exact LI]. }
    apply (INST _ _ _ _ E5).
    + intros x j. destruct ENTS as [-> | ->]; [auto|]. rewrite ent_find_del. destruct (bytes_eqb x n); [discriminate|auto].
    + intros j D' X. injection X as <- _. exact LI.
    + intros j q ob LJ H. destruct (N.eq_dec j i) as [->|NJ].
      * rewrite (proj2 (ev_view _ _ _ _ _ _ _ E5 i D eq_refl) q) in H. destruct (DIN q) as [X|X]; rewrite X in H; [eapply PINOLD; eauto|discriminate H].
      * unfold dview in H. rewrite (ev_dirs _ _ _ _ _ _ _ E5 j LJ) in H; [eapply PINOLD; eauto|]. intros D' X. injection X as X _. congruence.
    + apply find_desc_of. rewrite F5 by lia. apply desc_of_find, DB4.
    + apply find_desc_of. rewrite F5 by lia. apply desc_of_find, DF4.
    + intros S k' G. destruct (base_grow p _ _ _ _ _ k5 S0 E5) as (SB & GB).
      { intros x j. destruct ENTS as [-> | ->]; [auto|]. rewrite ent_find_del. destruct (bytes_eqb x n); [discriminate|auto]. }
      { intros j D' X. injection X as <- _. exact LI. }
      { intros j q ob LJ H. destruct (N.eq_dec j i) as [->|NJ].
        - rewrite (proj2 (ev_view _ _ _ _ _ _ _ E5 i D eq_refl) q) in H. destruct (DIN q) as [X|X]; rewrite X in H; [eapply PINOLD; eauto|discriminate H].
        - unfold dview in H. rewrite (ev_dirs _ _ _ _ _ _ _ E5 j LJ) in H; [eapply PINOLD; eauto|]. intros D' X. injection X as X _. congruence. }
      pose proof (base_evo p _ _ _ _ _ _ S0 SB E5) as EB. eapply HU; [exact FN|exact ENTS| |exact DN4].
      eapply evo_grow; [apply EB|exact G]. intros j D' X. injection X as <- _. exact LI.
    + intros EB. right. right. exists i, c0, hd. split; [exact FN|]. split; [exact HC|]. constructor.
      * exists D, M. pose proof (ev_ents _ _ _ _ _ _ _ EB) as Y. rewrite Y. split; [exact EB|]. split; [exact DN4|]. split; [|split].
        -- intros q H. apply UN, desc_hnames. rewrite HD. exact H.
        -- intros q Q1 Q2. rewrite KEEP; [|exact Q1|intros X; apply Q2; rewrite <- HD; apply hnames_desc, X]. eapply dview_grow; [exact G3|exact LI].
        -- exact TR.
      * intros ob H1 H2. intros h0 t0 po0 b0 H3. cbn [base k_objs] in H3. destruct (N.ltb_spec ob (k_next k0)) as [Lo|Lo]; [|discriminate H3].
        rewrite (ce_objs _ _ _ C5) in H3. exact (DWN ob (L1 ob H1 H2) _ _ _ _ H3).
      * intros ob H1 H2. destruct (L2 ob H1 H2) as [X|X]; [left|right; exact X]. intros h0 t0 po0 b0 H3. cbn [base k_objs] in H3.
        destruct (N.ltb_spec ob (k_next k0)) as [Lo|Lo]; [|discriminate H3]. rewrite (ce_objs _ _ _ C5) in H3. exact (DWN ob X _ _ _ _ H3).
  - destruct L as (G3 & C). pose proof (ev_sane _ _ _ _ _ _ _ G3) as S3. destruct L0 as (G23 & _).
    assert (TE : trim k3 L_WRITE n = trim k0 L_WRITE n) by (eapply trim_grow; [exact S0|exact G3]).
    assert (UO : unopened F m1 k0 n L_WRITE L_WRITE e) by (right; right; right; exists i; split; [exact FN|right; exact C]).
    assert (DF3 : desc_of k3 p f = Some (D_pindir L_WRITE)) by (eapply grow_desc; [exact G23|exact S2|exact DF2]).
    assert (DB3 : desc_of k3 p b = Some D_bpffs) by (eapply grow_desc; [exact G23|exact S2|exact DB2]).
    assert (REL : forall X : lock -> prog (res unit), (forall k, evo p (trim k0 L_WRITE n) None [] [f; b] k0 k -> desc_of k p b = Some D_bpffs -> desc_of k p f = Some (D_pindir L_WRITE) ->
        wps F p I (X (mkLk (Some b) (Some f) L_WRITE None)) Q k) ->
      wps F p I (pbind (release_chain (mkLk (Some b) (Some f) L_WRITE (Some (cf, n, L_WRITE)))) X) Q k3).
    { intros X HX. apply wps_bind. eapply wps_post with (I := I); [auto| |apply (release_chain_ok F p I b f L_WRITE cf n L_WRITE _ _ _ [cf; f; b] [f; b] k0 k3 S0 G3 DF3)]; try lia; cycle 1.
      { intros x [<-|H]; auto. }
      { intros E' Z k' C4 E4. pose proof (ev_ents _ _ _ _ _ _ _ E4) as EE. destruct (ce_ents _ _ _ C4) as [Y|Y]; rewrite EE in Y; clear EE.
        - rewrite (ev_ents _ _ _ _ _ _ _ G3) in Y. subst E'. eapply HG. exact E4.
        - rewrite TE in Y. subst E'. eapply HT. exact E4. }
      intros lk2 k5 (-> & E5 & C5 & F5). rewrite TE in E5. apply HX; [exact E5| |]; apply find_desc_of; rewrite F5 by lia; apply desc_of_find; assumption. }
    destruct (N.eqb_spec e ENOENT) as [->|NEe].
    + apply REL. intros k5 E5 DB5 DF5. apply (INST _ _ _ _ E5).
      * intros x j. apply trim_sub.
      * discriminate.
      * intros j q ob LJ H. unfold dview in H. rewrite (ev_dirs _ _ _ _ _ _ _ E5 j LJ) in H; [eapply PINOLD; eauto|discriminate].
      * exact DB5.
      * exact DF5.
      * intros S k' G. destruct (base_grow p _ _ _ _ _ k5 S0 E5) as (SB & GB).
        { intros x j. apply trim_sub. }
        { discriminate. }
        { intros j q ob LJ H. unfold dview in H. rewrite (ev_dirs _ _ _ _ _ _ _ E5 j LJ) in H; [eapply PINOLD; eauto|discriminate]. }
        pose proof (base_evo p _ _ _ _ _ _ S0 SB E5) as EB. eapply HT. eapply evo_grow; [apply EB|exact G]. discriminate.
      * intros EB. right. left. split; [exact EB|]. exists i. split; [exact FN|exact C].
    + apply REL. intros k5 E5 DB5 DF5. apply (FAIL _ _ e E5); [right; reflexivity|exact UO|exact NEe].
Qed.
