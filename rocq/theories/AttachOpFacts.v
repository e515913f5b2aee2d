(** bf_chain_attach as a whole. *)
From Coq Require Import NArith ZArith List Bool Lia.
From Verif Require Import Bytes Types World BpfModel GenModel BytesFacts StrModel SetModel MapModel PackModel PackSpec PackFacts4 HookModel KernModel LockModel CtlModel SysSpec SysFacts RelyFacts SeqFacts StageFacts EvoFacts CtlSpec HandleFacts PinFacts AttachFacts LockSeqFacts LoadFacts RestoreFacts WithFacts IsolFacts UnloadFacts.
Import ListNotations.
Local Open Scope N_scope.

(** No object that existed before changed. *)
Lemma evo_kept p E X M S k0 k' : evo p E X M S k0 k' -> (forall o, o < k_next k0 -> k_objs k' o = k_objs k0 o) -> evo p E X [] S k0 k'.
Proof. intros [A1 A2 A3 A4 A5 A6 A7 A8 A9 A10] H. constructor; auto. Qed.
Lemma turned_kept k0 k k' O : turned O k k' -> (forall o, In o O -> k_next k0 <= o) -> (forall o, o < k_next k0 -> k_objs k o = k_objs k0 o) ->
  forall o, o < k_next k0 -> k_objs k' o = k_objs k0 o.
Proof. intros T HO H o L. rewrite <- (H o L). destruct (tn_objs _ _ _ T o) as [X|(X & _)]; [exact X|]. specialize (HO o X). lia. Qed.
Lemma evo_same_objs p E X S k0 k' : evo p E X [] S k0 k' -> forall o, o < k_next k0 -> k_objs k' o = k_objs k0 o.
Proof. intros E0 o L. rewrite (ev_objs _ _ _ _ _ _ _ E0 o L). reflexivity. Qed.

(** After the body nothing empties the directory: the lock's release keeps the entry. *)
Lemma leaves_kept {A} p (I : kst -> Prop) (Q : res A -> kst -> Prop) k0 n pm cm b pd cf i rb X M k2 : ent_find n (k_ents k0) = Some i ->
  evo p (k_ents k0) X M (hfds (g_handle (fst rb)) ++ [cf; pd; b]) k0 k2 -> desc_of k2 p pd = Some (D_pindir pm) ->
  (forall f, In f (hfds (g_handle (fst rb))) -> k_next k0 <= f /\ f <> pd) -> (exists q, dview k2 i q <> None) ->
  (forall Z k', cle (k_ents k0) k2 k' -> evo p (k_ents k0) X M Z k0 k' -> I k') ->
  (forall k', cle (k_ents k0) k2 k' -> evo p (k_ents k0) X M [] k0 k' -> Q (snd rb) k') ->
  leaves p I Q k0 n pm cm b pd cf rb k2.
Proof.
  intros EN EV DP FD (q & NE) HI HQ. pose proof (ev_ents _ _ _ _ _ _ _ EV) as EE.
  assert (TR : trim k2 cm n = k_ents k0).
  { unfold trim. destruct cm; try exact EE. rewrite EE, EN. destruct (k_dirs k2 i) eqn:KD; [|reflexivity].
    exfalso. apply NE. unfold dview. rewrite KD. reflexivity. }
  exists X, M. rewrite TR. split; [exact EV|]. split; [exact DP|]. split; [exact FD|]. split; [|exact HQ].
  intros E' Z k' C E. pose proof (ev_ents _ _ _ _ _ _ _ E) as Y. assert (W : E' = k_ents k0) by (destruct (ce_ents _ _ _ C); congruence). rewrite W in E. eapply HI; eauto.
Qed.

Definition attach_names : list pname := [P_link; P_link_extra; P_ctx_tmp].
(** An attach that has not taken effect. *)
Definition attaching (p : pid) (k0 : kst) (i : ino) (S : list fd) (k' : kst) : Prop :=
  exists D, evo p (k_ents k0) (Some (i, D)) [] S k0 k' /\ off attach_names (dview k0 i) D.
(** One that failed. *)
Definition unattached (p : pid) (k0 : kst) (i : ino) (hd : hdesc) (k' : kst) : Prop :=
  exists D, evo p (k_ents k0) (Some (i, D)) [] [] k0 k' /\ off [P_link_extra; P_ctx_tmp] (dview k0 i) D /\
    (forall q, D q = dview k0 i q \/ D q = None) /\ (hd_link hd <> None -> forall q, D q = dview k0 i q).
(** One that succeeded. *)
Definition now_attached (p : pid) (k0 : kst) (i : ino) (c : nchain) (o : hookopts) (S : list fd) (k' : kst) : Prop :=
  exists D hd, evo p (k_ents k0) (Some (i, D)) [] S k0 k' /\ off (P_ctx :: attach_names) (dview k0 i) D /\
    holds_chain k' i c hd /\ hd_link hd = Some (c_hook (nc_chain c), o).

Definition not_attached (F : call -> bool) (mm : mem) (k0 : kst) (i : ino) (c : nchain) (hd : hdesc) (o : hookopts) (e : N) : Prop :=
  faulty F \/ (hd_link hd <> None /\ e = EBUSY) \/ validate o (c_hook (nc_chain c)) = Er e \/
  (dview k0 i P_link <> None \/ dview k0 i P_link_extra <> None) \/ (is_cgroup (c_hook (nc_chain c)) /\ ho_cgpath o = None /\ e = EABORT).

Lemma lpins_fst l : map fst (lpins (Some l)) = P_link :: match l_extra l with Some _ => [P_link_extra] | None => [] end.
Proof. unfold lpins. destruct (l_extra l); reflexivity. Qed.

Lemma chain_attach_ok F p (I : kst -> Prop) mm n o k0 : sane k0 -> (forall i, ent_find n (k_ents k0) = Some i -> consistent k0 i) ->
  (forall S k', grow p S k0 k' -> I k') -> (forall S k', evo p (trim k0 L_WRITE n) None [] S k0 k' -> I k') ->
  (forall i c hd S k', ent_find n (k_ents k0) = Some i -> holds_chain k0 i c hd -> chain_built c -> storable c -> hd_link hd = None -> attaching p k0 i S k' -> I k') ->
  (forall i c hd S k', ent_find n (k_ents k0) = Some i -> holds_chain k0 i c hd -> chain_built c -> storable c -> now_attached p k0 i c o S k' -> I k') ->
  wps F p I (chain_attach mm n o) (fun r k' =>
    match r with
    | Ok _ => exists i c hd, ent_find n (k_ents k0) = Some i /\ holds_chain k0 i c hd /\ chain_built c /\ storable c /\ hd_link hd = None /\
        validate o (c_hook (nc_chain c)) = Ok tt /\ now_attached p k0 i c o [] k' /\ (tidy k0 i -> tidy k' i)
    | Er e => ((grow p [] k0 k' \/ evo p (trim k0 L_WRITE n) None [] [] k0 k') /\ unopened F mm k0 n L_READ L_WRITE e) \/
        exists i c hd, ent_find n (k_ents k0) = Some i /\ holds_chain k0 i c hd /\ unattached p k0 i hd k' /\ not_attached F mm k0 i c hd o e
    end) k0.
Proof.
  intros S0 CONS HG HT HA HB. unfold chain_attach. apply with_chain_ok; [exact S0|exact HG|exact HT|intros e k' X Y; left; auto|].
  intros b pd cf i hd g k1 OC. pose proof (oc_ent _ _ _ _ _ _ _ _ _ _ _ _ _ _ OC) as EN. pose proof (sane_ent _ S0 _ _ EN) as LI.
  destruct (opened_held _ _ _ _ _ _ _ _ _ _ _ _ _ _ S0 OC (CONS i EN)) as (c & HC & CB & CS & SC & HOK & GOOD).
  pose proof (opened_fds _ _ _ _ _ _ _ _ _ _ _ _ _ _ OC) as FDS. pose proof (oc_grow _ _ _ _ _ _ _ _ _ _ _ _ _ _ OC) as G1.
  pose proof (oc_hd _ _ _ _ _ _ _ _ _ _ _ _ _ _ OC) as HD. pose proof (ev_sane _ _ _ _ _ _ _ G1) as S1. pose proof (ev_next _ _ _ _ _ _ _ G1) as N1.
  destruct (oc_new _ _ _ _ _ _ _ _ _ _ _ _ _ _ OC) as (LB & LP & LC).
  pose proof (oc_pd _ _ _ _ _ _ _ _ _ _ _ _ _ _ OC) as PD1. pose proof (oc_cf _ _ _ _ _ _ _ _ _ _ _ _ _ _ OC) as CF1.
  assert (CTX0 : dview k0 i P_ctx <> None) by (destruct HC as ((o' & t & A & _) & _); unfold pin in A; unfold dview; congruence).
  assert (HKC : c_hook (nc_chain (g_chain g)) = c_hook (nc_chain c)) by (destruct SC as (_ & _ & E); rewrite E; reflexivity).
  set (Q := fun (r : res unit) k' => match r with Ok _ => _ | Er _ => _ end).
  (* nothing was done *)
  assert (GIVEUP : forall g' e k, g_handle g' = g_handle g -> grow p (hfds (g_handle g) ++ [cf; pd; b]) k0 k -> desc_of k p pd = Some (D_pindir L_READ) ->
     not_attached F mm k0 i c hd o e -> wps F p I (Ret (g', Er e : res unit)) (leaves p I Q k0 n L_READ L_WRITE b pd cf) k).
  { intros g' e k EG G DP W. apply wps_ret; [eapply HG, G|].
    eapply leaves_kept; [exact EN|cbn [fst]; rewrite EG; exact G|exact DP| | | |].
    - cbn [fst]. rewrite EG. intros f H. destruct (FDS f H) as (A & _ & B & _). auto.
    - exists P_ctx. rewrite (dview_grow _ _ _ _ _ _ G LI). exact CTX0.
    - intros Z k' _ E. eapply HG. exact E.
    - intros k' _ E. cbn [snd]. right. exists i, c, hd. split; [exact EN|]. split; [exact HC|]. split; [|exact W].
      exists (dview k0 i). split; [apply evo_none; [exact E|exact LI]|]. split; [apply off_refl|]. split; [auto|reflexivity]. }
  destruct (h_link (g_handle g)) as [l0|] eqn:HL.
  { apply (GIVEUP g EBUSY k1); [reflexivity|exact G1|exact PD1|]. right. left. split; [|reflexivity]. rewrite <- HD. cbn. rewrite HL. discriminate. }
  assert (HDL : hd_link hd = None) by (rewrite <- HD; cbn; rewrite HL; reflexivity).
  assert (GD : good k1 p (nc_chain c) (g_handle g)).
  { destruct GOOD as [(_ & X & _)|X]; [|exact X]. unfold is_nf in X. rewrite HD, HDL in X. destruct X. }
  destruct (validate o (c_hook (nc_chain (g_chain g)))) as [[]|e] eqn:VA; rewrite HKC in VA.
  2:{ apply (GIVEUP g e k1); [reflexivity|exact G1|exact PD1|]. right. right. left. exact VA. }
  unfold copy_hookopts. apply pbind_assoc. apply wps_alloc; [eapply HG, G1| |].
  2:{ intros HF e. cbn [pbind]. apply (GIVEUP g ENOMEM k1); [reflexivity|exact G1|exact PD1|]. left. eapply faulty_intro; exact HF. }
  cbn [pbind]. unfold cgen_attach, handle_attach. rewrite HL, HKC.
  destruct (good_prog _ _ _ _ GD) as (img & pf & po & ss & cm & _ & HP & DP & OP). rewrite HP.
  apply pbind_assoc. apply wps_bind.
  eapply wps_post with (I := I); [auto| |apply (link_new_ok F p I (c_hook (nc_chain c)) o pf po img ss cm k1 S1)]; cycle 1.
  { intros S k' G. eapply HG. eapply grow_trans; [exact G1|exact G]. }
  { exact DP. }
  { exact OP. }
  intros [[l|]|e] k2 LM; cbn [link_made] in LM; cbn [pbind].
  2:{ destruct LM as (G2 & CG & WHY). pose proof (grow_trans _ _ _ _ _ _ G1 G2) as G02. cbn [app] in G02.
      rewrite set_link_none by exact HL. rewrite HL. apply (GIVEUP _ EABORT k2); [reflexivity|exact G02|eapply grow_desc; [exact G2|exact S1|exact PD1]|].
      unfold not_attached. destruct WHY as [X|X]; [left; exact X|]. right. right. right. right. auto. }
  2:{ destruct LM as (G2 & FT). pose proof (grow_trans _ _ _ _ _ _ G1 G2) as G02. cbn [app] in G02.
      apply (GIVEUP _ e k2); [reflexivity|exact G02|eapply grow_desc; [exact G2|exact S1|exact PD1]|]. left. exact FT. }
  destruct LM as (G2 & LH & LOP & LON). pose proof (grow_trans _ _ _ _ _ _ G1 G2) as G02.
  pose proof (ev_sane _ _ _ _ _ _ _ G02) as S2. pose proof (ev_next _ _ _ _ _ _ _ G2) as N2.
  cbn [set_link h_link]. change (h_link (set_link (g_handle g) (Some l))) with (Some l). cbv iota.
  set (h' := set_link (g_handle g) (Some l)).
  (* the new link's descriptors and objects *)
  assert (LINKS : exists O, link_oids k2 p (Some l) O /\ (forall x, In x O -> k_next k1 <= x) /\ (forall f, In f (map snd (lpins (Some l))) -> k_next k1 <= f)).
  { destruct LON as [(lo & t & _ & A1 & A2 & A3 & _) B]. unfold link_oids, lpins. destruct (l_extra l) as [fx|].
    - destruct B as (_ & lx & t' & _ & B1 & B2 & B3 & _). exists [lo; lx]. split; [constructor; [exact A3|constructor; [exact B3|constructor]]|].
      split; [intros x [<-|[<-|[]]]; assumption|intros f [<-|[<-|[]]]; assumption].
    - exists [lo]. split; [constructor; [exact A3|constructor]|]. split; [intros x [<-|[]]; assumption|intros f [<-|[]]; assumption]. }
  destruct LINKS as (O & LO & LOX & LFX).
  assert (OPN : opened k2 p (lpins (Some l))).
  { intros q f H. unfold link_oids in LO. clear -H LO. induction LO as [|x y xs ys E L IH]; [destruct H|]. destruct H as [->|H]; [exists y; exact E|exact (IH H)]. }
  assert (CF2 : desc_of k2 p cf = Some (D_dir i L_WRITE)) by (eapply grow_desc; [exact G2|exact S1|exact CF1]).
  assert (PD2 : desc_of k2 p pd = Some (D_pindir L_READ)) by (eapply grow_desc; [exact G2|exact S1|exact PD1]).
  assert (GD2 : good k2 p (nc_chain c) h').
  { eapply good_set_link with (k0 := k1) (po := po) (pf := pf); [exact (good_grow _ _ _ _ _ _ _ G2 S1 GD)|exact HL|exact HP|exact (grow_desc _ _ _ _ _ _ _ G2 S1 DP)|exact LON|exact LH]. }
  assert (LI2 : i < k_next k2) by lia.
  assert (V2 : forall q, dview k2 i q = dview k0 i q) by (intros q; apply (dview_grow _ _ _ _ _ _ G02 LI)).
  set (S02 := map snd (lpins (Some l)) ++ hfds (g_handle g) ++ [cf; pd; b]) in *.
  pose proof (evo_none _ _ _ _ _ _ G02 i LI) as E02.
  assert (PDX : ~ In pd (map snd (lpins (Some l)))) by (intros X; specialize (LFX _ X); pose proof (desc_lt _ _ _ _ S1 PD1); lia).
  assert (FAIL : forall D k e, evo p (k_ents k0) (Some (i, D)) [] S02 k0 k -> off [P_link_extra; P_ctx_tmp] (dview k0 i) D -> (forall q, D q = dview k0 i q \/ D q = None) ->
     (forall f, f < k_next k2 -> fd_find f (k_fds k) = fd_find f (k_fds k2)) -> not_attached F mm k0 i c hd o e ->
     wps F p I (handle_detach h' ;;; Ret (mkCg (g_chain g) (set_link h' None), Er e : res unit)) (leaves p I Q k0 n L_READ L_WRITE b pd cf) k).
  { intros D k e E OF1 DN FD W.
    assert (OF : off attach_names (dview k0 i) D) by (intros q NI; apply OF1; intros X; apply NI; right; exact X).
    apply wps_bind.
    assert (KEPT : forall M' X Z k', evo p (k_ents k0) X M' Z k0 k' -> turned O k k' -> evo p (k_ents k0) X [] Z k0 k').
    { intros M' X Z k' E' T. eapply evo_kept; [exact E'|]. eapply turned_kept; [exact T| |apply (evo_same_objs _ _ _ _ _ _ E)].
      intros x Hx. specialize (LOX x Hx). lia. }
    eapply wps_post with (I := I); [auto| |apply (handle_detach_ok F p I h' O (k_ents k0) (Some (i, D)) [] S02 (hfds (g_handle g) ++ [cf; pd; b]) k0 k E S0)].
    - intros [] k' (M' & E' & T & _ & FD'). rewrite app_nil_r in E'. apply (KEPT _ _ _ _ E') in T. clear E' M'.
      apply wps_ret; [eapply HA; [exact EN|exact HC|exact CB|exact CS|exact HDL|]; exists D; split; [exact T|exact OF]|].
      assert (HN : g_handle (mkCg (g_chain g) (set_link h' None)) = g_handle g) by (cbn [g_handle]; unfold h'; destruct (g_handle g); cbn in *; subst; reflexivity).
      eapply leaves_kept; [exact EN|cbn [fst]; rewrite HN; exact T| | | | |].
      + apply find_desc_of. rewrite FD'; [|exact PDX]. rewrite FD; [apply desc_of_find, PD2|]. eapply desc_lt; [exact S2|exact PD2].
      + cbn [fst]. rewrite HN. intros f H. destruct (FDS f H) as (A & _ & B & _). auto.
      + exists P_ctx. destruct (ev_view _ _ _ _ _ _ _ T i D eq_refl) as [_ V]. rewrite V, OF; [exact CTX0|]. intros [X|[X|[X|[]]]]; discriminate X.
      + intros Z k3 _ E'. eapply HA; [exact EN|exact HC|exact CB|exact CS|exact HDL|]. exists D. split; [exact E'|exact OF].
      + intros k3 _ E'. cbn [snd]. right. exists i, c, hd. split; [exact EN|]. split; [exact HC|]. split; [|exact W].
        exists D. split; [exact E'|]. split; [exact OF1|]. split; [exact DN|]. rewrite HDL. congruence.
    - eapply link_oids_same; [exact LO|]. intros [q x] HX. apply FD. destruct (OPN q x HX) as (ob & HX'). eapply desc_lt; [exact S2|exact HX'].
    - intros f H. specialize (LFX f H). lia.
    - intros f. unfold S02, h'. cbn [h_link set_link]. rewrite !in_app_iff. tauto.
    - intros M' Z k' E' T. eapply HA; [exact EN|exact HC|exact CB|exact CS|exact HDL|]. exists D. split; [|exact OF]. eapply KEPT; [exact E'|exact T]. }
  (* pin the link *)
  assert (IN3 : forall q, In q [P_link; P_link_extra] -> In q attach_names) by (intros q; cbn; tauto).
  assert (OFF2 : forall N D, off N (dview k2 i) D -> (forall q, In q N -> In q attach_names) -> off attach_names (dview k0 i) D).
  { intros N D OF IN q NI. rewrite OF; [apply V2|]. intros X. apply NI, IN, X. }
  assert (EW : forall D k', dwr i D k2 k' -> evo p (k_ents k0) (Some (i, D)) [] S02 k0 k').
  { intros D k' W. eapply evo_dwr; [exact E02|reflexivity|exact LI2|exact W]. }
  apply wps_bind. eapply wps_post with (I := I); [auto| |apply (link_pin_ok F p I cf i L_WRITE [P_link; P_link_extra] l k2 S2 CF2 OPN)]; cycle 1.
  { intros D k' W OF. eapply HA; [exact EN|exact HC|exact CB|exact CS|exact HDL|]. exists D. split; [apply EW, W|]. eapply OFF2; [exact OF|exact IN3]. }
  { left; reflexivity. } { right; left; reflexivity. }
  intros r k3 (D3 & W3 & R).
  destruct r as [u|e].
  2:{ destruct R as (OF & REF & R1 & R2). apply (FAIL D3 k3).
      - apply EW, W3.
      - intros q NI. destruct (pname_dec q P_link) as [->|Q1]; [rewrite V2 in R1; exact R1|]. rewrite OF; [apply V2|].
        intros [X|[X|[]]]; [congruence|]. apply NI. left. exact X.
      - intros q. destruct (pname_dec q P_link) as [->|Q1]; [rewrite V2 in R1; left; exact R1|]. destruct (pname_dec q P_link_extra) as [->|Q2]; [rewrite V2 in R2; exact R2|].
        left. rewrite OF; [apply V2|]. intros [X|[X|[]]]; congruence.
      - intros f _. rewrite (dw_fds _ _ _ _ W3). reflexivity.
      - unfold not_attached. destruct REF as [X|[(q & X & Y)|X]].
        + left; exact X.
        + right. right. right. left. rewrite V2 in Y. rewrite lpins_fst in X. destruct X as [<-|X]; [left; exact Y|]. destruct (l_extra l); [|destruct X]. destruct X as [<-|[]]. right. exact Y.
        + exfalso. apply X. rewrite lpins_fst. destruct (l_extra l); repeat constructor; cbn; intuition discriminate. }
  destruct R as (OF3 & PA3 & FREE3).
  pose proof (dw_sane _ _ _ _ W3) as S3. pose proof (EW D3 k3 W3) as E03.
  assert (V3 : forall q, dview k3 i q = D3 q) by apply (dw_view _ _ _ _ W3).
  assert (OF3' : off attach_names (dview k0 i) D3).
  { eapply OFF2; [exact OF3|]. intros q. rewrite lpins_fst. destruct (l_extra l); cbn; tauto. }
  assert (CF3 : desc_of k3 p cf = Some (D_dir i L_WRITE)) by (rewrite (dwr_desc _ _ _ _ _ _ W3); exact CF2).
  assert (SEQ : forall S D k', evo p (k_ents k3) (Some (i, D)) [] S k3 k' -> evo p (k_ents k0) (Some (i, D)) [] (S ++ S02) k0 k').
  { intros S D k' E. pose proof (evo_trans _ _ _ _ _ _ _ _ _ _ _ _ E03 E eq_refl) as T. cbn [join app] in T.
    rewrite (ev_ents _ _ _ _ _ _ _ E03) in T. exact T. }
  assert (KEEP3 : forall S D k', evo p (k_ents k3) (Some (i, D)) [] S k3 k' -> forall x v, k_objs k2 x = Some v -> k_objs k' x = Some v).
  { intros S D k' E x v X. eapply evo_obj; [exact E|exact S3| |reflexivity]. rewrite (dw_objs _ _ _ _ W3). exact X. }
  (* the state in which the new context is in place *)
  assert (PINS : forall q x, In q (map fst (hpins h')) -> hrel k2 p h' q x -> D3 q = Some x).
  { intros q x _ (f & X & Y). apply hpins_set_link in X; [|exact HL]. destruct X as [X|X].
    - destruct (oc_got _ _ _ _ _ _ _ _ _ _ _ _ _ _ OC q f X) as (_ & _ & _ & (_ & ob & GV & GDs)).
      rewrite (grow_desc _ _ _ _ _ _ _ G2 S1 GDs) in Y. injection Y as ->. rewrite OF3; [rewrite V2; exact GV|].
      intros Z. apply hpins_names in X. unfold hnames in X. rewrite HL in X. cbn [app] in X. rewrite in_app_iff in X.
      rewrite lpins_fst in Z. destruct X as [X|[<-|[]]]; [|destruct Z as [Z|Z]; [discriminate Z|destruct (l_extra l); [destruct Z as [Z|[]]; discriminate Z|destruct Z]]].
      destruct Z as [<-|Z]; [exact (hok_link _ HOK X)|]. destruct (l_extra l); [|destruct Z]. destruct Z as [<-|[]]. exact (hok_extra _ HOK X).
    - eapply PA3; [exact X|exact Y]. }
  assert (HOK' : hok h') by exact HOK.
  assert (DONE : forall S D k', evo p (k_ents k3) (Some (i, D)) [] S k3 k' -> off [P_ctx_tmp; P_ctx] (dview k3 i) D ->
     ctx_at k' D (g_chain g) (handle_desc h') -> now_attached p k0 i c o (S ++ S02) k').
  { intros S D k' E OF (ox & t & X1 & X2 & X3). destruct (ev_view _ _ _ _ _ _ _ E i D eq_refl) as [_ V].
    exists D, (handle_desc h'). split; [apply SEQ, E|]. split.
    - intros q NI. rewrite OF; [rewrite V3; apply OF3'; intros X; apply NI; right; exact X|]. intros [X|[X|[]]]; subst q; apply NI; cbn; tauto.
    - split; [|cbn; rewrite LH, LOP; reflexivity]. split.
      + exists ox, t. split; [unfold pin; fold (dview k' i P_ctx); rewrite V; exact X1|]. split; [exact X2|]. rewrite (same_chain_pack _ _ SC). exact X3.
      + eapply complete_mono; [| |exact GD2].
        * intros q x HR. pose proof HR as (f & X & Y). unfold pin. fold (dview k' i q). rewrite V.
          pose proof (hok_names _ _ HOK' (hpins_names _ _ _ X)) as [Q1 Q2]. rewrite OF by (intros [Z|[Z|[]]]; congruence).
          rewrite V3. apply PINS; [apply (in_map fst) in X; exact X|exact HR].
        * intros q x v _. apply (KEEP3 _ _ _ E). }
  apply wps_bind. eapply wps_post with (I := I); [auto| |apply (persist_ok F p I (mkCg (g_chain g) h') cf i L_WRITE k3 S3 CF3)]; cycle 1.
  { intros S D k' E OF. eapply HA; [exact EN|exact HC|exact CB|exact CS|exact HDL|]. exists D. split; [apply SEQ, E|].
    intros q NI. rewrite OF; [rewrite V3; apply OF3', NI|]. intros [X|[]]; subst q; apply NI; cbn; tauto. }
  { intros S D k' E OF CA. eapply HB; [exact EN|exact HC|exact CB|exact CS|eapply DONE; eauto]. }
  intros r k4 (D4 & E34 & R). pose proof (SEQ _ _ _ E34) as E04. cbn [app] in E04. cbn [g_chain g_handle] in R.
  pose proof (ev_sane _ _ _ _ _ _ _ E34) as S4. destruct (ev_view _ _ _ _ _ _ _ E34 i D4 eq_refl) as [LI4 V4].
  assert (PD4 : desc_of k4 p pd = Some (D_pindir L_READ)) by (eapply evo_desc; [exact E34|exact S3|rewrite (dwr_desc _ _ _ _ _ _ W3); exact PD2]).
  assert (HFD : forall f, In f (hfds h') <-> In f (hfds (g_handle g)) \/ In f (map snd (lpins (Some l)))).
  { intros f. unfold hfds. rewrite !in_map_iff. split.
    - intros ([q x] & <- & X). apply hpins_set_link in X; [|exact HL]. destruct X as [X|X]; [left|right]; exists (q, x); auto.
    - intros [([q x] & <- & X)|([q x] & <- & X)]; exists (q, x); (split; [reflexivity|]); apply hpins_set_link; auto. }
  destruct r as [u'|e].
  - (* success *)
    destruct R as (OF4 & T4 & CA4). pose proof (DONE _ _ _ E34 OF4 CA4) as NA.
    apply wps_ret; [eapply HB; [exact EN|exact HC|exact CB|exact CS|exact NA]|].
    destruct NA as (D' & hd' & _ & _ & HC4 & HL4).
    assert (OF04 : off (P_ctx :: attach_names) (dview k0 i) D4).
    { intros q NI. rewrite OF4; [rewrite V3; apply OF3'; intros X; apply NI; right; exact X|]. intros [X|[X|[]]]; subst q; apply NI; cbn; tauto. }
    assert (NOW : forall Z k', cle (k_ents k0) k4 k' -> evo p (k_ents k0) (Some (i, D4)) [] Z k0 k' -> now_attached p k0 i c o Z k').
    { intros Z k' C E. exists D4, hd'. split; [exact E|]. split; [exact OF04|]. split; [|exact HL4].
      eapply holds_frame; [exact HC4| |intros q x v _; rewrite (ce_objs _ _ _ C); auto]. intros q. unfold dview. rewrite (ce_dirs _ _ _ C). reflexivity. }
    eapply leaves_kept with (X := Some (i, D4)) (M := []); [exact EN| |exact PD4| | | |].
    + cbn [fst g_handle]. eapply evo_incl; [exact E04|]. intros f. unfold S02. rewrite !in_app_iff. fold h'. rewrite HFD. tauto.
    + cbn [fst g_handle]. intros f H. apply HFD in H. destruct H as [H|H]; [destruct (FDS f H) as (A & _ & B & _); auto|].
      split; [specialize (LFX f H); lia|]. intros ->. exact (PDX H).
    + exists P_ctx. rewrite V4. destruct CA4 as (x & t & X & _). congruence.
    + intros Z k' C E. eapply HB; [exact EN|exact HC|exact CB|exact CS|eapply NOW; eauto].
    + intros k' C E. cbn [snd]. exists i, c, hd. split; [exact EN|]. split; [exact HC|]. split; [exact CB|]. split; [exact CS|]. split; [exact HDL|]. split; [exact VA|].
      split; [eapply NOW; eauto|].
      (* nothing else is in the directory *)
      intros (x & t & hx & A & B & TD). destruct CA4 as (ox & t' & X1 & X2 & X3).
      destruct HC as ((x0 & t0 & A0 & B0 & _) & _). rewrite A in A0. injection A0 as <-. rewrite B in B0. injection B0 as <- <-.
      assert (V' : forall q, pin k' i q = D4 q) by (intros q; apply (ev_view _ _ _ _ _ _ _ E i D4 eq_refl)).
      exists ox, t', (handle_desc h'). rewrite V'. split; [exact X1|]. split; [rewrite (ce_objs _ _ _ C); exact X2|].
      intros q. rewrite V'. intros NE. destruct (pname_dec q P_ctx) as [->|Q1]; [left; reflexivity|right].
      destruct (pname_dec q P_link) as [->|Q2]; [cbn; tauto|]. destruct (pname_dec q P_link_extra) as [->|Q3]; [cbn; tauto|].
      destruct (pname_dec q P_ctx_tmp) as [->|Q4]; [congruence|].
      rewrite OF04 in NE by (cbn; intuition congruence). destruct (TD q NE) as [Z|Z]; [congruence|].
      rewrite <- HD in Z. apply desc_hnames in Z. apply hnames_desc. unfold hnames in *. rewrite !in_app_iff in *. rewrite HL in Z.
      change (h_maps h') with (h_maps (g_handle g)). destruct Z as [Z|[[]|Z]]; [left; exact Z|right; right; exact Z].
  - (* the context could not be stored *)
    destruct R as (OF4 & T4 & WHY).
    assert (CF4 : desc_of k4 p cf = Some (D_dir i L_WRITE)) by (eapply evo_desc; [exact E34|exact S3|exact CF3]).
    assert (OF04 : off attach_names (dview k0 i) D4).
    { intros q NI. rewrite OF4; [rewrite V3; apply OF3', NI|]. intros [X|[]]; subst q; apply NI; cbn; tauto. }
    assert (OF05 : forall D, off [P_link; P_link_extra] (dview k4 i) D -> off attach_names (dview k0 i) D).
    { intros D OF q NI. rewrite OF; [rewrite V4; apply OF04, NI|]. intros X. apply NI, IN3, X. }
    assert (EW4 : forall D k', dwr i D k4 k' -> evo p (k_ents k0) (Some (i, D)) [] S02 k0 k').
    { intros D k' W. eapply evo_dwr; [exact E04|reflexivity|exact LI4|exact W]. }
    apply wps_bind. eapply wps_post with (I := I); [auto| |eapply (unpins_link p cf F I i L_WRITE [P_link; P_link_extra] k4 S4 CF4)]; cycle 1.
    { intros D k' W OF. eapply HA; [exact EN|exact HC|exact CB|exact CS|exact HDL|]. exists D. split; [apply EW4, W|apply OF05, OF]. }
    { auto. }
    intros [] k5 (D5 & W5 & OF5 & Z5). apply (FAIL D5 k5).
    + apply EW4, W5.
    + intros q NI. destruct (pname_dec q P_link) as [->|Q1]; [|apply OF05; [exact OF5|]; intros [X|X]; [congruence|apply NI; exact X]].
      rewrite (Z5 P_link (or_introl eq_refl)), <- V2. symmetry. apply FREE3. left. reflexivity.
    + intros q. destruct (pname_dec q P_link) as [->|Q1]; [right; apply Z5; left; reflexivity|]. destruct (pname_dec q P_link_extra) as [->|Q2]; [right; apply Z5; right; left; reflexivity|].
      rewrite OF5 by (intros [X|[X|[]]]; congruence). rewrite V4. destruct (pname_dec q P_ctx_tmp) as [->|Q3].
      * destruct T4 as [T4|T4]; [left|right; exact T4]. rewrite T4, V3. rewrite OF3; [apply V2|]. rewrite lpins_fst. destruct (l_extra l); cbn; intuition discriminate.
      * left. apply OF04. cbn. intuition congruence.
    + intros f L. rewrite (dw_fds _ _ _ _ W5), (ev_old _ _ _ _ _ _ _ E34 f), (dw_fds _ _ _ _ W3); [reflexivity|]. rewrite (dw_next _ _ _ _ W3). exact L.
    + left. destruct WHY as [X|X]; [exact X|]. exfalso. rewrite <- (same_chain_pack _ _ SC) in X. destruct HC as ((x & t & _ & _ & P) & _). congruence.
Qed.
