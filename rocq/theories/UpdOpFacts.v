(** bf_chain_update and bf_chain_update_set as a whole. *)
From Coq Require Import NArith ZArith List Bool Lia.
From Verif Require Import Bytes Types World BpfModel GenModel BytesFacts StrModel SetModel MapModel PackModel PackSpec PackFacts4 HookModel KernModel LockModel CtlModel SysSpec SysFacts RelyFacts SeqFacts StageFacts EvoFacts CtlSpec HistSpec HandleFacts PinFacts AttachFacts LockSeqFacts LoadFacts RestoreFacts WithFacts IsolFacts UnloadFacts AttachOpFacts CountFacts UpdSpec UpdFacts.
Import ListNotations.
Local Open Scope N_scope.

(** ** The hook is served *)
Lemma other_swap o : swap_prios o = other_opts o.
Proof. unfold swap_prios, other_opts, opt_prios. destruct (ho_priorities o) as [[a b]|]; reflexivity. Qed.
Lemma point_new hk o fam t : attach_point hk (new_opts hk o) fam = Some t ->
  attach_point hk o fam = Some t \/ (hook_flavor hk = F_NF /\ attach_point hk (other_opts o) fam = Some t).
Proof. unfold new_opts. destruct (hook_flavor hk) eqn:HF; auto. rewrite other_swap. auto. Qed.

Lemma duty_fd k p po l hk o img ss cm old new : link_live k p po l -> k_objs k po = Some (O_prog img ss cm) ->
  (gen_program old = Ok img \/ gen_program new = Ok img) -> l_hook l = hk -> (l_opts l = o \/ l_opts l = new_opts hk o) -> on_duty k hk o old new.
Proof.
  intros [(lo & t & A & B & C) X] P G H O fam HF. subst hk.
  assert (PT : forall f t, attach_point (l_hook l) (l_opts l) f = Some t -> attach_point (l_hook l) o f = Some t \/ (hook_flavor (l_hook l) = F_NF /\ attach_point (l_hook l) (other_opts o) f = Some t)).
  { intros f t0 Y. destruct O as [O|O]; rewrite O in Y; [left; exact Y|apply point_new, Y]. }
  destruct HF as [->|[-> NF]].
  - exists t, img. split; [apply PT, A|]. split; [exact G|]. exists lo, po, ss, cm. split; [|split; assumption].
    right. exists (l_fd l), p. apply desc_of_find, B.
  - destruct (l_extra l) as [fx|]; [|contradiction]. destruct X as (_ & X). destruct (X NF) as (lx & t' & A' & B' & C').
    exists t', img. split; [apply PT, A'|]. split; [exact G|]. exists lx, po, ss, cm. split; [|split; assumption].
    right. exists fx, p. apply desc_of_find, B'.
Qed.

Lemma duty_pin k i c hd hk o o' old new : holds_chain k i c hd -> hd_link hd = Some (hk, o') -> (o' = o \/ o' = new_opts hk o) ->
  (nc_chain c = old \/ nc_chain c = new) -> on_duty k hk o old new.
Proof.
  intros [_ [(img & po & ss & cm & v & G & _ & OP & _ & _ & _ & _ & L) _ _ _ _ _]] HL O HC fam HF. rewrite HL in L. destruct L as (EH & (lo & t & A & B & C) & X).
  assert (PT : forall f t, attach_point hk o' f = Some t -> attach_point hk o f = Some t \/ (hook_flavor hk = F_NF /\ attach_point hk (other_opts o) f = Some t)).
  { intros f t0 Y. destruct O as [ -> | -> ]; [left; exact Y|]. apply point_new, Y. }
  assert (GG : gen_program old = Ok img \/ gen_program new = Ok img) by (destruct HC as [<-|<-]; auto).
  destruct HF as [->|[-> NF]].
  - exists t, img. split; [apply PT, A|]. split; [exact GG|]. exists lo, po, ss, cm. split; [|split; assumption]. left. exists i, P_link. exact B.
  - destruct (X NF) as (lx & t' & A' & B' & C'). exists t', img. split; [apply PT, A'|]. split; [exact GG|]. exists lx, po, ss, cm. split; [|split; assumption]. left. exists i, P_link_extra. exact B'.
Qed.

(** ** Objects that changed *)
Lemma complete_but (R R' : pname -> oid -> Prop) (O O' : oid -> option obj) ch hd : (forall q o, R q o -> R' q o) ->
  (forall o v, O o = Some v -> match v with O_counters n _ => exists b, O' o = Some (O_counters n b) | O_link _ _ _ _ => hd_link hd = None \/ O' o = Some v | _ => O' o = Some v end) ->
  complete_at R O ch hd -> complete_at R' O' ch hd.
Proof.
  intros HR HO [(img & po & ss & cm & v & A1 & A2 & A3 & A4 & A5 & A6 & A7 & A8) B C D E ES].
  pose proof (HO _ _ A5) as (v' & A5'). constructor; auto.
  - exists img, po, ss, cm, v'. split; [exact A1|]. split; [apply HR, A2|]. split; [exact (HO _ _ A3)|]. split; [apply HR, A4|]. split; [exact A5'|].
    split; [eapply Forall2_impl; [|exact A6]; intros ? ? ?; apply HR; assumption|].
    split; [eapply Forall2_impl; [|exact A7]; intros x y Z; exact (HO _ _ Z)|].
    destruct (hd_link hd) as [[hk o]|]; [|exact Logic.I]. destruct A8 as (X1 & (lo & t & X2 & X3 & X4) & X5).
    split; [exact X1|]. split; [exists lo, t; split; [exact X2|]; split; [apply HR, X3|]; destruct (HO _ _ X4) as [Z|Z]; [discriminate Z|exact Z]|].
    intros NF. destruct (X5 NF) as (lx & t' & Y1 & Y2 & Y3). exists lx, t'. split; [exact Y1|]. split; [apply HR, Y2|]. destruct (HO _ _ Y3) as [Z|Z]; [discriminate Z|exact Z].
  - destruct C as (C1 & C2). split; [exact C1|]. destruct C2 as (o & C3 & C4). exists o. split; [apply HR, C3|exact (HO _ _ C4)].
  - destruct D as (D1 & D2). split; [exact D1|]. intros H. destruct (D2 H) as (o & D3 & D4). exists o. split; [apply HR, D3|exact (HO _ _ D4)].
  - destruct E as (D1 & D2). split; [exact D1|]. intros H. destruct (D2 H) as (o & D3 & D4). exists o. split; [apply HR, D3|exact (HO _ _ D4)].
Qed.

(** ** bf_cgen_update *)
Definition duty (hd : hdesc) (c c' : nchain) (k : kst) : Prop :=
  forall hk o, hd_link hd = Some (hk, o) -> on_duty k hk o (nc_chain c) (nc_chain c').
(** Why an update fails. *)
Definition not_updated (F : call -> bool) (keep : bool) (c c' : nchain) (e : N) : Prop :=
  faulty F \/ gen_program (nc_chain c') = Er e \/ (keep = true /\ n_rules (nc_chain c) <> n_rules (nc_chain c') /\ e = EINVAL).
(** A completed update. *)
Record updated (p : pid) (k0 : kst) (i : ino) (hd : hdesc) (c c' : nchain) (keep : bool) (k' : kst) : Prop := {
  up_evo : exists D M, evo p (k_ents k0) (Some (i, D)) M [] k0 k';
  up_holds : exists hd', holds_chain k' i c' hd' /\ hd_link hd' = match hd_link hd with Some (hk, o) => Some (hk, new_opts hk o) | None => None end;
  up_tidy : tidy k' i;
  up_counts : exists w, counts_at k' i (n_rules (nc_chain c')) w /\
    if keep then exists v, counts_at k0 i (n_rules (nc_chain c)) v /\ n_rules (nc_chain c') = n_rules (nc_chain c) /\
                   forall j, j < n_rules (nc_chain c) + 2 -> total (w j) = total (v j)
    else forall j, w j = zeros k0
}.

Lemma hfds_link h f : In f (hfds h) <-> In f (map snd (lpins (h_link h))) \/ In f (hfds (set_link h None)).
Proof. unfold hfds, hpins. rewrite !map_app, !in_app_iff. cbn [set_link h_link lpins map In h_prog]. change (h_maps (set_link h None)) with (h_maps h). tauto. Qed.
Lemma opt_fds_prog h f : h_prog h = Some f -> In f (hfds h).
Proof. intros E. unfold hfds, hpins. rewrite E. left. reflexivity. Qed.
Lemma hpins_set_none h q f : h_link h = None -> forall ol, In (q, f) (hpins (set_link h ol)) <-> In (q, f) (hpins h) \/ In (q, f) (lpins ol).
Proof. intros HL ol. destruct ol as [l|]; [apply hpins_set_link, HL|]. rewrite set_link_none by exact HL. cbn. tauto. Qed.

Lemma cgen_update_ok F p (I : kst -> Prop) mm n keep c c' k0 b pd cf i hd g k1 (Q : res unit -> kst -> Prop) :
  sane k0 -> spared F -> opened_chain F p mm k0 n L_READ L_WRITE b pd cf i hd g k1 ->
  holds_chain k0 i c hd -> same_chain c (g_chain g) -> hok (g_handle g) -> good k1 p (nc_chain c) (g_handle g) ->
  tidy k0 i -> c_hook (nc_chain c') = c_hook (nc_chain c) -> (exists t, chain_pack c' = Ok t) ->
  NoDup (set_names (nc_chain c)) -> NoDup (set_names (nc_chain c')) ->
  (forall X M S k', evo p (k_ents k0) X M S k0 k' -> xok X i -> duty hd c c' k' -> I k') ->
  (forall e k', evo p (k_ents k0) (Some (i, dview k0 i)) [] [] k0 k' -> not_updated F keep c c' e -> Q (Er e) k') ->
  (forall k', updated p k0 i hd c c' keep k' -> Q (Ok tt) k') ->
  wps F p I (cgen_update g c' keep cf) (leaves p I Q k0 n L_READ L_WRITE b pd cf) k1.
Proof.
  intros S0 SP OC HC SC HOK GD TD HK (tp' & CP') ND ND' HI HE HQ.
  pose proof (oc_ent _ _ _ _ _ _ _ _ _ _ _ _ _ _ OC) as EN. pose proof (sane_ent _ S0 _ _ EN) as LI.
  pose proof (opened_fds _ _ _ _ _ _ _ _ _ _ _ _ _ _ OC) as FDS. pose proof (oc_grow _ _ _ _ _ _ _ _ _ _ _ _ _ _ OC) as G1.
  pose proof (oc_hd _ _ _ _ _ _ _ _ _ _ _ _ _ _ OC) as HD. pose proof (ev_sane _ _ _ _ _ _ _ G1) as S1. pose proof (ev_next _ _ _ _ _ _ _ G1) as N1.
  destruct (oc_new _ _ _ _ _ _ _ _ _ _ _ _ _ _ OC) as (LB & LP & LC).
  pose proof (oc_pd _ _ _ _ _ _ _ _ _ _ _ _ _ _ OC) as PD1. pose proof (oc_cf _ _ _ _ _ _ _ _ _ _ _ _ _ _ OC) as CF1.
  assert (CTX0 : dview k0 i P_ctx <> None) by (destruct HC as ((o' & t & A & _) & _); unfold pin in A; unfold dview; congruence).
  assert (NCG : nc_chain (g_chain g) = nc_chain c) by (destruct SC as (_ & _ & E); symmetry; exact E).
  set (ho := g_handle g) in *.
  assert (OPN1 : opened k1 p (hpins ho)).
  { intros q f H. destruct (oc_got _ _ _ _ _ _ _ _ _ _ _ _ _ _ OC q f H) as (_ & _ & _ & (_ & ob & _ & Z)). eauto. }
  assert (LT1 : forall f, In f (hfds ho) -> f < k_next k1).
  { intros f H. unfold hfds in H. apply in_map_iff in H. destruct H as ([q x] & <- & H). destruct (OPN1 q x H) as (ob & Z). cbn. eapply desc_lt; [exact S1|exact Z]. }
  (* duty by the old pins *)
  assert (PINS : forall X Z k', evo p (k_ents k0) X [] Z k0 k' -> (forall q, dview k' i q = dview k0 i q) -> duty hd c c' k').
  { intros X Z k' E V hk o HL. eapply duty_pin; [|exact HL|left; reflexivity|left; reflexivity].
    eapply holds_frame; [exact HC|exact V|]. intros q x v _ Y. eapply evo_obj; [exact E|exact S0|exact Y|reflexivity]. }
  assert (GROW : forall Z k', grow p Z k0 k' -> I k').
  { intros Z k' E. eapply HI; [exact E|exact Logic.I|]. eapply PINS; [exact E|]. intros q. apply (dview_grow _ _ _ _ _ _ E LI). }
  unfold cgen_update. fold ho. apply wps_alloc; [eapply GROW, G1| |].
  2:{ intros HF e. exfalso. rewrite (spared_alloc _ SP) in HF. discriminate HF. }
  apply wps_bind. eapply wps_post with (I := I); [auto| |apply (build_program_ok F p I c' k1 S1)]; cycle 1.
  { intros S k' G. eapply GROW. eapply grow_trans; [exact G1|exact G]. }
  intros [hn rb] k2 (G2 & HN2 & HNL & RB). cbn [fst snd] in *.
  pose proof (grow_trans _ _ _ _ _ _ G1 G2) as G02. pose proof (ev_sane _ _ _ _ _ _ _ G2) as S2. pose proof (ev_next _ _ _ _ _ _ _ G2) as N2.
  assert (NEWF : forall f, In f (hfds hn) -> k_next k1 <= f) by (intros f H; exact (hnew_fds _ _ _ _ _ HN2 H)).
  assert (PD2 : desc_of k2 p pd = Some (D_pindir L_READ)) by (eapply grow_desc; [exact G2|exact S1|exact PD1]).
  assert (CF2 : desc_of k2 p cf = Some (D_dir i L_WRITE)) by (eapply grow_desc; [exact G2|exact S1|exact CF1]).
  assert (LPD : pd < k_next k1) by (eapply desc_lt; [exact S1|exact PD1]).
  (* give up with the old chain in place *)
  assert (GIVEUP : forall X k e, evo p (k_ents k0) X [] (hfds hn ++ hfds ho ++ [cf; pd; b]) k0 k -> xok X i -> (forall q, dview k i q = dview k0 i q) ->
     desc_of k p pd = Some (D_pindir L_READ) -> not_updated F keep c c' e ->
     wps F p I (handle_free hn ;;; Ret (g, Er e : res unit)) (leaves p I Q k0 n L_READ L_WRITE b pd cf) k).
  { intros X k e E XO V DP W. apply wps_bind.
    assert (IE : forall Z k', evo p (k_ents k0) X [] Z k0 k' -> k_dirs k' = k_dirs k -> I k').
    { intros Z k' E' HDI. eapply HI; [exact E'|exact XO|]. eapply PINS; [exact E'|]. intros q. rewrite <- V. unfold dview. rewrite HDI. reflexivity. }
    eapply wps_post with (I := I); [auto| |eapply (closes_handle p hn F I k0 _ _ _ _ (hfds ho ++ [cf; pd; b]) k E S0)].
    - intros [] k' (C & E' & FD). apply wps_ret; [eapply IE; [exact E'|apply (cl_dirs _ _ C)]|].
      eapply leaves_kept; [exact EN|cbn [fst]; exact E'| | | | |].
      + apply find_desc_of. rewrite FD; [apply desc_of_find, DP|]. intros H. specialize (NEWF _ H). lia.
      + cbn [fst]. intros f H. destruct (FDS f H) as (A & _ & B & _). auto.
      + exists P_ctx. unfold dview. rewrite (cl_dirs _ _ C). fold (dview k i P_ctx). rewrite V. exact CTX0.
      + intros Z k3 C3 E3. eapply IE; [exact E3|]. rewrite (ce_dirs _ _ _ C3). apply (cl_dirs _ _ C).
      + intros k3 C3 E3. cbn [snd]. apply HE; [|exact W].
        assert (V3 : forall q, dview k3 i q = dview k0 i q) by (intros q; rewrite <- V; unfold dview; rewrite (ce_dirs _ _ _ C3), (cl_dirs _ _ C); reflexivity).
        destruct X as [[j DX]|]; [|apply evo_none; [exact E3|exact LI]]. cbn in XO. subst j. eapply evo_ext; [exact E3|]. intros q. rewrite <- V3. symmetry. apply (ev_view _ _ _ _ _ _ _ E3 i DX eq_refl).
    - intros f H. specialize (NEWF f H). lia.
    - intros x H. rewrite in_app_iff in H. tauto.
    - intros Z k' C E'. eapply IE; [exact E'|apply (cl_dirs _ _ C)]. }
  destruct rb as [u|e].
  2:{ apply (GIVEUP None k2 e); [exact G02|exact Logic.I|intros q; apply (dview_grow _ _ _ _ _ _ G02 LI)|exact PD2|]. unfold not_updated. tauto. }
  clear u. destruct RB as (HP & GD2 & cfd & con & HCM & NF2). pose proof NF2 as (_ & LCON & DCON & OCON).
  destruct (h_prog hn) as [pf|] eqn:HPF; [|congruence]. clear HP.
  (* counters *)
  destruct (opened_cmap F p mm k0 n L_READ L_WRITE b pd cf i hd g k1 c OC S0 HC) as (oo & v & OO1 & OO2 & CMI). fold ho in CMI.
  assert (LOO : oo < k_next k1) by (assert (oo < k_next k0) by (eapply sane_obj; [exact S0|exact OO2]); lia).
  set (nr := n_rules (nc_chain c')) in *.
  assert (ZZ : zeros k1 = zeros k0) by (eapply zeros_grow; exact G1).
  set (moved := fun (w : N -> list (N * N)) => if keep then nr = n_rules (nc_chain c) /\ (forall j, j < n_rules (nc_chain c) + 2 -> total (w j) = total (v j)) else forall j, w j = zeros k0).
  assert (CMN : cmap_is k2 p hn con (nr + 2) (fun _ => zeros k2)).
  { exists cfd. split; [exact HCM|]. split; [exact DCON|]. rewrite (zeros_grow _ _ _ _ G2). exact OCON. }
  assert (CMO : cmap_is k2 p ho oo (n_rules (nc_chain c) + 2) v).
  { destruct CMI as (f & A & B & C). exists f. split; [exact A|]. split; [eapply grow_desc; [exact G2|exact S1|exact B]|eapply grow_obj; [exact G2|exact S1|exact C]]. }
  assert (EC : forall k', cwr con k2 k' -> grow p (hfds hn ++ hfds ho ++ [cf; pd; b]) k0 k').
  { intros k' C. apply (evo_cwr _ _ _ _ _ _ _ _ con G02); [lia|exact C]. }
  apply wps_bind.
  eapply wps_post with (I := I) (Q := fun (r : res unit) k' => cwr con k2 k' /\ match r with Ok _ => exists w, cmap_is k' p hn con (nr + 2) w /\ moved w
      | Er e => not_updated F keep c c' e end); [auto| |]; cycle 1.
  { unfold moved. rewrite NCG. fold nr. destruct keep eqn:KE.
    - destruct (n_rules (nc_chain c) =? nr) eqn:EQ.
      + apply N.eqb_eq in EQ. rewrite EQ in *. eapply wps_post with (I := I); [auto| |apply (transfer_ok F p I ho hn oo con nr v k2 S2)]; cycle 1.
        { lia. } { intros k' C. eapply GROW, EC, C. } { exact CMO. } { exact CMN. }
        intros r k' (C & R). split; [exact C|]. destruct r as [u|e]; [|left; exact R]. destruct R as (w & A & B). exists w. auto.
      + apply N.eqb_neq in EQ. apply wps_ret; [eapply GROW, G02|]. split; [apply cwr_refl, S2|]. right. right. auto.
    - apply wps_ret; [eapply GROW, G02|]. split; [apply cwr_refl, S2|]. exists (fun _ => zeros k2). split; [exact CMN|]. intros j. rewrite (zeros_grow _ _ _ _ G2). exact ZZ. }
  intros rt k3 (C3 & RT). pose proof (EC k3 C3) as G03. pose proof (cw_sane _ _ _ C3) as S3.
  assert (PD3 : desc_of k3 p pd = Some (D_pindir L_READ)) by (rewrite (cwr_desc _ _ _ _ _ C3); exact PD2).
  assert (CF3 : desc_of k3 p cf = Some (D_dir i L_WRITE)) by (rewrite (cwr_desc _ _ _ _ _ C3); exact CF2).
  assert (V3 : forall q, dview k3 i q = dview k0 i q) by (intros q; apply (dview_grow _ _ _ _ _ _ G03 LI)).
  destruct rt as [u|e]; [clear u|apply (GIVEUP None k3 e); [exact G03|exact Logic.I|exact V3|exact PD3|exact RT]].
  destruct RT as (w & CMW & MV).
  assert (D13 : forall f d, desc_of k1 p f = Some d -> desc_of k3 p f = Some d).
  { intros f d H. rewrite (cwr_desc _ _ _ _ _ C3). eapply grow_desc; [exact G2|exact S1|exact H]. }
  assert (O13 : forall o x, k_objs k1 o = Some x -> k_objs k3 o = Some x).
  { intros o x H. rewrite (cw_objs _ _ _ C3); [eapply grow_obj; [exact G2|exact S1|exact H]|]. pose proof (sane_obj _ S1 _ _ H). lia. }
  (* the old link *)
  assert (LIVE3 : forall l0, h_link ho = Some l0 -> l_hook l0 = c_hook (nc_chain c) /\ exists po img ss cm, gen_program (nc_chain c) = Ok img /\
      k_objs k3 po = Some (O_prog img ss cm) /\ link_live k3 p po l0).
  { intros l0 HL. destruct (good_live _ _ _ _ _ GD HL OPN1) as (A & pf0 & po & img & ss & cm & B1 & B2 & B3 & B4 & B5). split; [exact A|].
    exists po, img, ss, cm. split; [exact B1|]. split; [apply O13, B4|]. eapply live_keep; [exact B5| |].
    - intros f H. apply in_map_iff in H. destruct H as ([q x] & <- & H). cbn. destruct (OPN1 q x (hpins_in_link _ _ _ _ HL H)) as (ob & Z). rewrite Z. apply D13, Z.
    - intros q f o x _ _ Z. apply O13, Z. }
  assert (HLO : forall hk o, hd_link hd = Some (hk, o) -> exists l0, h_link ho = Some l0 /\ l_hook l0 = hk /\ l_opts l0 = o).
  { intros hk o H. rewrite <- HD in H. cbn in H. fold ho in H. destruct (h_link ho) as [l0|]; [|discriminate H]. injection H as <- <-. eauto. }
  (* take the old pins away *)
  assert (EW3 : forall D k', dwr i D k3 k' -> evo p (k_ents k0) (Some (i, D)) [] (hfds hn ++ hfds ho ++ [cf; pd; b]) k0 k').
  { intros D k' W. eapply evo_dwr; [exact G03|exact Logic.I| |exact W]. pose proof (ev_next _ _ _ _ _ _ _ G03). lia. }
  assert (DUTY3 : forall D k', dwr i D k3 k' -> duty hd c c' k').
  { intros D k' W hk o HL. destruct (HLO hk o HL) as (l0 & L1 & L2 & L3). destruct (LIVE3 l0 L1) as (_ & po & img & ss & cm & B1 & B2 & B3).
    eapply duty_fd with (po := po) (l := l0); [|rewrite (dw_objs _ _ _ _ W); exact B2|left; exact B1|exact L2|left; exact L3].
    eapply live_keep; [exact B3|intros f _; apply (dwr_desc _ _ _ _ _ _ W)|]. intros q f x y _ _ Z. rewrite (dw_objs _ _ _ _ W). exact Z. }
  apply wps_bind.
  eapply wps_post with (I := I); [auto| |eapply (unpins_handle p ho cf F I i L_WRITE (hnames ho) k3 S3 CF3)]; cycle 1.
  { intros D k' W _. eapply HI; [apply EW3, W|reflexivity|eapply DUTY3, W]. }
  { auto. }
  intros [] k4 (D4 & W4 & OF4 & Z4). pose proof (EW3 _ _ W4) as E04. pose proof (dw_sane _ _ _ _ W4) as S4.
  assert (V4 : forall q, dview k4 i q = D4 q) by apply (dw_view _ _ _ _ W4).
  assert (ONLY : forall q, q <> P_ctx -> D4 q = None).
  { intros q NQ. destruct (in_dec pname_dec q (hnames ho)) as [H|H]; [apply Z4, H|]. rewrite OF4 by exact H. rewrite V3.
    destruct (dview k0 i q) eqn:DV; [|reflexivity]. exfalso. destruct TD as (ox & t & hx & A & B & TD).
    assert (hx = hd) by (destruct HC as ((ox' & t' & A' & B' & _) & _); rewrite A in A'; injection A' as <-; rewrite B in B'; injection B' as _ <-; reflexivity). subst hx.
    destruct (TD q) as [Z|Z]; [unfold pin; fold (dview k0 i q); congruence|exact (NQ Z)|]. rewrite <- HD in Z. apply H, desc_hnames, Z. }
  assert (CTX4 : D4 P_ctx = dview k0 i P_ctx).
  { rewrite OF4; [apply V3|]. intros H. destruct (hok_names _ _ HOK H). congruence. }
  set (SS := hfds hn ++ hfds (set_link ho None) ++ [cf; pd; b]).
  assert (PFN : k_next k1 <= pf) by (apply NEWF, opt_fds_prog, HPF).
  destruct (good_prog _ _ _ _ GD2) as (img' & pf' & po' & ss' & cm' & GI' & HPF' & DPF & OPF). rewrite HPF in HPF'. injection HPF' as <-.
  assert (LFD : forall l0, h_link ho = Some l0 -> forall f, In f (map snd (lpins (Some l0))) -> In f (hfds ho)).
  { intros l0 HL f H. apply hfds_link. rewrite HL. left. exact H. }
  assert (D24 : forall f d, desc_of k2 p f = Some d -> desc_of k4 p f = Some d).
  { intros f d H. rewrite (dwr_desc _ _ _ _ _ _ W4), (cwr_desc _ _ _ _ _ C3). exact H. }
  assert (O34 : k_objs k4 = k_objs k3) by apply (dw_objs _ _ _ _ W4).
  assert (OPF4 : k_objs k4 po' = Some (O_prog img' ss' cm')).
  { rewrite O34. rewrite (cw_objs _ _ _ C3); [exact OPF|]. intros ->. rewrite OPF in OCON. discriminate OCON. }
  assert (NX4 : k_next k4 = k_next k2) by (rewrite (dw_next _ _ _ _ W4); apply (cw_next _ _ _ C3)).
  apply wps_bind.
  set (LPOST := fun (r : res (option link)) k' => (forall f, f < k_next k4 -> ~ In f (map snd (lpins (h_link ho))) -> fd_find f (k_fds k') = fd_find f (k_fds k4)) /\
     match r with
     | Ok ol => exists M, evo p (k_ents k0) (Some (i, D4)) M (map snd (lpins ol) ++ SS) k0 k' /\ keeps k4 k' /\
         match h_link ho, ol with
         | None, None => True
         | Some l0, Some l => link_live k' p po' l /\ l_hook l = l_hook l0 /\ l_opts l = new_opts (l_hook l0) (l_opts l0) /\
             (forall f, In f (map snd (lpins (Some l))) -> k_next k0 <= f /\ f <> pd)
         | _, _ => False
         end
     | Er e => evo p (k_ents k0) (Some (i, D4)) [] (map snd (lpins (h_link ho)) ++ SS) k0 k' /\ (forall o x, k_objs k4 o = Some x -> k_objs k' o = Some x) /\
         (forall f, In f (map snd (lpins (h_link ho))) -> fd_find f (k_fds k') = fd_find f (k_fds k4)) /\ faulty F
     end).
  assert (ES4 : evo p (k_ents k0) (Some (i, D4)) [] (map snd (lpins (h_link ho)) ++ SS) k0 k4).
  { eapply evo_incl; [exact E04|]. intros f. unfold SS. rewrite !in_app_iff, (hfds_link ho f). tauto. }
  eapply wps_post with (I := I) (Q := LPOST); [auto| |]; cycle 1.
  { unfold LPOST. destruct (h_link ho) as [l0|] eqn:HL.
    2:{ apply wps_ret; [eapply HI; [exact E04|reflexivity|eapply DUTY3, W4]|]. split; [auto|]. exists []. split; [exact ES4|]. split; [apply keeps_all; auto|exact Logic.I]. }
    destruct (LIVE3 l0 eq_refl) as (LH0 & po & img & ss & cm & B1 & B2 & B3).
    assert (LIVE4 : link_live k4 p po l0).
    { eapply live_keep; [exact B3|intros f _; apply (dwr_desc _ _ _ _ _ _ W4)|]. intros q f x y _ _ Z. rewrite O34. exact Z. }
    assert (DU : forall k' po1 l1 im s1 c1, link_live k' p po1 l1 -> k_objs k4 po1 = Some (O_prog im s1 c1) -> keeps k4 k' -> (gen_program (nc_chain c) = Ok im \/ gen_program (nc_chain c') = Ok im) ->
       l_hook l1 = l_hook l0 -> (l_opts l1 = l_opts l0 \/ l_opts l1 = new_opts (l_hook l0) (l_opts l0)) -> duty hd c c' k').
    { intros k' po1 l1 im s1 c1 A1 A2 A3 A4 A5 A6 hk o HLD. destruct (HLO hk o HLD) as (lx & L1 & L2 & L3). injection L1 as <-. subst hk o.
      eapply duty_fd; [exact A1|exact (A3 _ _ A2)|exact A4|exact A5|exact A6]. }
    apply wps_bind. eapply wps_post with (I := I); [auto| |apply (link_update_ok F p I l0 pf po po' img' ss' cm' (k_ents k0) (Some (i, D4)) SS k0 k4 S0 ES4)]; cycle 1.
    - intros f H. destruct (FDS f (LFD l0 eq_refl f H)) as (A & _). exact A.
    - intros H. pose proof (LT1 _ (LFD l0 eq_refl pf H)). lia.
    - exact LIVE4.
    - apply D24, DPF.
    - exact OPF4.
    - intros M Z k' E K L. eapply HI; [exact E|reflexivity|]. eapply (DU k' po l0); [exact L|rewrite O34; exact B2|exact K|left; exact B1|reflexivity|left; reflexivity].
    - intros M Z k' l' E K L A B. eapply HI; [exact E|reflexivity|]. eapply (DU k' po' l'); [exact L|exact OPF4|exact K|right; exact GI'|exact A|right; exact B].
    - intros [l'|e] k' (FD & R).
      + destruct R as (M & E & K & L & A & B & NF & ALT). apply wps_ret.
        * eapply HI; [exact E|reflexivity|]. eapply (DU k' po' l'); [exact L|exact OPF4|exact K|right; exact GI'|exact A|right; exact B].
        * split; [exact FD|]. exists M. split; [exact E|]. split; [exact K|]. split; [exact L|]. split; [exact A|]. split; [exact B|].
          intros f H. split; [apply (NF f H)|]. destruct ALT as [->|ALT]; [destruct (FDS f (LFD l0 eq_refl f H)) as (_ & _ & X & _); exact X|]. specialize (ALT f H). lia.
      + destruct R as (E & O & FL & FT). apply wps_ret.
        * eapply HI; [exact E|reflexivity|]. eapply (DU k' po l0); [|rewrite O34; exact B2|apply keeps_all, O|left; exact B1|reflexivity|left; reflexivity].
          eapply live_keep; [exact LIVE4| |intros q f x y _ _; apply O]. intros f H. unfold desc_of. rewrite (FL f H). reflexivity.
        * split; [exact FD|]. auto. }
  intros rl k5 (FD5 & R5).
  assert (D45 : forall f d, desc_of k4 p f = Some d -> ~ In f (map snd (lpins (h_link ho))) -> desc_of k5 p f = Some d).
  { intros f d H NI. unfold desc_of. rewrite FD5; [exact H| |exact NI]. eapply desc_lt; [exact S4|exact H]. }
  assert (CF5 : desc_of k5 p cf = Some (D_dir i L_WRITE)).
  { apply D45; [apply D24, CF2|]. intros H. destruct (h_link ho) as [l0|]; [|destruct H]. destruct (FDS cf (LFD l0 eq_refl cf H)) as (_ & X & _). congruence. }
  assert (PD5 : desc_of k5 p pd = Some (D_pindir L_READ)).
  { apply D45; [apply D24, PD2|]. intros H. destruct (h_link ho) as [l0|]; [|destruct H]. destruct (FDS pd (LFD l0 eq_refl pd H)) as (_ & _ & X & _). congruence. }
  destruct rl as [ol|e].
  2:{ (* the link could not be switched: the old pins come back *)
      destruct R5 as (E05 & O45 & FL & FT). pose proof (ev_sane _ _ _ _ _ _ _ E05) as S5. destruct (ev_view _ _ _ _ _ _ _ E05 i D4 eq_refl) as [LI5 V5].
      assert (D45' : forall f d, desc_of k4 p f = Some d -> desc_of k5 p f = Some d).
      { intros f d H. destruct (in_dec N.eq_dec f (map snd (lpins (h_link ho)))) as [X|X]; [|apply D45; assumption]. unfold desc_of. rewrite (FL f X). exact H. }
      assert (O15 : forall o x, k_objs k1 o = Some x -> k_objs k5 o = Some x) by (intros o x H; apply O45; rewrite O34; apply O13, H).
      assert (D15 : forall f d, desc_of k1 p f = Some d -> desc_of k5 p f = Some d).
      { intros f d H. apply D45', D24. eapply grow_desc; [exact G2|exact S1|exact H]. }
      assert (EW5 : forall D k', dwr i D k5 k' -> evo p (k_ents k0) (Some (i, D)) [] (hfds hn ++ hfds ho ++ [cf; pd; b]) k0 k').
      { intros D k' W. eapply evo_incl; [eapply evo_dwr; [exact E05|reflexivity|exact LI5|exact W]|]. intros f. unfold SS. rewrite !in_app_iff, (hfds_link ho f). tauto. }
      apply wps_bind. apply (spared_fewer F p I _ _ _ SP (tame_pin _ _)).
      eapply wps_post with (I := I); [auto| |apply (handle_pin_ok no_fault p I cf i L_WRITE ho k5 S5 CF5)]; cycle 1.
      { intros q f H. destruct (OPN1 q f H) as (ob & Z). exists ob. apply D15, Z. }
      { exact (oc_prog _ _ _ _ _ _ _ _ _ _ _ _ _ _ OC). }
      { exact HOK. }
      { intros D k' W _. eapply HI; [apply EW5, W|reflexivity|]. intros hk o HLD. destruct (HLO hk o HLD) as (l0 & L1 & L2 & L3). destruct (LIVE3 l0 L1) as (_ & po & img & ss & cm & B1 & B2 & B3).
        eapply duty_fd with (po := po) (l := l0); [|rewrite (dw_objs _ _ _ _ W); apply O45; rewrite O34; exact B2|left; exact B1|exact L2|left; exact L3].
        eapply live_keep; [exact B3| |intros q f x y _ _ Z; rewrite (dw_objs _ _ _ _ W); apply O45; rewrite O34; exact Z].
        intros f H. rewrite (dwr_desc _ _ _ _ _ _ W), <- (dwr_desc _ _ _ _ _ _ W4). unfold desc_of. rewrite FL; [reflexivity|]. rewrite L1. exact H. }
      intros rp k6 (D6 & W6 & OF6 & R6). destruct rp as [u|e'].
      2:{ exfalso. destruct R6 as (_ & [X|[(q & X & Y)|X]]).
          - exact (no_fault_not X).
          - apply Y. rewrite V5. apply ONLY. apply (hok_names _ _ HOK X).
          - exact (good_hmaps _ _ _ _ GD X ND). }
      destruct R6 as (PA & OTH).
      apply (GIVEUP (Some (i, D6)) k6 e); [apply EW5, W6|reflexivity| | |left; exact FT].
      - intros q. rewrite (dw_view _ _ _ _ W6). destruct (in_dec pname_dec q (map fst (hpins ho))) as [H|H].
        + apply in_map_iff in H. destruct H as ([q' f] & EQ & H). cbn in EQ. subst q'.
          destruct (oc_got _ _ _ _ _ _ _ _ _ _ _ _ _ _ OC q f H) as (_ & _ & _ & (_ & ob & GV & GDs)). rewrite GV. eapply PA; [exact H|apply D15, GDs].
        + rewrite (OTH q H), V5. destruct (pname_dec q P_ctx) as [->|NQ]; [exact CTX4|]. rewrite (ONLY q NQ).
          destruct (in_dec pname_dec q (hnames ho)) as [X|X]; [|rewrite <- (ONLY q NQ), OF4 by exact X; apply V3].
          unfold hnames in X. rewrite !in_app_iff in X. destruct X as [X|[X|X]].
          * exfalso. apply H. unfold hpins. rewrite !map_app, !in_app_iff. auto.
          * destruct (h_link ho) as [l0|] eqn:HL; [|destruct X]. destruct X as [<-|[<-|[]]].
            -- exfalso. apply H. unfold hpins. rewrite !map_app, !in_app_iff, HL, lpins_fst. right. right. left. reflexivity.
            -- pose proof (oc_extra _ _ _ _ _ _ _ _ _ _ _ _ _ _ OC) as X. fold ho in X. rewrite HL in X. cbn in X. destruct (l_extra l0) eqn:LX.
               ++ exfalso. apply H. unfold hpins. rewrite !map_app, !in_app_iff, HL, lpins_fst, LX. right. right. right. left. reflexivity.
               ++ destruct (X eq_refl) as [Y|Y]; [exfalso; exact (spared_extra _ SP Y)|symmetry; exact Y].
          * destruct X as [<-|[]]. exfalso. apply H. unfold hpins. pose proof (oc_prog _ _ _ _ _ _ _ _ _ _ _ _ _ _ OC) as Y. fold ho in Y.
            rewrite !map_app, !in_app_iff. left. destruct (h_prog ho); [left; reflexivity|congruence].
      - rewrite (dwr_desc _ _ _ _ _ _ W6). exact PD5. }
  (* the link runs the new program *)
  destruct R5 as (M5 & E05 & K45 & LK). pose proof (ev_sane _ _ _ _ _ _ _ E05) as S5. destruct (ev_view _ _ _ _ _ _ _ E05 i D4 eq_refl) as [LI5 V5].
  set (h' := set_link hn ol). set (old := set_link ho None).
  assert (DHN5 : forall q f o, In (q, f) (hpins hn) -> desc_of k2 p f = Some (D_obj o) -> desc_of k5 p f = Some (D_obj o)).
  { intros q f o H Z. apply D45; [apply D24, Z|]. intros X. assert (IF : In f (hfds hn)) by (unfold hfds; apply in_map_iff; exists (q, f); auto).
    pose proof (NEWF f IF). destruct (h_link ho) as [l0|]; [|destruct X]. pose proof (LT1 f (LFD l0 eq_refl f X)). lia. }
  assert (GHN5 : good k5 p (nc_chain c') hn).
  { unfold good in *. eapply complete_but; [| |exact GD2].
    - intros q o (f & X & Y). exists f. split; [exact X|]. eapply DHN5; eauto.
    - intros o x H. destruct (N.eq_dec o con) as [->|NE].
      + rewrite OCON in H. injection H as <-. destruct CMW as (f & _ & A & B). assert (desc_of k3 p f = Some (D_obj con)) by exact A. exists w.
        specialize (K45 con (O_counters (nr + 2) w)). rewrite O34 in K45. exact (K45 B).
      + assert (H4 : k_objs k4 o = Some x) by (rewrite O34, (cw_objs _ _ _ C3) by exact NE; exact H). specialize (K45 _ _ H4). destruct x; try exact K45.
        * exists v0. exact K45.
        * left. cbn. rewrite HNL. reflexivity. }
  assert (OL : forall l, ol = Some l -> exists l0, h_link ho = Some l0 /\ link_live k5 p po' l /\ l_hook l = c_hook (nc_chain c') /\ l_hook l = l_hook l0 /\ l_opts l = new_opts (l_hook l0) (l_opts l0) /\
     (forall f, In f (map snd (lpins (Some l))) -> k_next k0 <= f /\ f <> pd)).
  { intros l ->. destruct (h_link ho) as [l0|] eqn:HL; [|destruct LK]. destruct LK as (A & B & C & D). destruct (LIVE3 l0 eq_refl) as (X & _). exists l0. split; [reflexivity|]. split; [exact A|]. split; [congruence|]. auto. }
  assert (GH5 : good k5 p (nc_chain c') h').
  { unfold h'. destruct ol as [l|]; [|rewrite set_link_none by exact HNL; exact GHN5]. destruct (OL l eq_refl) as (l0 & _ & A & B & _).
    eapply live_good; [exact GHN5|exact HNL|exact HPF| |exact A|exact B]. eapply (DHN5 P_prog); [|exact DPF]. unfold hpins. rewrite HPF. left. reflexivity. }
  assert (HPN : h_prog h' <> None) by (unfold h'; destruct hn; cbn in *; congruence).
  assert (HOK' : hok h') by exact (good_hok _ _ _ _ GH5).
  assert (INH : forall q f, In (q, f) (hpins h') <-> In (q, f) (hpins hn) \/ In (q, f) (lpins ol)) by (intros q f; apply hpins_set_none, HNL).
  assert (OPN5 : opened k5 p (hpins h')).
  { intros q f H. apply INH in H. destruct H as [H|H].
    - destruct (HN2 q f H) as (o & x & _ & _ & Y & _). exists o. eapply DHN5; eauto.
    - destruct ol as [l|]; [|destruct H]. destruct (OL l eq_refl) as (l0 & _ & A & _). destruct A as [(lo & t & _ & A & _) B]. unfold lpins in H. destruct H as [H|H]; [injection H as <- <-; eauto|].
      apply in_opt_map in H. destruct H as (-> & LX). rewrite LX in B. destruct B as (B & _). exact B. }
  assert (HLE : hd_link (handle_desc h') = match hd_link hd with Some (hk, o) => Some (hk, new_opts hk o) | None => None end).
  { rewrite <- HD. cbn. fold ho. unfold h'. cbn. destruct ol as [l|].
    - destruct (OL l eq_refl) as (l0 & A & _ & _ & B & C & _). rewrite A, B, C. reflexivity.
    - destruct (h_link ho); [destruct LK|reflexivity]. }
  (* duty by the new link *)
  assert (DUTY5 : forall k', (forall f d, desc_of k5 p f = Some d -> desc_of k' p f = Some d) -> (forall o x, k_objs k5 o = Some x -> k_objs k' o = Some x) -> duty hd c c' k').
  { intros k' HDs HOs hk o HLD. destruct (HLO hk o HLD) as (l0 & L1 & L2 & L3). destruct ol as [l|]; [|rewrite L1 in LK; destruct LK].
    destruct (OL l eq_refl) as (l0' & A0 & A & _ & B & C & _). rewrite L1 in A0. injection A0 as <-.
    eapply duty_fd with (po := po') (l := l); [| |right; exact GI'|congruence|right; congruence].
    - eapply live_keep; [exact A| |intros q f x y _ _; apply HOs]. intros f H. apply in_map_iff in H. destruct H as ([q x] & <- & H). cbn.
      destruct (OPN5 q x) as (ob & Z); [apply INH; right; exact H|]. rewrite Z. apply HDs, Z.
    - apply HOs. exact (K45 _ _ OPF4). }
  assert (SSI : forall f, In f (map snd (lpins ol) ++ SS) <-> In f (hfds h' ++ hfds old ++ [cf; pd; b])).
  { intros f. unfold SS. rewrite !in_app_iff. assert (In f (hfds h') <-> In f (hfds hn) \/ In f (map snd (lpins ol))).
    { unfold hfds. rewrite !in_map_iff. split.
      - intros ([q x] & <- & X). apply INH in X. destruct X as [X|X]; [left|right]; exists (q, x); auto.
      - intros [([q x] & <- & X)|([q x] & <- & X)]; exists (q, x); (split; [reflexivity|]); apply INH; auto. }
    fold old. tauto. }
  assert (EW5 : forall D k', dwr i D k5 k' -> evo p (k_ents k0) (Some (i, D)) M5 (hfds h' ++ hfds old ++ [cf; pd; b]) k0 k').
  { intros D k' W. eapply evo_incl; [eapply evo_dwr; [exact E05|reflexivity|exact LI5|exact W]|]. intros f. apply SSI. }
  apply wps_bind. apply (spared_fewer F p I _ _ _ SP (tame_pin _ _)).
  eapply wps_post with (I := I); [auto| |apply (handle_pin_ok no_fault p I cf i L_WRITE h' k5 S5 CF5 OPN5 HPN HOK')]; cycle 1.
  { intros D k' W _. eapply HI; [apply EW5, W|reflexivity|]. apply DUTY5; [intros f d; rewrite (dwr_desc _ _ _ _ _ _ W); auto|rewrite (dw_objs _ _ _ _ W); auto]. }
  intros rp k6 (D6 & W6 & OF6 & R6). destruct rp as [u|e'].
  2:{ exfalso. destruct R6 as (_ & [X|[(q & X & Y)|X]]).
      - exact (no_fault_not X).
      - apply Y. rewrite V5. apply ONLY. apply (hok_names _ _ HOK' X).
      - exact (good_hmaps _ _ _ _ GH5 X ND'). }
  clear u. destruct R6 as (PA & OTH). pose proof (EW5 _ _ W6) as E06. pose proof (dw_sane _ _ _ _ W6) as S6.
  assert (V6 : forall q, dview k6 i q = D6 q) by apply (dw_view _ _ _ _ W6).
  assert (D56 : forall f, desc_of k6 p f = desc_of k5 p f) by (intros f; apply (dwr_desc _ _ _ _ _ _ W6)).
  assert (O56 : k_objs k6 = k_objs k5) by apply (dw_objs _ _ _ _ W6).
  assert (CF6 : desc_of k6 p cf = Some (D_dir i L_WRITE)) by (rewrite D56; exact CF5).
  assert (SEQ : forall E X M kx S D k', evo p E X M (hfds h' ++ hfds old ++ [cf; pd; b]) k0 kx -> E = k_ents k0 -> X = Some (i, D6) \/ (exists DX, X = Some (i, DX)) -> evo p (k_ents kx) (Some (i, D)) [] S kx k' -> evo p (k_ents k0) (Some (i, D)) M (S ++ hfds h' ++ hfds old ++ [cf; pd; b]) k0 k').
  { intros E X M kx S D k' E1 -> HX E2. assert (CO : compat X (Some (i, D))) by (destruct HX as [ -> | (DX & -> ) ]; reflexivity).
    pose proof (evo_trans _ _ _ _ _ _ _ _ _ _ _ _ E1 E2 CO) as T. cbn [join app] in T. rewrite (ev_ents _ _ _ _ _ _ _ E1) in T. exact T. }
  assert (PACK : exists t, chain_pack (g_chain g) = Ok t).
  { destruct HC as ((ox & t & _ & _ & X) & _). exists t. rewrite <- (same_chain_pack _ _ SC). exact X. }
  assert (DUTY6 : forall S D k', evo p (k_ents k6) (Some (i, D)) [] S k6 k' -> duty hd c c' k').
  { intros S D k' E. apply DUTY5.
    - intros f d H. eapply evo_desc; [exact E|exact S6|]. rewrite D56. exact H.
    - intros o x H. eapply evo_obj; [exact E|exact S6| |reflexivity]. rewrite O56. exact H. }
  apply wps_bind. apply (spared_fewer F p I _ _ _ SP (tame_persist _ _)).
  eapply wps_post with (I := I); [auto| |apply (persist_ok no_fault p I (mkCg (g_chain g) h') cf i L_WRITE k6 S6 CF6)]; cycle 1.
  { intros S D k' E _. eapply HI; [eapply SEQ; [exact E06|reflexivity|left; reflexivity|exact E]|reflexivity|eapply DUTY6, E]. }
  { intros S D k' E _ _. eapply HI; [eapply SEQ; [exact E06|reflexivity|left; reflexivity|exact E]|reflexivity|eapply DUTY6, E]. }
  intros r1 k7 (D7 & E67 & R7). cbn [g_chain g_handle] in R7. destruct r1 as [u|e'].
  2:{ exfalso. destruct R7 as (_ & _ & [X|X]); [exact (no_fault_not X)|]. destruct PACK as (t & PK). congruence. }
  clear u. destruct R7 as (OF7 & T7 & CA7). assert (E07 : evo p (k_ents k0) (Some (i, D7)) M5 (hfds h' ++ hfds old ++ [cf; pd; b]) k0 k7) by (eapply (SEQ _ _ _ k6 []); [exact E06|reflexivity|left; reflexivity|exact E67]).
  pose proof (ev_sane _ _ _ _ _ _ _ E67) as S7. destruct (ev_view _ _ _ _ _ _ _ E67 i D7 eq_refl) as [LI7 V7].
  assert (CF7 : desc_of k7 p cf = Some (D_dir i L_WRITE)) by (eapply evo_desc; [exact E67|exact S6|exact CF6]).
  assert (DUTY7 : forall S D k', evo p (k_ents k7) (Some (i, D)) [] S k7 k' -> duty hd c c' k').
  { intros S D k' E. apply DUTY5.
    - intros f d H. eapply evo_desc; [exact E|exact S7|]. eapply evo_desc; [exact E67|exact S6|]. rewrite D56. exact H.
    - intros o x H. eapply evo_obj; [exact E|exact S7| |reflexivity]. eapply evo_obj; [exact E67|exact S6| |reflexivity]. rewrite O56. exact H. }
  apply wps_bind. apply (spared_fewer F p I _ _ _ SP (tame_persist _ _)).
  eapply wps_post with (I := I); [auto| |apply (persist_ok no_fault p I (mkCg c' h') cf i L_WRITE k7 S7 CF7)]; cycle 1.
  { intros S D k' E _. eapply HI; [eapply SEQ; [exact E07|reflexivity|right; eexists; reflexivity|exact E]|reflexivity|eapply DUTY7, E]. }
  { intros S D k' E _ _. eapply HI; [eapply SEQ; [exact E07|reflexivity|right; eexists; reflexivity|exact E]|reflexivity|eapply DUTY7, E]. }
  intros r2 k8 (D8 & E78 & R8). cbn [g_chain g_handle] in R8. destruct r2 as [u|e'].
  2:{ exfalso. destruct R8 as (_ & _ & [X|X]); [exact (no_fault_not X)|]. congruence. }
  clear u. destruct R8 as (OF8 & T8 & CA8). assert (E08 : evo p (k_ents k0) (Some (i, D8)) M5 (hfds h' ++ hfds old ++ [cf; pd; b]) k0 k8) by (eapply (SEQ _ _ _ k7 []); [exact E07|reflexivity|right; eexists; reflexivity|exact E78]).
  pose proof (ev_sane _ _ _ _ _ _ _ E78) as S8. destruct (ev_view _ _ _ _ _ _ _ E78 i D8 eq_refl) as [LI8 V8].
  assert (D58 : forall f d, desc_of k5 p f = Some d -> desc_of k8 p f = Some d).
  { intros f d H. eapply evo_desc; [exact E78|exact S7|]. eapply evo_desc; [exact E67|exact S6|]. rewrite D56. exact H. }
  assert (O58 : forall o x, k_objs k5 o = Some x -> k_objs k8 o = Some x).
  { intros o x H. eapply evo_obj; [exact E78|exact S7| |reflexivity]. eapply evo_obj; [exact E67|exact S6| |reflexivity]. rewrite O56. exact H. }
  assert (D8Q : forall q, q <> P_ctx -> q <> P_ctx_tmp -> D8 q = D6 q).
  { intros q Q1 Q2. rewrite OF8 by (intros [Z|[Z|[]]]; congruence). rewrite V7. rewrite OF7 by (intros [Z|[Z|[]]]; congruence). apply V6. }
  assert (D8P : forall q f o, In (q, f) (hpins h') -> desc_of k5 p f = Some (D_obj o) -> D8 q = Some o).
  { intros q f o X Y. pose proof (hok_names _ _ HOK' (hpins_names _ _ _ X)) as [Q1 Q2]. rewrite (D8Q q Q1 Q2). eapply PA; [exact X|exact Y]. }
  assert (HOLDS : holds_chain k8 i c' (handle_desc h')).
  { destruct CA8 as (ox & t & X1 & X2 & X3). split.
    - exists ox, t. split; [unfold pin; fold (dview k8 i P_ctx); rewrite V8; exact X1|]. auto.
    - eapply complete_mono; [| |exact GH5].
      + intros q x (f & X & Y). unfold pin. fold (dview k8 i q). rewrite V8. eapply D8P; eauto.
      + intros q x y _. apply O58. }
  assert (TIDY : tidy k8 i).
  { destruct CA8 as (ox & t & X1 & X2 & X3). exists ox, t, (handle_desc h'). split; [unfold pin; fold (dview k8 i P_ctx); rewrite V8; exact X1|]. split; [exact X2|].
    intros q. unfold pin. fold (dview k8 i q). rewrite V8. intros NE. destruct (pname_dec q P_ctx) as [->|Q1]; [left; reflexivity|right].
    destruct (pname_dec q P_ctx_tmp) as [->|Q2]; [congruence|]. rewrite (D8Q q Q1 Q2) in NE.
    destruct (in_dec pname_dec q (hnames h')) as [X|X]; [apply hnames_desc, X|]. exfalso. apply NE. rewrite OF6 by exact X. rewrite V5. apply ONLY, Q1. }
  assert (COUNTS : counts_at k8 i nr w).
  { exists con. split.
    - unfold pin. fold (dview k8 i P_cmap). rewrite V8. eapply (D8P P_cmap cfd).
      + apply INH. left. unfold hpins, h_maps. rewrite HCM. rewrite !in_app_iff. right. left. left. left. reflexivity.
      + eapply (DHN5 P_cmap); [|exact DCON]. unfold hpins, h_maps. rewrite HCM. rewrite !in_app_iff. right. left. left. left. reflexivity.
    - apply O58. destruct CMW as (f & _ & _ & B). specialize (K45 con (O_counters (nr + 2) w)). rewrite O34 in K45. exact (K45 B). }
  (* the old program's descriptors *)
  assert (DUTY8 : forall k', k_dirs k' = k_dirs k8 -> k_objs k' = k_objs k8 -> duty hd c c' k').
  { intros k' DE OE hk o HLD. eapply (duty_pin k' i c' (handle_desc h')); [|rewrite HLE, HLD; reflexivity|right; reflexivity|right; reflexivity].
    eapply holds_frame; [exact HOLDS| |]; [intros q; unfold dview; rewrite DE; reflexivity|]. intros q x y _. rewrite OE. auto. }
  assert (OLDF : forall f, In f (hfds old) -> In f (hfds ho)) by (intros f H; apply hfds_link; right; exact H).
  assert (HF' : forall f, In f (hfds h') -> k_next k0 <= f /\ f <> pd).
  { intros f H. unfold hfds in H. apply in_map_iff in H. destruct H as ([q x] & <- & H). cbn. apply INH in H. destruct H as [H|H].
    - assert (IF : In x (hfds hn)) by (unfold hfds; apply in_map_iff; exists (q, x); auto). pose proof (NEWF x IF). split; lia.
    - destruct ol as [l|]; [|destruct H]. destruct (OL l eq_refl) as (l0 & _ & _ & _ & _ & _ & X). apply X. apply in_map_iff. exists (q, x). auto. }
  apply wps_bind. eapply wps_post with (I := I); [auto| |eapply (closes_handle p old F I k0 _ _ _ _ (hfds h' ++ [cf; pd; b]) k8 E08 S0)].
  - intros [] k9 (C9 & E09 & FD9). apply wps_ret; [eapply HI; [exact E09|reflexivity|apply DUTY8; [apply (cl_dirs _ _ C9)|apply (cl_objs _ _ C9)]]|].
    eapply leaves_kept; [exact EN|cbn [fst g_handle]; exact E09| | | | |].
    + apply find_desc_of. rewrite FD9; [apply desc_of_find, D58, PD5|]. intros H. destruct (FDS pd (OLDF pd H)) as (_ & _ & X & _). congruence.
    + cbn [fst g_handle]. exact HF'.
    + exists P_ctx. unfold dview. rewrite (cl_dirs _ _ C9). fold (dview k8 i P_ctx). rewrite V8. destruct CA8 as (x & t & X & _). congruence.
    + intros Z k' C E. eapply HI; [exact E|reflexivity|apply DUTY8; [rewrite (ce_dirs _ _ _ C); apply (cl_dirs _ _ C9)|rewrite (ce_objs _ _ _ C); apply (cl_objs _ _ C9)]].
    + intros k' C E. cbn [snd]. assert (DE : k_dirs k' = k_dirs k8) by (rewrite (ce_dirs _ _ _ C); apply (cl_dirs _ _ C9)). assert (OE : k_objs k' = k_objs k8) by (rewrite (ce_objs _ _ _ C); apply (cl_objs _ _ C9)).
      apply HQ. constructor.
      * exists D8, M5. exact E.
      * exists (handle_desc h'). split; [|exact HLE]. eapply holds_frame; [exact HOLDS| |]; [intros q; unfold dview; rewrite DE; reflexivity|]. intros q x y _. rewrite OE. auto.
      * destruct TIDY as (ox & t & hx & A & B & TT). exists ox, t, hx. unfold pin in *. rewrite DE, OE. auto.
      * exists w. split; [destruct COUNTS as (ox & A & B); exists ox; unfold pin in *; rewrite DE, OE; auto|]. unfold moved in MV. fold nr. destruct keep; [|exact MV]. destruct MV as (A & B). exists v. split; [exists oo; auto|auto].
  - intros f H. destruct (FDS f (OLDF f H)) as (A & _). exact A.
  - intros x. rewrite !in_app_iff. tauto.
  - intros Z k' C E. eapply HI; [exact E|reflexivity|apply DUTY8; [apply (cl_dirs _ _ C)|apply (cl_objs _ _ C)]].
Qed.

(** ** The frame of both updates *)
Lemma opened_given F p mm k0 n pm cm b pd cf i hd g k1 i' c hd' : sane k0 -> opened_chain F p mm k0 n pm cm b pd cf i hd g k1 ->
  ent_find n (k_ents k0) = Some i' -> holds_chain k0 i' c hd' -> chain_built c -> storable c ->
  i = i' /\ hd = hd' /\ same_chain c (g_chain g) /\ hok (g_handle g) /\ (half_link F (g_handle g) \/ good k1 p (nc_chain c) (g_handle g)).
Proof.
  intros S0 OC EN H B S. pose proof (oc_ent _ _ _ _ _ _ _ _ _ _ _ _ _ _ OC) as EN'. assert (i = i') by congruence. subst i'. split; [reflexivity|].
  destruct (oc_ctx _ _ _ _ _ _ _ _ _ _ _ _ _ _ OC) as (o & t & V & X & U). pose proof H as ((o' & t' & A & C & P) & _).
  unfold pin in A. unfold dview in V. assert (o' = o) by congruence. subst o'. rewrite X in C. injection C as <- <-. split; [reflexivity|]. split; [|split].
  - destruct (chain_round_trip (m_nd mm) (m_tb mm) c B S) as [(c' & E & SC)|E]; unfold chain_copy in E; rewrite P in E; cbn [bind] in E; rewrite U in E; [|discriminate E].
    injection E as <-. exact SC.
  - apply sets_hok. rewrite (oc_hd _ _ _ _ _ _ _ _ _ _ _ _ _ _ OC). intros q. eapply holds_sets; exact H.
  - eapply restored_good; [exact S0|exact H|apply (oc_grow _ _ _ _ _ _ _ _ _ _ _ _ _ _ OC)| |apply (oc_hd _ _ _ _ _ _ _ _ _ _ _ _ _ _ OC)|apply (oc_prog _ _ _ _ _ _ _ _ _ _ _ _ _ _ OC)|apply (oc_extra _ _ _ _ _ _ _ _ _ _ _ _ _ _ OC)].
    intros q f Y. apply (oc_got _ _ _ _ _ _ _ _ _ _ _ _ _ _ OC q f Y).
Qed.

Lemma upd_frame {A} F p (I : kst -> Prop) mm n k0 i c hd (body : lock -> fd -> cgen -> prog (cgen * res A)) (Q : res A -> kst -> Prop) :
  sane k0 -> spared F -> ent_find n (k_ents k0) = Some i -> holds_chain k0 i c hd -> chain_built c -> storable c ->
  (forall S k', grow p S k0 k' -> I k') ->
  (forall e k', grow p [] k0 k' -> unopened F mm k0 n L_READ L_WRITE e -> Q (Er e) k') ->
  (forall b pd cf g k1, opened_chain F p mm k0 n L_READ L_WRITE b pd cf i hd g k1 -> same_chain c (g_chain g) -> hok (g_handle g) -> good k1 p (nc_chain c) (g_handle g) ->
     wps F p I (body (mkLk (Some b) (Some pd) L_READ (Some (cf, n, L_WRITE))) cf g) (leaves p I Q k0 n L_READ L_WRITE b pd cf) k1) ->
  wps F p I (with_chain mm n L_READ L_WRITE body) Q k0.
Proof.
  intros S0 SP EN HC CB CS HG HE HB.
  assert (CTX0 : dview k0 i P_ctx <> None) by (destruct HC as ((o' & t & A0 & _) & _); unfold pin in A0; unfold dview; congruence).
  assert (TR : trim k0 L_WRITE n = k_ents k0) by (destruct (trim_write k0 n i EN) as [(_ & X)|(X & _)]; [congruence|exact X]).
  apply with_chain_ok; [exact S0|exact HG|intros S k' E; rewrite TR in E; eapply HG; exact E| |].
  - intros e k' [E|E] U; [|rewrite TR in E]; apply HE; assumption.
  - intros b pd cf j hd0 g k1 OC. destruct (opened_given _ _ _ _ _ _ _ _ _ _ _ _ _ _ _ _ _ S0 OC EN HC CB CS) as (-> & -> & SC & HOK & GD).
    apply HB; [exact OC|exact SC|exact HOK|]. destruct GD as [(X & _)|X]; [|exact X]. exfalso. exact (spared_extra _ SP X).
Qed.

Lemma duty_hold p k0 i c hd c' S k' : sane k0 -> holds_chain k0 i c hd -> i < k_next k0 -> grow p S k0 k' -> duty hd c c' k'.
Proof.
  intros S0 HC LI E hk o HL. eapply duty_pin; [|exact HL|left; reflexivity|left; reflexivity].
  eapply holds_frame; [exact HC| |]; [intros q; apply (dview_grow _ _ _ _ _ _ E LI)|]. intros q x v _ Y. eapply grow_obj; [exact E|exact S0|exact Y].
Qed.

(** Why bf_chain_update fails. *)
Definition update_refused (F : call -> bool) (m1 m2 : mem) (k0 : kst) (c c' : nchain) (e : N) : Prop :=
  unopened F m1 k0 (nc_name c') L_READ L_WRITE e \/ chain_copy (m_nd m2) (m_tb m2) c' = Er e \/ not_updated F false c c' e.

Lemma duty_same hd c a b k : nc_chain a = nc_chain b -> duty hd c a k -> duty hd c b k.
Proof. intros E H hk o HL. rewrite <- E. exact (H hk o HL). Qed.
Lemma updated_same p k0 i hd c a b keep k : same_chain b a -> updated p k0 i hd c a keep k -> updated p k0 i hd c b keep k.
Proof.
  intros SC [U1 (hd' & H1 & H2) U3 U4]. constructor; [exact U1| |exact U3|].
  - exists hd'. split; [eapply holds_same; [exact SC|exact H1]|exact H2].
  - destruct SC as (_ & _ & E). rewrite E. exact U4.
Qed.

Lemma chain_update_ok F p (I : kst -> Prop) m1 m2 c' k0 i c hd : sane k0 -> spared F -> ent_find (nc_name c') (k_ents k0) = Some i ->
  holds_chain k0 i c hd -> chain_built c -> storable c -> chain_built c' -> storable c' ->
  tidy k0 i -> c_hook (nc_chain c') = c_hook (nc_chain c) -> NoDup (set_names (nc_chain c)) -> NoDup (set_names (nc_chain c')) ->
  (forall X M S k', evo p (k_ents k0) X M S k0 k' -> xok X i -> duty hd c c' k' -> I k') ->
  wps F p I (chain_update m1 m2 c') (fun r k' =>
    match r with
    | Ok _ => updated p k0 i hd c c' false k'
    | Er e => evo p (k_ents k0) (Some (i, dview k0 i)) [] [] k0 k' /\ update_refused F m1 m2 k0 c c' e
    end) k0.
Proof.
  intros S0 SP EN HC CB CS CB' CS' TD HK ND ND' HI. pose proof (sane_ent _ S0 _ _ EN) as LI.
  assert (HG : forall S k', grow p S k0 k' -> I k') by (intros S k' E; eapply HI; [exact E|exact Logic.I|eapply duty_hold; eauto]).
  unfold chain_update. eapply upd_frame; [exact S0|exact SP|exact EN|exact HC|exact CB|exact CS|exact HG| |].
  { intros e k' E U. split; [apply evo_none; [exact E|exact LI]|left; exact U]. }
  intros b pd cf g k1 OC SC HOK GD. pose proof (oc_grow _ _ _ _ _ _ _ _ _ _ _ _ _ _ OC) as G1.
  apply wps_copy; [exact CB'|exact CS'|eapply HG, G1| |].
  2:{ intros e W. apply wps_ret; [eapply HG, G1|]. eapply cle_refl_leave; [exact OC|exact S0| |exact HG|].
      - right. exists P_ctx. destruct HC as ((o' & t & A0 & _) & _); unfold pin in A0; unfold dview; congruence.
      - intros k' E. split; [apply evo_none; [exact E|exact LI]|]. destruct W as [W|W]; [left; left; exact W|right; left; exact W]. }
  intros c2 _ SC2. destruct SC2 as (N2 & U2 & E2). pose proof (conj N2 (conj U2 E2)) as SC2. fold (same_chain c' c2) in SC2.
  destruct (chain_pack_tree c' CB' CS') as (t' & ls & P & _).
  eapply cgen_update_ok with (c := c); [exact S0|exact SP|exact OC|exact HC|exact SC|exact HOK|exact GD|exact TD| | |exact ND| | | |].
  - rewrite <- E2. exact HK.
  - exists t'. rewrite <- (same_chain_pack _ _ SC2). exact P.
  - rewrite <- E2. exact ND'.
  - intros X M S k' E XO D. eapply HI; [exact E|exact XO|]. eapply duty_same; [|exact D]. symmetry. exact E2.
  - intros e k' E W. split; [exact E|]. right. right. unfold not_updated in *. rewrite E2. exact W.
  - intros k' U. eapply updated_same; [exact SC2|exact U].
Qed.
