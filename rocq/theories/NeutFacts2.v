(** [neut] for the loader, the cgen functions and the bodies of the API calls. *)
From Coq Require Import NArith ZArith List Bool Lia.
From Verif Require Import Bytes Types World BpfModel GenModel BytesFacts StrModel SetModel MapModel PackModel HookModel KernModel LockModel CtlModel SysSpec SysFacts RelyFacts LockFacts LockFacts2 NeutFacts.
Import ListNotations.
Local Open Scope N_scope.

Definition hres2 {A} (r : handle * A) (T : fd -> Prop) : Prop := hokr T (fst r).
Definition cres2 {A} (r : cgen * A) (T : fd -> Prop) : Prop := hokr T (g_handle (fst r)).
Definition cres (r : res cgen) (T : fd -> Prop) : Prop := forall g, r = Ok g -> hokr T (g_handle g).

Lemma hokr_new S : hokr S handle_new.
Proof. constructor; cbn; try discriminate. intros q f []. Qed.

Lemma neut_load_sets d wr sets : forall gs i S h, hokr S h -> neut d wr S (load_sets sets i gs h) hres2.
Proof.
  induction gs as [|g gs IH]; intros i S h H; cbn [load_sets].
  - exact H.
  - apply neut_alloc. intros [[]|e] T HT; [|exact (hokr_mono _ _ _ HT H)].
    eapply neut_seq; [apply neut_sys_fd; exact Logic.I|]. intros [f|e] U HU X.
    2:{ cbn [neut]. eapply hokr_mono; [|exact H]. auto. }
    specialize (X f eq_refl).
    eapply neut_seq with (P := anyq); [nt|]. intros [[]|e] V HV _.
    2:{ cbn [sys_ pbind neut ok_call]. split; [auto|]. intros r. unfold hres2. cbn [fst].
        eapply hokr_mono; [|exact H]. intros y Y. left. auto. }
    apply neut_alloc. intros [[]|e] W HW.
    2:{ cbn [sys_ pbind neut ok_call]. split; [auto|]. intros r. unfold hres2. cbn [fst].
        eapply hokr_mono; [|exact H]. intros y Y. left. auto. }
    apply IH. assert (HS : forall y, S y -> W y) by auto.
    destruct (hokr_mono _ _ _ HS H) as [A1 A2 A3 A4 A5 A6 A7].
    constructor; cbn [h_prog h_link h_cmap h_pmap h_lmap h_smap h_sets]; auto.
    intros q y Y. apply in_app_or in Y. destruct Y as [Y|[Y|[]]]; [eauto|]. injection Y as _ <-. auto.
Qed.

Lemma neut_opt_map d wr S (b : bool) o :
  neut d wr S (if b then pbind (sys_fd (C_map_create o)) (fun r => match r with Er e => Ret (Er e) | Ok f => Ret (Ok (Some f)) end) else Ret (Ok None))
    (fun r T => forall f, r = Ok (Some f) -> T f).
Proof.
  destruct b; [|cbn [neut]; discriminate].
  eapply neut_seq; [apply neut_sys_fd; exact Logic.I|]. intros [f|e] U HU X; cbn [neut]; intros g G; [|discriminate G].
  injection G as <-. apply X; reflexivity.
Qed.

Ltac hk := constructor; cbn [h_prog h_link h_cmap h_pmap h_lmap h_smap h_sets]; eauto.

Lemma neut_program_load d wr S c img h : hokr S h -> neut d wr S (program_load c img h) hres2.
Proof.
  intros H. unfold program_load. eapply neut_seq; [apply neut_load_sets; exact H|].
  intros [h1 [[]|e]] T1 HT1 P1; unfold hres2 in P1; cbn [fst] in P1; [|exact P1]. clear H HT1.
  eapply neut_seq; [apply neut_sys_fd; exact Logic.I|]. intros [cm|e] T2 HT2 P2.
  2:{ cbn [neut]. unfold hres2. cbn [fst]. eapply hokr_mono; eauto. }
  specialize (P2 cm eq_refl).
  set (h2 := mkH _ _ _ _ _ _ _).
  assert (H2 : hokr T2 h2).
  { destruct (hokr_mono _ _ _ HT2 P1) as [A1 A2 A3 A4 A5 A6 A7]. subst h2. hk. intros f X. injection X as <-. exact P2. }
  clearbody h2. clear P1.
  apply neut_alloc. intros [[]|e] T3 HT3; [|exact (hokr_mono _ _ _ HT3 H2)].
  eapply neut_seq; [apply neut_sys_fd; exact Logic.I|]. intros [pm|e] T4 HT4 P4.
  2:{ cbn [neut]. unfold hres2. cbn [fst]. eapply hokr_mono; [|exact H2]. auto. }
  specialize (P4 pm eq_refl).
  set (h4 := mkH _ _ _ _ _ _ _).
  assert (H4 : hokr T4 h4).
  { assert (HS : forall y, T2 y -> T4 y) by auto. destruct (hokr_mono _ _ _ HS H2) as [A1 A2 A3 A4 A5 A6 A7]. subst h4. hk.
    intros f X. injection X as <-. exact P4. }
  assert (C4 : T4 cm) by auto.
  clearbody h4. clear H2.
  eapply neut_seq with (P := anyq); [nt|]. intros [[]|e] T5 HT5 _; [|exact (hokr_mono _ _ _ HT5 H4)].
  eapply neut_seq; [apply neut_opt_map|]. intros [lm|e] T6 HT6 P6.
  2:{ cbn [neut]. unfold hres2. cbn [fst]. eapply hokr_mono; [|exact H4]. auto. }
  set (h6 := mkH _ _ _ _ _ _ _).
  assert (H6 : hokr T6 h6).
  { assert (HS : forall y, T4 y -> T6 y) by auto. destruct (hokr_mono _ _ _ HS H4) as [A1 A2 A3 A4 A5 A6 A7]. subst h6. hk.
    intros f ->. apply P6; reflexivity. }
  clearbody h6. clear H4.
  eapply neut_seq; [apply neut_opt_map|]. intros [sm|e] T7 HT7 P7.
  2:{ cbn [neut]. unfold hres2. cbn [fst]. eapply hokr_mono; [|exact H6]. auto. }
  set (h7 := mkH _ _ _ _ _ _ _).
  assert (H7 : hokr T7 h7).
  { destruct (hokr_mono _ _ _ HT7 H6) as [A1 A2 A3 A4 A5 A6 A7]. subst h7. hk. intros f ->. apply P7; reflexivity. }
  clearbody h7. clear H6.
  eapply neut_seq; [apply neut_sys_fd; exact Logic.I|]. intros [pf|e] T8 HT8 P8.
  2:{ cbn [neut]. unfold hres2. cbn [fst]. eapply hokr_mono; [|exact H7]. auto. }
  cbn [neut]. unfold hres2. cbn [fst]. destruct (hokr_mono _ _ _ HT8 H7) as [A1 A2 A3 A4 A5 A6 A7]. hk.
  intros f X. injection X as <-. apply P8; reflexivity.
Qed.

Lemma neut_build_program d wr S c h : hokr S h -> neut d wr S (build_program c h) hres2.
Proof.
  intros H. unfold build_program. apply neut_alloc. intros [[]|e] T HT; [|exact (hokr_mono _ _ _ HT H)].
  destruct (gen_program (nc_chain c)) as [img|e]; [|exact (hokr_mono _ _ _ HT H)].
  apply neut_program_load. exact (hokr_mono _ _ _ HT H).
Qed.

Lemma neut_persist d wr S g x : d = Some x -> wr = true -> neut d wr S (persist g x) anyq.
Proof.
  intros -> ->. unfold persist. apply neut_alloc. intros [[]|e] T HT; [|exact Logic.I].
  destruct (chain_pack (g_chain g)) as [t|e]; [|exact Logic.I].
  eapply neut_seq; [apply neut_sys_fd; exact Logic.I|]. intros [mf|e] U HU X; [|exact Logic.I].
  specialize (X mf eq_refl).
  eapply neut_seq with (P := anyq); [nt|]. intros [[]|e] V HV _; [|nt; auto].
  cbn [sys_ pbind neut ok_call]. split; [split; reflexivity|]. intros r.
  eapply neut_seq with (P := anyq); [nt|]. intros [[]|e] W HW _; [|nt; apply HW; left; auto].
  eapply neut_seq with (P := anyq); [nt|]. intros [[]|e] Y HY _.
  - nt. apply HY, HW. left. auto.
  - nt. left. apply HY, HW. left. auto.
Qed.

Lemma neut_cgen_restore d wr S mm x : d = Some x -> neut d wr S (cgen_restore mm x) cres.
Proof.
  intros E. unfold cgen_restore.
  eapply neut_seq; [apply neut_sys_fd; [exact E|exact Logic.I]|]. intros [mf|e] T HT P; [|cbn [neut]; intros g X; discriminate X].
  specialize (P mf eq_refl).
  assert (CL : forall (U : fd -> Prop) e, U mf -> neut d wr U (pbind (sys_ (C_close mf)) (fun _ => Ret (Er e))) cres).
  { intros U e HU. cbn [sys_ pbind neut ok_call]. split; [exact HU|]. intros r g X. discriminate X. }
  cbn [neut ok_call]. split; [exact Logic.I|]. intros r.
  destruct r as [| | | | | | |[t hd]| |]; try (apply CL; left; exact P).
  apply neut_alloc. intros [[]|e] U HU; [|apply CL; apply HU; left; exact P].
  destruct (chain_unpack (m_nd mm) (m_tb mm) t) as [c|e]; [|apply CL; apply HU; left; exact P].
  eapply neut_seq; [apply neut_handle_restore; exact E|]. intros r V HV X.
  cbn [sys_ pbind neut ok_call]. split; [apply HV, HU; left; exact P|]. intros r'.
  destruct r as [h|e]; cbn [neut]; intros g G; [|discriminate G]. injection G as <-. cbn [g_handle].
  eapply hokr_mono; [|apply X; reflexivity]. intros y Y. left. exact Y.
Qed.

Lemma neut_cgen_free d wr S g : hokr S (g_handle g) -> neut d wr S (cgen_free g) anyq.
Proof. apply neut_handle_free. Qed.

Lemma neut_get_counter d wr S h i : neut d wr S (handle_get_counter h i) anyq.
Proof. unfold handle_get_counter. destruct (h_cmap h); nt. Qed.
Lemma neut_set_counter d wr S h i v : neut d wr S (handle_set_counter h i v) anyq.
Proof. unfold handle_set_counter. destruct (h_cmap h); nt. Qed.
Lemma neut_cgen_counter d wr S g i : neut d wr S (cgen_get_counter g i) anyq.
Proof. unfold cgen_get_counter. destruct (counter_slot g i); [apply neut_get_counter|exact Logic.I]. Qed.
Lemma neut_rule_counters d wr g : forall l S, neut d wr S (load_rule_counters g l) anyq.
Proof.
  induction l as [|r l IH]; intros S; cbn [load_rule_counters]; [exact Logic.I|].
  eapply neut_seq with (P := anyq).
  - destruct (r_counters r); [|exact Logic.I]. eapply neut_seq; [apply neut_cgen_counter|]. intros [v|e] T _ _; exact Logic.I.
  - intros [v|e] T _ _; [|exact Logic.I]. eapply neut_seq; [apply IH|]. intros [vs|e] U _ _; exact Logic.I.
Qed.
Lemma neut_load_counters d wr S g : neut d wr S (load_counters g) anyq.
Proof.
  unfold load_counters. eapply neut_seq; [apply neut_rule_counters|]. intros [vs|e] T _ _; [|exact Logic.I].
  eapply neut_seq; [apply neut_cgen_counter|]. intros [v|e] U _ _; [|exact Logic.I].
  eapply neut_seq; [apply neut_cgen_counter|]. intros [w|e] V _ _; exact Logic.I.
Qed.

Lemma hokr_set_link S h l : hokr S h -> (forall x, l = Some x -> lok S x) -> hokr S (set_link h l).
Proof. intros [A1 A2 A3 A4 A5 A6 A7] L. unfold set_link. hk. Qed.

Lemma neut_handle_attach d wr S h hk o : hokr S h -> neut d wr S (handle_attach h hk o) hres.
Proof.
  intros H. unfold handle_attach. destruct (h_link h); [cbn [neut]; intros h' X; discriminate X|].
  destruct (h_prog h) as [pf|]; [|cbn [neut]; intros h' X; discriminate X].
  eapply neut_seq; [apply neut_link_new|]. intros [l|e] T HT P; cbn [neut]; intros h' X; [|discriminate X].
  injection X as <-. apply hokr_set_link; [exact (hokr_mono _ _ _ HT H)|]. intros x ->. apply P; reflexivity.
Qed.

Lemma neut_cgen_set d wr S g o x : d = Some x -> wr = true -> hokr S (g_handle g) -> neut d wr S (cgen_set g o x) cres2.
Proof.
  intros E W H. unfold cgen_set. eapply neut_seq; [apply neut_build_program; exact H|].
  intros [h [[]|e]] T HT P; unfold hres2 in P; cbn [fst] in P; [|exact P].
  eapply neut_seq with (P := hres).
  { destruct o as [o|]; [apply neut_handle_attach; exact P|]. cbn [neut]. intros h' X. injection X as <-. exact P. }
  intros [h'|e] U HU P2; [|exact (hokr_mono _ _ _ HU P)]. specialize (P2 h' eq_refl).
  eapply neut_seq; [apply neut_handle_pin; assumption|]. intros [[]|e] V HV _; [|exact (hokr_mono _ _ _ HV P2)].
  eapply neut_seq; [apply neut_persist; assumption|]. intros [[]|e] Y HY _.
  - cbn [neut]. unfold cres2. cbn [fst g_handle]. eapply hokr_mono; [|exact P2]. auto.
  - eapply neut_seq; [apply neut_handle_unpin; assumption|]. intros [] Z HZ _.
    cbn [neut]. unfold cres2. cbn [fst g_handle]. eapply hokr_mono; [|exact P2]. auto.
Qed.

Lemma neut_handle_detach d wr S h : hokr S h -> neut d wr S (handle_detach h) anyq.
Proof.
  intros H. unfold handle_detach. destruct (h_link h) as [l|] eqn:E; [|exact Logic.I].
  destruct (ho_link _ _ H l E) as [A B].
  cbn [sys_ pbind neut ok_call]. split; [exact Logic.I|]. intros r.
  assert (F : forall T : fd -> Prop, (forall y, S y -> T y) -> neut d wr T (link_free (Some l)) anyq).
  { intros T HT. apply neut_link_free. intros l' X. injection X as <-. split; auto. }
  destruct (l_extra l); cbn [pbind sys_ neut ok_call].
  - split; [exact Logic.I|]. intros r2. apply F. intros y Y. left. left. exact Y.
  - apply F. intros y Y. left. exact Y.
Qed.

Lemma neut_handle_unload d wr S h : hokr S h -> neut d wr S (handle_unload h) anyq.
Proof.
  intros H. unfold handle_unload. eapply neut_seq; [apply neut_close_opt; apply (ho_prog _ _ H)|]. intros [] T HT _.
  eapply neut_seq; [apply neut_handle_detach; exact (hokr_mono _ _ _ HT H)|]. intros [] U HU _.
  apply neut_close_all. apply hokr_maps. eapply hokr_mono; [|exact H]. auto.
Qed.

Lemma neut_cgen_unload d wr S g x : d = Some x -> wr = true -> hokr S (g_handle g) -> neut d wr S (cgen_unload g x) anyq.
Proof.
  intros E W H. unfold cgen_unload. cbn [sys_ pbind neut ok_call]. split; [split; assumption|]. intros r.
  eapply neut_seq; [apply neut_handle_unpin; assumption|]. intros [] T HT _.
  apply neut_handle_unload. eapply hokr_mono; [|exact H]. intros y Y. apply HT. left. exact Y.
Qed.

Lemma neut_cgen_attach d wr S g o x : d = Some x -> wr = true -> hokr S (g_handle g) -> neut d wr S (cgen_attach g o x) cres2.
Proof.
  intros E W H. unfold cgen_attach. eapply neut_seq; [apply neut_handle_attach; exact H|].
  intros [h|e] T HT P; [|exact (hokr_mono _ _ _ HT H)]. specialize (P h eq_refl).
  destruct (h_link h) as [l|] eqn:El; [|exact P].
  assert (DN : forall U : fd -> Prop, (forall y, T y -> U y) -> hokr U (set_link h None)).
  { intros U HU. apply hokr_set_link; [exact (hokr_mono _ _ _ HU P)|discriminate]. }
  eapply neut_seq; [apply neut_link_pin; assumption|]. intros [[]|e] U HU _.
  - eapply neut_seq; [apply neut_persist; assumption|]. intros [[]|e] V HV _.
    + cbn [neut]. unfold cres2. cbn [fst g_handle]. eapply hokr_mono; [|exact P]. auto.
    + eapply neut_seq; [apply neut_link_unpin; assumption|]. intros [] Y HY _.
      eapply neut_seq; [apply neut_handle_detach; eapply hokr_mono; [|exact P]; auto|]. intros [] Z HZ _.
      cbn [neut]. unfold cres2. cbn [fst g_handle]. apply DN. auto.
  - eapply neut_seq; [apply neut_handle_detach; eapply hokr_mono; [|exact P]; auto|]. intros [] Z HZ _.
    cbn [neut]. unfold cres2. cbn [fst g_handle]. apply DN. auto.
Qed.

Lemma neut_transfer_slots d wr ho hn : forall n i S, neut d wr S (transfer_slots ho hn n i) anyq.
Proof.
  induction n as [|n IH]; intros i S; cbn [transfer_slots]; [exact Logic.I|].
  eapply neut_seq; [apply neut_get_counter|]. intros [[a b]|e] T _ _; [|exact Logic.I].
  destruct ((a =? 0) && (b =? 0)); [apply IH|].
  eapply neut_seq; [apply neut_set_counter|]. intros [[]|e] U _ _; [apply IH|exact Logic.I].
Qed.
Lemma neut_transfer d wr S ho hn n : neut d wr S (transfer_counters ho hn n) anyq.
Proof. unfold transfer_counters. destruct (h_cmap ho), (h_cmap hn); try exact Logic.I. apply neut_transfer_slots. Qed.

Lemma neut_cgen_update d wr S g c keep x : d = Some x -> wr = true -> hokr S (g_handle g) -> neut d wr S (cgen_update g c keep x) cres2.
Proof.
  intros E W H. unfold cgen_update. apply neut_alloc. intros [[]|e] T HT; [|exact (hokr_mono _ _ _ HT H)].
  eapply neut_seq; [apply neut_build_program; apply hokr_new|].
  intros [hn [[]|e]] T1 HT1 P; unfold hres2 in P; cbn [fst] in P.
  2:{ eapply neut_seq; [apply neut_handle_free; exact P|]. intros [] U HU _. cbn [neut]. unfold cres2. cbn [fst].
      eapply hokr_mono; [|exact H]. auto. }
  assert (FR : forall (U : fd -> Prop) e, (forall y, T1 y -> U y) ->
     neut d wr U (pbind (handle_free hn) (fun _ => Ret (g, @Er unit e))) cres2).
  { intros U e HU. eapply neut_seq; [apply neut_handle_free; eapply hokr_mono; [|exact P]; auto|]. intros [] V HV _.
    cbn [neut]. unfold cres2. cbn [fst]. eapply hokr_mono; [|exact H]. auto. }
  eapply neut_seq with (P := anyq).
  { destruct keep; [|exact Logic.I]. destruct (_ =? _); [apply neut_transfer|exact Logic.I]. }
  intros [[]|e] T2 HT2 _; [|apply FR; auto].
  eapply neut_seq; [apply neut_handle_unpin; assumption|]. intros [] T3 HT3 _.
  assert (HO : hokr T3 (g_handle g)) by (eapply hokr_mono; [|exact H]; auto).
  assert (HN : hokr T3 hn) by (eapply hokr_mono; [|exact P]; auto).
  eapply neut_seq with (P := fun r T => forall l, r = Ok (Some l) -> lok T l).
  { destruct (h_link (g_handle g)) as [l|] eqn:El; [|cbn [neut]; discriminate].
    destruct (h_prog hn) as [pf|]; [|cbn [neut]; discriminate].
    eapply neut_seq; [apply neut_link_update; exact (ho_link _ _ HO l El)|]. intros [l'|e] U HU X; cbn [neut]; intros y Y; [|discriminate Y].
    injection Y as <-. apply X; reflexivity. }
  intros [l|e] T4 HT4 PL.
  2:{ eapply neut_seq; [apply neut_handle_pin; assumption|]. intros r T5 HT5 _. apply FR. auto. }
  assert (HN4 : hokr T4 (set_link hn l)).
  { apply hokr_set_link; [exact (hokr_mono _ _ _ HT4 HN)|]. intros y ->. apply PL; reflexivity. }
  assert (HO4 : hokr T4 (set_link (g_handle g) None)).
  { apply hokr_set_link; [exact (hokr_mono _ _ _ HT4 HO)|discriminate]. }
  assert (FO : forall (U : fd -> Prop) c' e, (forall y, T4 y -> U y) ->
     neut d wr U (pbind (handle_free (set_link (g_handle g) None)) (fun _ => Ret (mkCg c' (set_link hn l), e : res unit))) cres2).
  { intros U c' e HU. eapply neut_seq; [apply neut_handle_free; eapply hokr_mono; [|exact HO4]; auto|]. intros [] V HV _.
    cbn [neut]. unfold cres2. cbn [fst g_handle]. eapply hokr_mono; [|exact HN4]. auto. }
  eapply neut_seq; [apply neut_handle_pin; assumption|]. intros [[]|e] T5 HT5 _; [|apply FO; auto].
  eapply neut_seq; [apply neut_persist; assumption|]. intros [[]|e] T6 HT6 _.
  2:{ eapply neut_seq; [apply neut_handle_unpin; assumption|]. intros [] T7 HT7 _. apply FO; auto. }
  eapply neut_seq; [apply neut_persist; assumption|]. intros [[]|e] T7 HT7 _.
  2:{ eapply neut_seq; [apply neut_handle_unpin; assumption|]. intros [] T8 HT8 _. apply FO; auto. }
  apply FO; auto.
Qed.

(** ** Bodies of the API calls *)
Lemma neut_copy_chain d wr S mm c : neut d wr S (copy_chain mm c) anyq.
Proof. unfold copy_chain. nt. Qed.
Lemma neut_copy_opts d wr S o : neut d wr S (copy_hookopts o) anyq.
Proof. unfold copy_hookopts. nt. Qed.
Lemma neut_copy_set d wr S mm u : neut d wr S (copy_set mm u) anyq.
Proof. unfold copy_set. nt. Qed.
Lemma neut_cgen_new d wr S c : neut d wr S (cgen_new c) (fun r T => forall g, r = Ok g -> g = mkCg c handle_new).
Proof. unfold cgen_new. apply neut_alloc. intros [[]|e] T _; cbn [neut]; intros g G; [|discriminate G]. injection G as <-. reflexivity. Qed.

Lemma neut_get_rules d wr : forall l S, neut d wr S (get_rules l) anyq.
Proof.
  induction l as [|g l IH]; intros S; cbn [get_rules]; [exact Logic.I|].
  eapply neut_seq; [apply neut_load_counters|]. intros [cs|e] T _ _; [|exact Logic.I].
  apply neut_alloc. intros [[]|e] U _; [|exact Logic.I].
  eapply neut_seq; [apply IH|]. intros [x|e] V _ _; exact Logic.I.
Qed.
Lemma neut_free_cgens d wr : forall l S, (forall g, In g l -> hokr S (g_handle g)) -> neut d wr S (free_cgens l) anyq.
Proof.
  induction l as [|g l IH]; intros S H; cbn [free_cgens]; [exact Logic.I|].
  eapply neut_seq; [apply neut_cgen_free; apply H; left; reflexivity|]. intros [] T HT _. apply IH.
  intros g' G. eapply hokr_mono; [exact HT|]. apply H. right. exact G.
Qed.
