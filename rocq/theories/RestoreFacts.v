(** Restoring a chain from its directory. *)
From Coq Require Import NArith ZArith List Bool Lia.
From Verif Require Import Bytes Types World BpfModel GenModel BytesFacts StrModel SetModel MapModel PackModel PackSpec PackFacts4 HookModel KernModel LockModel CtlModel SysSpec SysFacts RelyFacts SeqFacts StageFacts EvoFacts CtlSpec HandleFacts PinFacts AttachFacts LockSeqFacts LoadFacts.
Import ListNotations.
Local Open Scope N_scope.

(** Every descriptor of the handle is new and is the object pinned under its name. *)
Definition got1 (k0 k : kst) (p : pid) (i : ino) (q : pname) (f : fd) : Prop :=
  k_next k0 <= f /\ exists o, dview k0 i q = Some o /\ desc_of k p f = Some (D_obj o).
Definition got (k0 k : kst) (p : pid) (i : ino) (h : handle) : Prop := forall q f, In (q, f) (hpins h) -> got1 k0 k p i q f.
Lemma got1_grow p' S k0 k k' p i q f : grow p' S k k' -> sane k -> got1 k0 k p i q f -> got1 k0 k' p i q f.
Proof. intros G SK (A & o & B & C). split; [exact A|]. exists o. split; [exact B|eapply grow_desc; eauto]. Qed.
Lemma got_grow p' S k0 k k' p i h : grow p' S k k' -> sane k -> got k0 k p i h -> got k0 k' p i h.
Proof. intros G SK H q f X. eapply got1_grow; eauto. Qed.

Lemma dview_grow p S k0 k i q : grow p S k0 k -> i < k_next k0 -> dview k i q = dview k0 i q.
Proof. intros G L. unfold dview. rewrite (ev_dirs _ _ _ _ _ _ _ G i L); [reflexivity|discriminate]. Qed.

Lemma map_restore_ok F p (I : kst -> Prop) d i md q b k0 k S : sane k0 -> (forall S k', grow p S k0 k' -> I k') ->
  desc_of k0 p d = Some (D_dir i md) -> grow p S k0 k ->
  wps F p I (map_restore d q b) (fun r k' =>
    match r with
    | Ok o => is_some o = b /\ grow p (opt_fds o) k k' /\ forall f, o = Some f -> got1 k0 k' p i q f
    | Er e => k' = k /\ b = true /\ (faulty F \/ (dview k0 i q = None /\ e = ENOENT))
    end) k.
Proof.
  intros S0 HI D G. pose proof (ev_sane _ _ _ _ _ _ _ G) as SK. pose proof (ev_next _ _ _ _ _ _ _ G) as NX.
  pose proof (dir_lt _ _ _ _ _ S0 D) as LI. unfold map_restore. destruct b.
  2:{ apply wps_ret; [eapply HI; exact G|]. split; [reflexivity|]. split; [apply evo_refl, SK|discriminate]. }
  apply wps_alloc; [eapply HI; exact G| |].
  - eapply (wps_get F p I d i md q); [exact SK|eapply grow_desc; [exact G|exact S0|exact D]|eapply HI; exact G| |].
    + intros k' f o V G1 D1 L1. apply wps_ret; [eapply HI; eapply grow_trans; [exact G|exact G1]|].
      split; [reflexivity|]. split; [exact G1|]. intros f' H. injection H as <-. split; [lia|]. exists o. split; [|exact D1].
      rewrite <- (dview_grow _ _ _ _ _ _ G LI). exact V.
    + intros e C. apply wps_ret; [eapply HI; exact G|]. split; [reflexivity|]. split; [reflexivity|].
      rewrite (dview_grow _ _ _ _ _ _ G LI) in C. destruct C as [C|C]; [left; eapply faulty_intro; exact C|auto].
  - intros HF e. apply wps_ret; [eapply HI; exact G|]. split; [reflexivity|]. split; [reflexivity|]. left. eapply faulty_intro; exact HF.
Qed.

(** Releasing a partly restored handle. *)
Lemma drop_ok {A} F p (I : kst -> Prop) h (e : N) (Q : res A -> kst -> Prop) k0 k : sane k0 -> (forall S k', grow p S k0 k' -> I k') ->
  grow p (hfds h) k0 k -> (forall f, In f (hfds h) -> k_next k0 <= f) -> (forall k', grow p [] k0 k' -> Q (Er e) k') ->
  wps F p I (handle_free h ;;; Ret (Er e)) Q k.
Proof.
  intros S0 HI G L HQ. apply wps_bind.
  eapply wps_post with (I := I); [auto| |apply (closes_handle p h F I k0 _ _ _ _ [] k G S0 L)].
  - intros [] k' (_ & G' & _). apply wps_ret; [eapply HI; exact G'|apply HQ, G'].
  - auto.
  - intros Z k' _ E'. eapply HI. exact E'.
Qed.
Lemma got_fds k0 k p i h f : got k0 k p i h -> In f (hfds h) -> k_next k0 <= f.
Proof. intros G H. unfold hfds in H. apply in_map_iff in H as ([q g] & <- & H). apply (G q g H). Qed.

Definition lacks (F : call -> bool) (k0 : kst) (i : ino) (l : list pname) (e : N) : Prop :=
  faulty F \/ (e = ENOENT /\ exists q, In q l /\ dview k0 i q = None).

Lemma sets_restore_ok F p (I : kst -> Prop) d i md k0 pf l c pm lm sm : sane k0 -> (forall S k', grow p S k0 k' -> I k') ->
  desc_of k0 p d = Some (D_dir i md) ->
  forall names ss k, let h := mkH (Some pf) l c pm lm sm ss in
  grow p (hfds h) k0 k -> got k0 k p i h ->
  wps F p I (sets_restore d names h) (fun r k' =>
    match r with
    | Ok h' => exists ss', h' = mkH (Some pf) l c pm lm sm ss' /\ map fst ss' = map fst ss ++ names /\ grow p (hfds h') k0 k' /\ got k0 k' p i h'
    | Er e => grow p [] k0 k' /\ lacks F k0 i names e
    end) k.
Proof.
  intros S0 HI D. induction names as [|q names IH]; intros ss k h G GO; cbn [sets_restore].
  - apply wps_ret; [eapply HI; exact G|]. exists ss. rewrite app_nil_r. auto.
  - apply wps_bind. pose proof (ev_sane _ _ _ _ _ _ _ G) as SK.
    eapply wps_post with (I := I); [auto| |apply (map_restore_ok F p I d i md q true k0 k _ S0 HI D G)].
    intros [[f|]|e] k1.
    + intros (_ & G1 & X). specialize (X f eq_refl). cbn [h h_prog h_link h_cmap h_pmap h_lmap h_smap h_sets].
      eapply wps_post with (I := I); [auto| |apply (IH (ss ++ [(q, f)]) k1)].
      * intros [h'|e'] k2.
        -- intros (ss' & A & B & C). exists ss'. split; [exact A|]. split; [|exact C]. rewrite B, map_app, <- app_assoc. reflexivity.
        -- intros (A & [B|(B & r & Y & Z)]); (split; [exact A|]); [left; exact B|right]. split; [exact B|]. exists r. split; [right; exact Y|exact Z].
      * eapply evo_incl; [exact (grow_trans _ _ _ _ _ _ G G1)|]. intros x Hx. cbn [opt_fds app] in Hx.
        assert (Y : x = f \/ In x (hfds h)) by (destruct Hx as [<-|Hx]; auto). revert Y.
        unfold hfds, hpins, h, h_maps. cbn [h_prog h_link h_cmap h_pmap h_lmap h_smap h_sets]. rewrite !map_app, !in_app_iff. cbn. intuition auto.
      * intros q' f' H. destruct (hpins_cases _ _ _ H) as [Y|[Y|[Y|[Y|[Y|[Y|Y]]]]]];
          cbn [h_prog h_link h_cmap h_pmap h_lmap h_smap h_sets] in Y.
        6:{ apply in_app_or in Y as [Y|[Y|[]]]; [|injection Y as <- <-; exact X].
            eapply got1_grow; [exact G1|exact SK|]. apply GO. unfold h, hpins, h_maps. cbn [h_prog h_link h_cmap h_pmap h_lmap h_smap h_sets]. rewrite !in_app_iff. auto 8. }
        all: eapply got1_grow; [exact G1|exact SK|]; apply GO; unfold h, hpins, h_maps; cbn [h_prog h_link h_cmap h_pmap h_lmap h_smap h_sets]; rewrite !in_app_iff.
        6: auto.
        all: destruct Y as [-> ->]; cbn [opt_map In]; auto 8.
    + intros (X & _). discriminate X.
    + intros (-> & _ & C). apply (drop_ok F p I h e _ k0 k S0 HI G); [intros f; apply got_fds with (1 := GO)|].
      intros k' G'. split; [exact G'|]. destruct C as [C|[C1 C2]]; [left; exact C|right]. split; [exact C2|]. exists q. split; [left; reflexivity|exact C1].
Qed.

Lemma lacks_incl F k0 i l l' e : (forall q, In q l -> In q l') -> lacks F k0 i l e -> lacks F k0 i l' e.
Proof. intros H [A|(A & q & B & C)]; [left; exact A|right]. split; [exact A|]. exists q. auto. Qed.

Lemma step_restore {A} F p (I : kst -> Prop) d i md q b h (mk : option fd -> handle) (g : option fd -> prog (res A)) (Q : res A -> kst -> Prop) k0 k :
  sane k0 -> (forall S k', grow p S k0 k' -> I k') -> desc_of k0 p d = Some (D_dir i md) ->
  grow p (hfds h) k0 k -> got k0 k p i h ->
  (forall o x, In x (hpins (mk o)) <-> In x (hpins h) \/ In x (opt_map q o)) ->
  (forall o k', is_some o = b -> grow p (hfds (mk o)) k0 k' -> got k0 k' p i (mk o) -> wps F p I (g o) Q k') ->
  (forall e k', grow p [] k0 k' -> lacks F k0 i (if b then [q] else []) e -> Q (Er e) k') ->
  wps F p I (pbind (map_restore d q b) (fun r => match r with Er e => handle_free h ;;; Ret (Er e) | Ok o => g o end)) Q k.
Proof.
  intros S0 HI D G GO HM H1 H2. apply wps_bind. pose proof (ev_sane _ _ _ _ _ _ _ G) as SK.
  eapply wps_post with (I := I); [auto| |apply (map_restore_ok F p I d i md q b k0 k _ S0 HI D G)].
  intros [o|e] k1.
  - intros (HB & G1 & X). apply H1; [exact HB| |].
    + eapply evo_incl; [exact (grow_trans _ _ _ _ _ _ G G1)|]. intros x Hx. apply in_app_or in Hx.
      assert (Y : exists y, In (y, x) (hpins (mk o))).
      { destruct Hx as [Hx|Hx].
        - destruct o as [f|]; [|destruct Hx]. destruct Hx as [<-|[]]. exists q. apply HM. right. left. reflexivity.
        - apply in_map_iff in Hx as ([y f] & <- & Hx). exists y. apply HM. left. exact Hx. }
      destruct Y as (y & Y). apply (in_map snd) in Y. exact Y.
    + intros y f H. apply HM in H as [H|H]; [eapply got1_grow; [exact G1|exact SK|apply GO, H]|].
      apply in_opt_map in H as [-> ->]. apply X. reflexivity.
  - intros (-> & -> & C). apply (drop_ok F p I h e _ k0 k S0 HI G); [intros f; apply got_fds with (1 := GO)|].
    intros k' G'. apply H2; [exact G'|]. destruct C as [C|[C1 C2]]; [left; exact C|right]. split; [exact C2|]. exists q. split; [left; reflexivity|exact C1].
Qed.

(** The lookup of the second link was made to fail. *)
Definition extra_faulty (F : call -> bool) : Prop := exists d, F (C_get d P_link_extra) = true.
Lemma extra_is_faulty F : extra_faulty F -> faulty F.
Proof. intros (d & H). eexists. exact H. Qed.
Definition lost_extra (F : call -> bool) (k0 : kst) (i : ino) (l : option link) : Prop :=
  match l with Some l => l_extra l = None -> extra_faulty F \/ dview k0 i P_link_extra = None | None => True end.

Lemma link_restore_ok F p (I : kst -> Prop) d i md hk o k0 k S : sane k0 -> (forall S k', grow p S k0 k' -> I k') ->
  desc_of k0 p d = Some (D_dir i md) -> grow p S k0 k ->
  wps F p I (link_restore d hk o) (fun r k' =>
    match r with
    | Ok l => l_hook l = hk /\ l_opts l = o /\ grow p (map snd (lpins (Some l))) k k' /\
        (forall q f, In (q, f) (lpins (Some l)) -> got1 k0 k' p i q f) /\ lost_extra F k0 i (Some l) /\ (forall q f, In (q, f) (lpins (Some l)) -> k_next k <= f)
    | Er e => grow p [] k k' /\ lacks F k0 i [P_link] e
    end) k.
Proof.
  intros S0 HI D G. pose proof (ev_sane _ _ _ _ _ _ _ G) as SK. pose proof (ev_next _ _ _ _ _ _ _ G) as NX.
  pose proof (dir_lt _ _ _ _ _ S0 D) as LI. unfold link_restore.
  apply wps_alloc; [eapply HI; exact G| |].
  2:{ intros HF e. apply wps_ret; [eapply HI; exact G|]. split; [apply evo_refl, SK|]. left. eapply faulty_intro; exact HF. }
  eapply (wps_get F p I d i md P_link); [exact SK|eapply grow_desc; [exact G|exact S0|exact D]|eapply HI; exact G| |].
  2:{ intros e C. apply wps_ret; [eapply HI; exact G|]. split; [apply evo_refl, SK|].
      rewrite (dview_grow _ _ _ _ _ _ G LI) in C. destruct C as [C|[C1 C2]]; [left; eapply faulty_intro; exact C|right].
      split; [exact C2|]. exists P_link. split; [left; reflexivity|exact C1]. }
  intros k1 f ob V G1 D1 L1. pose proof (grow_trans _ _ _ _ _ _ G G1) as G01. pose proof (ev_sane _ _ _ _ _ _ _ G1) as S1.
  pose proof (ev_next _ _ _ _ _ _ _ G1) as N1.
  rewrite (dview_grow _ _ _ _ _ _ G LI) in V.
  eapply (wps_get F p I d i md P_link_extra); [exact S1|eapply grow_desc; [exact G01|exact S0|exact D]|eapply HI; exact G01| |].
  - intros k2 fx ox VX G2 D2 L2. rewrite (dview_grow _ _ _ _ _ _ G01 LI) in VX.
    apply wps_ret; [eapply HI; exact (grow_trans _ _ _ _ _ _ G01 G2)|]. split; [reflexivity|]. split; [reflexivity|]. split; [|split].
    + eapply evo_incl; [exact (grow_trans _ _ _ _ _ _ G1 G2)|]. intros x. cbn. tauto.
    + intros q g H. cbn [lpins l_fd l_extra opt_map In] in H. destruct H as [H|[H|[]]]; injection H as <- <-.
      * split; [lia|]. exists ob. split; [exact V|]. eapply grow_desc; [exact G2|exact S1|exact D1].
      * split; [lia|]. exists ox. split; [exact VX|exact D2].
    + split; [intros H; discriminate H|]. intros q g H. cbn [lpins l_fd l_extra opt_map In] in H. destruct H as [H|[H|[]]]; injection H as <- <-; lia.
  - intros e C. rewrite (dview_grow _ _ _ _ _ _ G01 LI) in C. destruct (N.eqb_spec e ENOENT) as [->|NE].
    + apply wps_ret; [eapply HI; exact G01|]. split; [reflexivity|]. split; [reflexivity|]. split; [exact G1|]. split.
      * intros q g H. cbn [lpins l_fd l_extra opt_map In] in H. destruct H as [H|[]]; injection H as <- <-.
        split; [lia|]. exists ob. split; [exact V|exact D1].
      * split; [intros _; destruct C as [C|[C _]]; [left; exists d; exact C|right; exact C]|].
        intros q g H. cbn [lpins l_fd l_extra opt_map In] in H. destruct H as [H|[]]; injection H as <- <-. lia.
    + eapply wps_close with (f := f) (S' := []); [exact G1|exact SK|exact L1| |eapply HI; exact G01|].
      * intros x [<-|[]]. auto.
      * intros k2 _ _ _ _ G2. apply wps_ret; [eapply HI; exact (grow_trans _ _ _ _ _ _ G G2)|]. split; [exact G2|].
        left. destruct C as [C|[_ C]]; [eapply faulty_intro; exact C|contradiction].
Qed.

(** The names that a description needs. *)
Definition rnames (hd : hdesc) : list pname :=
  P_prog :: (match hd_link hd with Some _ => [P_link] | None => [] end) ++
  (if hd_cmap hd then [P_cmap] else []) ++ (if hd_pmap hd then [P_pmap] else []) ++ (if hd_lmap hd then [P_lmap] else []) ++
  (if hd_smap hd then [P_smap] else []) ++ hd_sets hd.

(** The program's descriptor is not one of the link's. *)
Definition prog_apart (h : handle) : Prop := forall f, In f (opt_fds (h_prog h)) -> ~ In f (map snd (lpins (h_link h))).
Definition restored (F : call -> bool) (p : pid) (k0 : kst) (i : ino) (hd : hdesc) (r : res handle) (k' : kst) : Prop :=
  match r with
  | Ok h => grow p (hfds h) k0 k' /\ got k0 k' p i h /\ handle_desc h = hd /\ h_prog h <> None /\ lost_extra F k0 i (h_link h) /\ prog_apart h
  | Er e => grow p [] k0 k' /\ lacks F k0 i (rnames hd) e
  end.

Lemma handle_restore_ok F p (I : kst -> Prop) d i md hd k0 : sane k0 -> (forall S k', grow p S k0 k' -> I k') ->
  desc_of k0 p d = Some (D_dir i md) -> wps F p I (handle_restore d hd) (restored F p k0 i hd) k0.
Proof.
  intros S0 HI D. unfold handle_restore. assert (G0 : grow p [] k0 k0) by (apply evo_refl, S0).
  assert (FE : forall e, faulty F -> restored F p k0 i hd (Er e) k0) by (intros e HF; split; [exact G0|left; exact HF]).
  apply wps_alloc; [eapply HI; exact G0| |].
  2:{ intros HF e. apply wps_ret; [eapply HI; exact G0|]. apply FE. eapply faulty_intro; exact HF. }
  eapply (wps_get F p I d i md P_prog); [exact S0|exact D|eapply HI; exact G0| |].
  2:{ intros e C. apply wps_ret; [eapply HI; exact G0|]. split; [exact G0|]. destruct C as [C|[C1 C2]]; [left; eapply faulty_intro; exact C|right].
      split; [exact C2|]. exists P_prog. split; [left; reflexivity|exact C1]. }
  intros k1 pf po VP G1 D1 L1. set (h0 := mkH (Some pf) None None None None None []).
  assert (GO1 : got k0 k1 p i h0).
  { intros q f H. cbn in H. destruct H as [H|[]]. injection H as <- <-. split; [exact L1|]. exists po. auto. }
  assert (GH1 : grow p (hfds h0) k0 k1) by exact G1.
  pose proof (ev_sane _ _ _ _ _ _ _ G1) as S1.
  assert (ERR : forall l e k', (forall q, In q l -> In q (rnames hd)) -> grow p [] k0 k' -> lacks F k0 i l e -> restored F p k0 i hd (Er e) k').
  { intros l e k' H1 H2 H3. split; [exact H2|]. eapply lacks_incl; [exact H1|exact H3]. }
  apply wps_bind.
  assert (REST : forall l k, (match l with Some l => Some (l_hook l, l_opts l) | None => None end) = hd_link hd -> lost_extra F k0 i l -> ~ In pf (map snd (lpins l)) ->
    let h := mkH (Some pf) l None None None None [] in grow p (hfds h) k0 k -> got k0 k p i h ->
    wps F p I (
      rc <~ map_restore d P_cmap (hd_cmap hd) ;;
      match rc with
      | Er e => handle_free (set_link h0 l) ;;; Ret (Er e)
      | Ok c =>
      rpm <~ map_restore d P_pmap (hd_pmap hd) ;;
      match rpm with
      | Er e => handle_free (mkH (Some pf) l c None None None []) ;;; Ret (Er e)
      | Ok pm =>
      rlm <~ map_restore d P_lmap (hd_lmap hd) ;;
      match rlm with
      | Er e => handle_free (mkH (Some pf) l c pm None None []) ;;; Ret (Er e)
      | Ok lm =>
      rsm <~ map_restore d P_smap (hd_smap hd) ;;
      match rsm with
      | Er e => handle_free (mkH (Some pf) l c pm lm None []) ;;; Ret (Er e)
      | Ok sm => sets_restore d (hd_sets hd) (mkH (Some pf) l c pm lm sm [])
      end end end end) (restored F p k0 i hd) k).
  { intros l k HL LX AP h G GO.
    eapply (step_restore F p I d i md P_cmap (hd_cmap hd) _ (fun c => mkH (Some pf) l c None None None [])); [exact S0|exact HI|exact D|exact G|exact GO| | |].
    { intros o x. unfold hpins, h_maps, set_link, h0. cbn [h_prog h_link h_cmap h_pmap h_lmap h_smap h_sets]. rewrite !in_app_iff. cbn [opt_map In]. tauto. }
    2:{ intros e k' G' C. eapply ERR; [|exact G'|exact C]. intros q Hq. unfold rnames. destruct (hd_cmap hd); [|destruct Hq]. cbn [In] in *. rewrite !in_app_iff. cbn [In]. tauto. }
    intros c k2 HC G2 GO2. cbn beta.
    eapply (step_restore F p I d i md P_pmap (hd_pmap hd) _ (fun pm => mkH (Some pf) l c pm None None [])); [exact S0|exact HI|exact D|exact G2|exact GO2| | |].
    { intros o x. unfold hpins, h_maps. cbn [h_prog h_link h_cmap h_pmap h_lmap h_smap h_sets]. rewrite !in_app_iff. cbn [opt_map In]. tauto. }
    2:{ intros e k' G' C. eapply ERR; [|exact G'|exact C]. intros q Hq. unfold rnames. destruct (hd_pmap hd); [|destruct Hq]. cbn [In] in *. rewrite !in_app_iff. cbn [In]. tauto. }
    intros pm k3 HPM G3 GO3. cbn beta.
    eapply (step_restore F p I d i md P_lmap (hd_lmap hd) _ (fun lm => mkH (Some pf) l c pm lm None [])); [exact S0|exact HI|exact D|exact G3|exact GO3| | |].
    { intros o x. unfold hpins, h_maps. cbn [h_prog h_link h_cmap h_pmap h_lmap h_smap h_sets]. rewrite !in_app_iff. cbn [opt_map In]. tauto. }
    2:{ intros e k' G' C. eapply ERR; [|exact G'|exact C]. intros q Hq. unfold rnames. destruct (hd_lmap hd); [|destruct Hq]. cbn [In] in *. rewrite !in_app_iff. cbn [In]. tauto. }
    intros lm k4 HLM G4 GO4. cbn beta.
    eapply (step_restore F p I d i md P_smap (hd_smap hd) _ (fun sm => mkH (Some pf) l c pm lm sm [])); [exact S0|exact HI|exact D|exact G4|exact GO4| | |].
    { intros o x. unfold hpins, h_maps. cbn [h_prog h_link h_cmap h_pmap h_lmap h_smap h_sets]. rewrite !in_app_iff. cbn [opt_map In]. tauto. }
    2:{ intros e k' G' C. eapply ERR; [|exact G'|exact C]. intros q Hq. unfold rnames. destruct (hd_smap hd); [|destruct Hq]. cbn [In] in *. rewrite !in_app_iff. cbn [In]. tauto. }
    intros sm k5 HSM G5 GO5. cbn beta.
    eapply wps_post with (I := I); [auto| |apply (sets_restore_ok F p I d i md k0 pf l c pm lm sm S0 HI D (hd_sets hd) [] k5 G5 GO5)].
    intros [h'|e] k6.
    - intros (ss & -> & HS & G6 & GO6). split; [exact G6|]. split; [exact GO6|]. split; [|split; [discriminate|split; [exact LX|intros x [<-|[]]; exact AP]]].
      unfold handle_desc. cbn [h_prog h_link h_cmap h_pmap h_lmap h_smap h_sets]. rewrite HL, HC, HPM, HLM, HSM, HS. destruct hd; reflexivity.
    - intros (G6 & C). eapply ERR; [|exact G6|exact C]. intros q Hq. unfold rnames. cbn [In]. rewrite !in_app_iff. tauto. }
  destruct (hd_link hd) as [[hk o]|] eqn:HL.
  - apply wps_bind. eapply wps_post with (I := I); [auto| |apply (link_restore_ok F p I d i md hk o k0 k1 _ S0 HI D G1)].
    intros [l|e] k2.
    + intros (A & B & G2 & GL & LX & LN). apply wps_ret; [eapply HI; exact (grow_trans _ _ _ _ _ _ G1 G2)|].
      apply REST; [rewrite A, B; reflexivity|exact LX| | |].
      * intros X. apply in_map_iff in X as ([q x] & E1 & X). cbn [snd] in E1. subst x. pose proof (LN _ _ X). pose proof (desc_lt _ _ _ _ S1 D1). lia.
      * eapply evo_incl; [exact (grow_trans _ _ _ _ _ _ G1 G2)|]. intros x Hx. unfold hfds, hpins. cbn [h_prog h_link opt_map map snd app].
        apply in_app_or in Hx as [Hx|[<-|[]]]; [right|left; reflexivity]. exact Hx.
      * intros q f H. unfold hpins in H. cbn [h_prog h_link opt_map] in H. destruct H as [H|H]; [injection H as <- <-; eapply got1_grow; [exact G2|exact S1|apply GO1; left; reflexivity]|].
        apply GL. exact H.
    + intros (G2 & C). apply wps_ret; [eapply HI; exact (grow_trans _ _ _ _ _ _ G1 G2)|].
      apply (drop_ok F p I h0 e _ k0 k2 S0 HI); [exact (grow_trans _ _ _ _ _ _ G1 G2)|intros f; apply got_fds with (1 := GO1)|].
      intros k' G'. eapply ERR; [|exact G'|exact C]. intros q [<-|[]]. unfold rnames. rewrite HL. cbn. auto.
  - apply wps_ret; [eapply HI; exact G1|]. apply REST; [reflexivity|exact Logic.I|intros []|exact GH1|exact GO1].
Qed.

(** ** From the pins to the handle *)
Definition is_nf (hd : hdesc) : Prop := match hd_link hd with Some (hk, _) => hook_flavor hk = F_NF | None => False end.
Lemma complete_sub (R R' : pname -> oid -> Prop) (O O' : oid -> option obj) ch hd :
  (forall q o, In q (rnames hd) \/ (q = P_link_extra /\ is_nf hd) -> R q o -> R' q o) ->
  (forall q o v, R q o -> O o = Some v -> O' o = Some v) -> complete_at R O ch hd -> complete_at R' O' ch hd.
Proof.
  intros HR HO [(img & po & ss & cm & v & B1 & B2 & B3 & B4 & B5 & B6 & B7 & B8) C1 C2 C3 C4 C5].
  assert (N1 : forall q o, In q (rnames hd) -> R q o -> R' q o) by auto.
  constructor; auto.
  - exists img, po, ss, cm, v. repeat match goal with |- _ /\ _ => split end; eauto.
    + apply N1; [left; reflexivity|exact B2].
    + apply N1; [|exact B4]. unfold rnames. rewrite C1. cbn [In]. rewrite !in_app_iff. cbn. tauto.
    + assert (IN : forall q, In q (set_names ch) -> In q (rnames hd)).
      { intros q Hq. unfold rnames. rewrite C5. cbn [In]. rewrite !in_app_iff. tauto. }
      clear -B6 N1 IN. revert IN B6. generalize (set_names ch). intros l IN H. revert IN. induction H as [|q o l ss H1 _ IH]; intros IN; constructor.
      * apply N1; [apply IN; left; reflexivity|exact H1].
      * apply IH. intros x Hx. apply IN. right. exact Hx.
    + clear -HO B6 B7. revert B7. generalize (build_groups (c_sets ch)). revert B6. generalize (set_names ch). intros l H.
      induction H as [|q o l ss H1 _ IH]; intros gs H2; inversion H2; subst; constructor; eauto.
    + unfold is_nf in HR. destruct (hd_link hd) as [[hk opts]|] eqn:HL; [|exact B8]. destruct B8 as (D1 & (lo & t & D2 & D3 & D4) & D5).
      split; [exact D1|]. split.
      * exists lo, t. split; [exact D2|]. split; [apply N1; [|exact D3]|eauto]. unfold rnames. rewrite HL. cbn. auto.
      * intros X. destruct (D5 X) as (lx & t' & E1 & E2 & E3). exists lx, t'. split; [exact E1|]. split; [apply HR; auto|eauto].
  - destruct C2 as [C2 (o & X & Y)]. split; [exact C2|]. exists o. split; [apply N1; [|exact X]|eauto].
    unfold rnames. rewrite C2. cbn [In]. rewrite !in_app_iff. cbn. tauto.
  - destruct C3 as [C3 X]. split; [exact C3|]. intros Y. destruct (X Y) as (o & X1 & X2). exists o. split; [apply N1; [|exact X1]|eauto].
    unfold rnames. rewrite C3, Y. cbn [In]. rewrite !in_app_iff. cbn. tauto.
  - destruct C4 as [C4 X]. split; [exact C4|]. intros Y. destruct (X Y) as (o & X1 & X2). exists o. split; [apply N1; [|exact X1]|eauto].
    unfold rnames. rewrite Y. cbn [In]. rewrite !in_app_iff. cbn. tauto.
Qed.
Lemma complete_names R O ch hd q : complete_at R O ch hd -> In q (rnames hd) -> exists o, R q o.
Proof.
  intros [(img & po & ss & cm & v & B1 & B2 & B3 & B4 & B5 & B6 & B7 & B8) C1 (C2 & o2 & C2' & _) [C3 C3'] [C4 C4'] C5] H.
  unfold rnames in H. cbn [In] in H. rewrite !in_app_iff in H. destruct H as [<-|[H|[H|[H|[H|[H|H]]]]]].
  - eauto.
  - destruct (hd_link hd) as [[hk o]|]; [|destruct H]. destruct H as [<-|[]]. destruct B8 as (_ & (lo & t & _ & X & _) & _). eauto.
  - rewrite C1 in H. destruct H as [<-|[]]. eauto.
  - rewrite C2 in H. destruct H as [<-|[]]. eauto.
  - rewrite C3 in H. destruct (c_log ch); [|destruct H]. destruct H as [<-|[]]. destruct (C3' eq_refl) as (o & X & _). eauto.
  - destruct (hd_smap hd); [|destruct H]. destruct H as [<-|[]]. destruct (C4' eq_refl) as (o & X & _). eauto.
  - rewrite C5 in H. clear -B6 H. induction B6 as [|a b l ss X _ IH]; [destruct H|]. destruct H as [<-|H]; eauto.
Qed.

(** Every name of the description is the name of a descriptor. *)
Lemma desc_named h q : h_prog h <> None -> In q (rnames (handle_desc h)) -> exists f, In (q, f) (hpins h).
Proof.
  intros HP. unfold rnames, handle_desc, hpins, h_maps. cbn [hd_link hd_cmap hd_pmap hd_lmap hd_smap hd_sets In]. rewrite !in_app_iff.
  intros [<-|[H|[H|[H|[H|[H|H]]]]]].
  - destruct (h_prog h) as [f|]; [|congruence]. exists f. left. reflexivity.
  - destruct (h_link h) as [l|]; [|destruct H]. destruct H as [<-|[]]. exists (l_fd l). apply in_or_app. right. apply in_or_app. right. left. reflexivity.
  - destruct (h_cmap h) as [f|]; [|destruct H]. destruct H as [<-|[]]. exists f. rewrite !in_app_iff. right; left; left; left; reflexivity.
  - destruct (h_pmap h) as [f|]; [|destruct H]. destruct H as [<-|[]]. exists f. rewrite !in_app_iff. right; left; right; left; left; reflexivity.
  - destruct (h_lmap h) as [f|]; [|destruct H]. destruct H as [<-|[]]. exists f. rewrite !in_app_iff. right; left; right; right; left; left; reflexivity.
  - destruct (h_smap h) as [f|]; [|destruct H]. destruct H as [<-|[]]. exists f. rewrite !in_app_iff. right; left; right; right; right; left; left; reflexivity.
  - apply in_map_iff in H as ([a f] & <- & H). exists f. rewrite !in_app_iff. tauto.
Qed.

(** A netfilter link whose second half was not restored because of a failure. *)
Definition half_link (F : call -> bool) (h : handle) : Prop :=
  extra_faulty F /\ is_nf (handle_desc h) /\ exists l, h_link h = Some l /\ l_extra l = None.

Lemma restored_good F p k0 k' i h c hd S : sane k0 -> holds_chain k0 i c hd ->
  grow p S k0 k' -> got k0 k' p i h -> handle_desc h = hd -> h_prog h <> None -> lost_extra F k0 i (h_link h) ->
  half_link F h \/ good k' p (nc_chain c) h.
Proof.
  intros S0 [_ CP] G GO HD HP LX. unfold good. rewrite HD.
  assert (X : half_link F h \/ (is_nf hd -> exists f, In (P_link_extra, f) (hpins h))).
  { destruct (h_link h) as [l|] eqn:HL.
    2:{ right. unfold is_nf. rewrite <- HD. unfold handle_desc. cbn [hd_link]. rewrite HL. intros []. }
    destruct (l_extra l) as [f|] eqn:EX.
    { right. intros _. exists f. unfold hpins. rewrite !in_app_iff. right. right. rewrite HL. cbn [lpins]. rewrite EX. right. left. reflexivity. }
    cbn [lost_extra] in LX. specialize (LX EX). destruct LX as [LX|LX].
    - assert (Y : is_nf hd \/ ~ is_nf hd).
      { unfold is_nf. destruct (hd_link hd) as [[hk o]|]; [|right; intros []]. destruct (hook_flavor hk); auto; right; discriminate. }
      destruct Y as [Y|Y]; [left|right; intros Z; contradiction]. split; [exact LX|]. rewrite HD. split; [exact Y|]. exists l. auto.
    - right. intros NF. exfalso. destruct CP as [(img & po & ss & cm & v & B1 & B2 & B3 & B4 & B5 & B6 & B7 & B8) _ _ _ _ _].
      unfold is_nf in NF. destruct (hd_link hd) as [[hk o]|]; [|destruct NF]. destruct B8 as (_ & _ & B8).
      destruct (B8 NF) as (lx & t & _ & Y & _). unfold pin in Y. unfold dview in LX. congruence. }
  destruct X as [X|X]; [left; exact X|right].
  eapply complete_sub; [| |exact CP].
  - intros q o H HR. assert (Y : exists f, In (q, f) (hpins h)).
    { destruct H as [H|[-> H]]; [|auto]. rewrite <- HD in H. apply desc_named; assumption. }
    destruct Y as (f & Y). destruct (GO q f Y) as (_ & o' & A & B). exists f. split; [exact Y|]. unfold pin in HR. unfold dview in A. congruence.
  - intros q o v _ H. eapply grow_obj; [exact G|exact S0|exact H].
Qed.

(** ** bf_cgen_new_from_dir_fd *)
Definition loaded (F : call -> bool) (p : pid) (mm : mem) (k0 : kst) (i : ino) (r : res cgen) (k' : kst) : Prop :=
  match r with
  | Ok g => exists o t hd, dview k0 i P_ctx = Some o /\ k_objs k0 o = Some (O_ctx (Some (t, hd))) /\
      chain_unpack (m_nd mm) (m_tb mm) t = Ok (g_chain g) /\ restored F p k0 i hd (Ok (g_handle g)) k'
  | Er e => grow p [] k0 k' /\
      (faulty F \/ (dview k0 i P_ctx = None /\ e = ENOENT) \/
       (exists o, dview k0 i P_ctx = Some o /\ forall x, k_objs k0 o <> Some (O_ctx (Some x))) \/
       exists o t hd, dview k0 i P_ctx = Some o /\ k_objs k0 o = Some (O_ctx (Some (t, hd))) /\
         (chain_unpack (m_nd mm) (m_tb mm) t = Er e \/ lacks F k0 i (rnames hd) e))
  end.

Lemma cgen_restore_ok F p (I : kst -> Prop) mm d i md k0 : sane k0 -> (forall S k', grow p S k0 k' -> I k') ->
  desc_of k0 p d = Some (D_dir i md) -> wps F p I (cgen_restore mm d) (loaded F p mm k0 i) k0.
Proof.
  intros S0 HI D. unfold cgen_restore. assert (G0 : grow p [] k0 k0) by (apply evo_refl, S0). pose proof (dir_lt _ _ _ _ _ S0 D) as LI.
  eapply (wps_get F p I d i md P_ctx); [exact S0|exact D|eapply HI; exact G0| |].
  2:{ intros e C. apply wps_ret; [eapply HI; exact G0|]. split; [exact G0|]. destruct C as [C|C]; [left; eapply faulty_intro; exact C|auto]. }
  intros k1 mf o V G1 D1 L1. pose proof (ev_sane _ _ _ _ _ _ _ G1) as S1. pose proof (ev_next _ _ _ _ _ _ _ G1) as N1.
  assert (L1' : mf < k_next k1) by (eapply desc_lt; [exact S1|exact D1]).
  assert (FAIL : forall k e, grow p [mf] k0 k -> (forall k', grow p [] k0 k' -> loaded F p mm k0 i (Er e) k') ->
     wps F p I (sys_ (C_close mf) ;;; Ret (Er e)) (loaded F p mm k0 i) k).
  { intros k e G H. eapply wps_close with (f := mf) (S' := []); [exact G|exact S0|exact L1| |eapply HI; exact G|].
    - intros x [<-|[]]. auto.
    - intros k2 _ _ _ _ G2. apply wps_ret; [eapply HI; exact G2|apply H, G2]. }
  destruct (sane_pin _ S0 _ _ _ V) as (v & OV).
  assert (OV1 : k_objs k1 o = Some v) by (eapply grow_obj; [exact G1|exact S0|exact OV]).
  apply wps_step; [eapply HI; exact G1|]. split.
  2:{ intros HF _ e. apply FAIL; [exact G1|]. intros k' G'. split; [exact G'|]. left. eapply faulty_intro; exact HF. }
  intros s. cbn [kdo]. unfold obj_of. rewrite D1, OV1.
  assert (BAD : forall e, (forall x, v <> O_ctx (Some x)) -> wps F p I (sys_ (C_close mf) ;;; Ret (Er e)) (loaded F p mm k0 i) k1).
  { intros e NX. apply FAIL; [exact G1|]. intros k' G'. split; [exact G'|]. right. right. left. exists o. split; [exact V|]. intros x. rewrite OV. intros H. injection H as ->. exact (NX x eq_refl). }
  destruct v as [| | |[[t hd]|]| |]; cbn [fst snd]; try (apply BAD; intros x; discriminate).
  apply wps_alloc; [eapply HI; exact G1| |].
  2:{ intros HF e. apply FAIL; [exact G1|]. intros k' G'. split; [exact G'|]. left. eapply faulty_intro; exact HF. }
  destruct (chain_unpack (m_nd mm) (m_tb mm) t) as [c|e] eqn:U.
  2:{ apply FAIL; [exact G1|]. intros k' G'. split; [exact G'|]. right. right. right. exists o, t, hd. auto. }
  assert (D1' : desc_of k1 p d = Some (D_dir i md)) by (eapply grow_desc; [exact G1|exact S0|exact D]).
  apply wps_bind. eapply wps_post with (I := I); [auto| |apply (handle_restore_ok F p I d i md hd k1 S1)]; [|intros S k' G; eapply HI; exact (grow_trans _ _ _ _ _ _ G1 G)|exact D1'].
  intros [h|e] k2.
  - intros (G2 & GO & HD & HP & LX & AP). pose proof (grow_trans _ _ _ _ _ _ G1 G2) as G02.
    eapply wps_close with (f := mf) (S' := hfds h); [exact G02|exact S0|exact L1| |eapply HI; exact G02|].
    + intros x Hx. apply in_app_or in Hx as [Hx|[<-|[]]]; auto.
    + intros k3 FD _ _ _ G3. apply wps_ret; [eapply HI; exact G3|]. exists o, t, hd. split; [exact V|]. split; [exact OV|]. split; [exact U|].
      split; [exact G3|]. split; [|split; [exact HD|split; [exact HP|split; [|exact AP]]]].
      * intros q f H. destruct (GO q f H) as (LF & ob & A & B). split; [lia|]. exists ob. rewrite (dview_grow _ _ _ _ _ _ G1 LI) in A. split; [exact A|].
        apply find_desc_of. rewrite FD by lia. apply desc_of_find, B.
      * cbn [g_handle]. unfold lost_extra in *. rewrite (dview_grow _ _ _ _ _ _ G1 LI) in LX. exact LX.
  - intros (G2 & C). apply FAIL; [exact (grow_trans _ _ _ _ _ _ G1 G2)|]. intros k' G'. split; [exact G'|]. right. right. right.
    exists o, t, hd. split; [exact V|]. split; [exact OV|]. right. destruct C as [C|(C & q & C1 & C2)]; [left; exact C|right].
    split; [exact C|]. exists q. rewrite (dview_grow _ _ _ _ _ _ G1 LI) in C2. auto.
Qed.

(** On a directory that holds a chain. *)
Lemma loaded_holds F p mm k0 i c hd r k' : sane k0 -> holds_chain k0 i c hd -> chain_built c -> storable c -> loaded F p mm k0 i r k' ->
  match r with
  | Ok g => same_chain c (g_chain g) /\ chain_copy (m_nd mm) (m_tb mm) c = Ok (g_chain g) /\ restored F p k0 i hd (Ok (g_handle g)) k' /\
      (half_link F (g_handle g) \/ good k' p (nc_chain c) (g_handle g))
  | Er e => grow p [] k0 k' /\ (faulty F \/ chain_copy (m_nd mm) (m_tb mm) c = Er e)
  end.
Proof.
  intros S0 H CB CS L. pose proof H as [(o & t & A & B & C) CP]. unfold pin in A.
  assert (CC : chain_copy (m_nd mm) (m_tb mm) c = chain_unpack (m_nd mm) (m_tb mm) t) by (unfold chain_copy; rewrite C; reflexivity).
  destruct r as [g|e].
  - destruct L as (o' & t' & hd' & A' & B' & U & R). unfold dview in A'. rewrite A in A'. injection A' as <-. rewrite B in B'. injection B' as <- <-.
    rewrite CC. destruct (chain_round_trip (m_nd mm) (m_tb mm) c CB CS) as [(c' & E & SC)|E]; rewrite CC, U in E; [|discriminate E].
    injection E as <-. split; [exact SC|]. split; [exact U|]. split; [exact R|]. destruct R as (R1 & R2 & R3 & R4 & R5 & _). eapply restored_good; eauto.
  - destruct L as (G & [L|[(L & _)|[(x & L1 & L2)|(o' & t' & hd' & A' & B' & L)]]]); (split; [exact G|]).
    + left; exact L.
    + unfold dview in L. congruence.
    + unfold dview in L1. assert (x = o) by congruence. subst x. destruct (L2 _ B).
    + unfold dview in A'. rewrite A in A'. injection A' as <-. rewrite B in B'. injection B' as <- <-. rewrite CC.
      destruct L as [L|[L|(_ & q & L1 & L2)]]; [right; exact L|left; exact L|].
      destruct (complete_names _ _ _ _ q CP L1) as (ob & Y). unfold pin in Y. unfold dview in L2. congruence.
Qed.
