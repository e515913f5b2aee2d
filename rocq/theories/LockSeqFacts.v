(** The locks, when one process runs alone: what is acquired, what is left behind. *)
From Coq Require Import NArith ZArith List Bool Lia.
From Verif Require Import Bytes Types World BpfModel GenModel BytesFacts StrModel SetModel PackModel HookModel KernModel LockModel CtlModel SysSpec SysFacts RelyFacts SeqFacts StageFacts EvoFacts CtlSpec HandleFacts PinFacts.
Import ListNotations.
Local Open Scope N_scope.

(** ** Lists of entries and of descriptors *)
Lemma ent_del_fresh n l : ent_find n l = None -> ent_del n l = l.
Proof.
  induction l as [|[m i] l IH]; cbn [ent_find ent_del filter fst]; [reflexivity|].
  destruct (bytes_eqb n m); [discriminate|]. intros H. cbn [negb]. f_equal. apply IH, H.
Qed.
Lemma ent_del_head n i l : ent_find n l = None -> ent_del n ((n, i) :: l) = l.
Proof.
  intros H. cbn [ent_del filter fst]. destruct (name_eqb_spec n n); [|congruence]. cbn [negb]. apply ent_del_fresh, H.
Qed.
Lemma ent_find_head n i l : ent_find n ((n, i) :: l) = Some i.
Proof. cbn [ent_find]. destruct (name_eqb_spec n n); [reflexivity|congruence]. Qed.
Lemma ent_find_skip n m i l : m <> n -> ent_find m ((n, i) :: l) = ent_find m l.
Proof. intros H. cbn [ent_find]. destruct (name_eqb_spec m n); [congruence|reflexivity]. Qed.
Lemma view_empty k i : (forall q, dview k i q = None) <-> k_dirs k i = [].
Proof.
  unfold dview. split.
  - intros H. destruct (k_dirs k i) as [|[q o] l]; [reflexivity|]. specialize (H q). cbn [pin_find] in H. rewrite pname_eqb_refl in H. discriminate H.
  - intros -> q. reflexivity.
Qed.
Lemma fd_in_find l f x : NoDup (map fst l) -> In (f, x) l -> fd_find f l = Some x.
Proof.
  induction l as [|[g y] l IH]; cbn [map fst]; [contradiction|]. intros N [H|H]; inversion N; subst; cbn [fd_find].
  - injection H as -> ->. rewrite N.eqb_refl. reflexivity.
  - destruct (N.eqb_spec f g) as [->|]; [|apply IH; assumption]. exfalso. apply H2. apply in_map_iff. exists (g, x). auto.
Qed.

(** Somebody holds a lock at the place of [d] that conflicts with mode [m]. *)
Definition clash (k : kst) (d : desc) (m : lmode) : Prop :=
  exists g q d', fd_find g (k_fds k) = Some (q, d') /\ same_place d d' = true /\ conflict m (mode_of d') = true.
Lemma contended_clash k f d m : sane k -> contended k f d m = true ->
  exists g q d', g <> f /\ fd_find g (k_fds k) = Some (q, d') /\ same_place d d' = true /\ conflict m (mode_of d') = true.
Proof.
  intros S H. unfold contended in H. apply existsb_exists in H as ([g [q d']] & HI & H). cbn [fst snd] in H.
  apply andb_true_iff in H as [H H3]. apply andb_true_iff in H as [H1 H2].
  exists g, q, d'. repeat split; auto.
  - intros ->. rewrite N.eqb_refl in H1. discriminate H1.
  - apply fd_in_find; [apply sane_uniq, S|exact HI].
Qed.

Lemma evo_flock p E X M S k0 k f d m : evo p E X M S k0 k -> k_next k0 <= f ->
  desc_of k p f = Some d -> contended k f d m = false -> evo p E X M S k0 (set_desc k p f (with_mode d m)).
Proof.
  intros [A1 A2 A3 A4 A5 A6 A7 A8 A9 A10] L D C. constructor; auto.
  - pose proof (kdo_sane k p (C_flock f m) [] A1) as H. cbn [kdo] in H. rewrite D, C in H. exact H.
  - intros g Lg. cbn [set_desc with_fds k_fds]. rewrite fd_find_set. destruct (N.eqb_spec g f); [lia|apply A8, Lg].
  - intros g Lg. cbn [set_desc with_fds k_fds]. rewrite fd_find_set. destruct (N.eqb_spec g f) as [->|]; [|apply A9, Lg].
    destruct (A9 f L) as [Y|[Y [x Z]]]; [rewrite Y; left; reflexivity|]. rewrite Z. right. split; [exact Y|eauto].
Qed.
Lemma desc_set k p f d e : desc_of k p f = Some d -> desc_of (set_desc k p f e) p f = Some e.
Proof.
  intros D. apply find_desc_of. cbn [set_desc with_fds k_fds]. rewrite fd_find_set, N.eqb_refl, (desc_of_find _ _ _ _ D). reflexivity.
Qed.
Lemma desc_set_other k p f e q g : g <> f -> desc_of (set_desc k p f e) q g = desc_of k q g.
Proof.
  intros NE. unfold desc_of. cbn [set_desc with_fds k_fds]. rewrite fd_find_set. destruct (N.eqb_spec g f); [congruence|reflexivity].
Qed.

(** A step of flock. *)
Lemma wps_flock {A} F p (I : kst -> Prop) f d m (g : res unit -> prog A) Q k :
  desc_of k p f = Some d -> mode_of d = L_NONE -> with_mode d L_NONE = d -> I k ->
  (m <> L_NONE -> contended k f d m = false -> wps F p I (g (Ok tt)) Q (set_desc k p f (with_mode d m))) ->
  (m = L_NONE -> wps F p I (g (Ok tt)) Q k) ->
  (forall e, F (C_flock f m) = true \/ contended k f d m = true -> wps F p I (g (Er e)) Q k) ->
  wps F p I (pbind (flock f m) g) Q k.
Proof.
  intros D MO WM HI H1 H2 H3. unfold flock. destruct m.
  - cbn [pbind]. apply H2. reflexivity.
  - apply wps_unit; [exact HI| |auto]. intros s. cbn [kdo]. rewrite D. destruct (contended k f d L_READ) eqn:C; cbn [snd fst ures].
    + apply H3. auto.
    + apply H1; [discriminate|reflexivity].
  - apply wps_unit; [exact HI| |auto]. intros s. cbn [kdo]. rewrite D. destruct (contended k f d L_WRITE) eqn:C; cbn [snd fst ures].
    + apply H3. auto.
    + apply H1; [discriminate|reflexivity].
Qed.

Lemma grow_pindir p S k0 k : grow p S k0 k ->
  grow p S k0 (mkK true (k_ents k) (k_dirs k) (k_objs k) (k_fds k) (k_next k) (k_cpus k)).
Proof.
  intros [A1 A2 A3 A4 A5 A6 A7 A8 A9 A10]. constructor; auto.
  apply (sane_frame k); auto; [apply (kinv_same k); cbn; auto; [apply sane_kinv, A1|lia]|cbn; lia|exact (sane_uniq _ A1)|exact (sane_fdo _ A1)].
Qed.

Lemma opendir_pindir_ok F p (I : kst -> Prop) S k0 b : sane k0 -> (forall S k', grow p S k0 k' -> I k') -> k_next k0 <= b ->
  forall n k, grow p S k0 k -> desc_of k p b = Some D_bpffs -> (n <> O /\ (k_pindir k = true \/ n <> 1%nat)) ->
  wps F p I (opendir_pindir n b) (fun r k' =>
    match r with
    | Ok f => grow p (f :: S) k0 k' /\ desc_of k' p b = Some D_bpffs /\ desc_of k' p f = Some (D_pindir L_NONE) /\ k_next k0 <= f /\ f <> b
    | Er _ => grow p S k0 k' /\ desc_of k' p b = Some D_bpffs /\ faulty F
    end) k.
Proof.
  intros S0 HI LB. induction n as [|n IH]; intros k G D [N1 N2]; [congruence|].
  pose proof (ev_sane _ _ _ _ _ _ _ G) as SK. cbn [opendir_pindir].
  apply wps_fd; [eapply HI; exact G| |].
  - intros s. cbn [kdo]. rewrite D. destruct (k_pindir k) eqn:PD; cbn [new_fd snd fst fres].
    + assert (G1 : grow p (k_next k :: S) k0 (fst (new_fd k p (D_pindir L_NONE)))).
      { apply (grow_trans p S [k_next k] k0 k); [exact G|]. apply grow_fd; auto; discriminate. }
      cbn [new_fd fst] in G1. apply wps_ret; [eapply HI; exact G1|]. pose proof (ev_next _ _ _ _ _ _ _ G). pose proof (desc_lt _ _ _ _ SK D).
      split; [exact G1|]. split; [|split; [|split; lia]].
      * apply find_desc_of. cbn. destruct (N.eqb_spec b (k_next k)); [lia|]. apply desc_of_find, D.
      * apply find_desc_of. cbn. rewrite N.eqb_refl. reflexivity.
    + cbn [fres]. rewrite N.eqb_refl. apply wps_unit; [eapply HI; exact G| |].
      * intros s1. cbn [kdo]. rewrite D, PD. cbn [snd fst ures]. destruct N2 as [N2|N2]; [discriminate N2|].
        apply IH; [apply grow_pindir, G|exact D|split; [congruence|left; reflexivity]].
      * intros HF _ e. apply wps_ret; [eapply HI; exact G|]. split; [exact G|split; [exact D|eapply faulty_intro; exact HF]].
  - intros HF _ e. destruct (e =? ENOENT).
    + apply wps_unit; [eapply HI; exact G| |].
      * intros s1. cbn [kdo]. rewrite D. destruct (k_pindir k) eqn:PD; cbn [snd fst ures].
        -- apply wps_ret; [eapply HI; exact G|]. split; [exact G|split; [exact D|eapply faulty_intro; exact HF]].
        -- destruct N2 as [N2|N2]; [discriminate N2|]. apply IH; [apply grow_pindir, G|exact D|split; [congruence|left; reflexivity]].
      * intros HF' _ e'. apply wps_ret; [eapply HI; exact G|]. split; [exact G|split; [exact D|eapply faulty_intro; exact HF']].
    + apply wps_ret; [eapply HI; exact G|]. split; [exact G|split; [exact D|eapply faulty_intro; exact HF]].
Qed.

Definition owns (k : kst) (p : pid) (lk : lock) (b f : fd) (m : lmode) : Prop :=
  lk = mkLk (Some b) (Some f) m None /\ desc_of k p b = Some D_bpffs /\ desc_of k p f = Some (D_pindir m) /\ f <> b.

Lemma lock_init_ok F p (I : kst -> Prop) m k0 : sane k0 -> (forall S k', grow p S k0 k' -> I k') ->
  wps F p I (lock_init m) (fun r k' =>
    match r with
    | Ok lk => exists b f, owns k' p lk b f m /\ grow p [f; b] k0 k' /\ k_next k0 <= b /\ k_next k0 <= f
    | Er e => grow p [] k0 k' /\ (faulty F \/ clash k0 (D_pindir L_NONE) m)
    end) k0.
Proof.
  intros S0 HI. unfold lock_init. pose proof (evo_refl p k0 S0) as G0.
  apply wps_fd; [eapply HI; exact G0| |].
  - intros s. cbn [kdo new_fd snd fst fres]. set (b := k_next k0). set (k1 := with_next _).
    assert (G1 : grow p [b] k0 k1) by (apply (grow_fd k0 p D_bpffs); auto; discriminate).
    assert (D1 : desc_of k1 p b = Some D_bpffs) by (apply find_desc_of; cbn; fold b; rewrite N.eqb_refl; reflexivity).
    assert (Lb : k_next k0 <= b) by (unfold b; lia).
    apply wps_bind. eapply wps_post with (I := I); [auto| |apply (opendir_pindir_ok F p I [b] k0 b); auto].
    clear k1 G1 D1. intros [f|e] k1.
    + intros (G1 & D1 & D2 & L2 & NE). pose proof (ev_sane _ _ _ _ _ _ _ G1) as S1.
      apply (wps_flock F p I f (D_pindir L_NONE) m); auto; [eapply HI; exact G1| | |].
      * intros _ C. assert (G2 : grow p [f; b] k0 (set_desc k1 p f (with_mode (D_pindir L_NONE) m))) by (apply evo_flock; assumption).
        apply wps_ret; [eapply HI; exact G2|]. exists b, f. split; [|auto]. split; [reflexivity|]. split; [|split; [|exact NE]].
        -- rewrite desc_set_other by auto. exact D1.
        -- eapply desc_set. exact D2.
      * intros ->. apply wps_ret; [eapply HI; exact G1|]. exists b, f. split; [|auto]. split; [reflexivity|auto].
      * intros e CE.
        assert (CA : faulty F \/ clash k0 (D_pindir L_NONE) m).
        { destruct CE as [HF|C]; [left; eapply faulty_intro; exact HF|]. right.
          apply (contended_clash _ _ _ _ S1) in C as (g & q & d' & NG & FG & SP & CF).
          destruct (N.lt_ge_cases g (k_next k0)) as [LT|GE].
          - rewrite (ev_old _ _ _ _ _ _ _ G1) in FG by exact LT. exists g, q, d'. auto.
          - destruct (ev_new _ _ _ _ _ _ _ G1 g GE) as [Y|[Y [d Z]]]; [congruence|].
            destruct Y as [Y|[Y|[]]]; [congruence|]. subst g. rewrite (desc_of_find _ _ _ _ D1) in FG. injection FG as _ <-. discriminate SP. }
        cbn [lock_cleanup lk_bpffs release_chain lk_pin lk_chain pbind]. unfold close_opt.
        refine (pbind_assoc _ _ _ _ _ _ _ _ _). cbn [lk_pin].
        apply (wps_close F p I f (k_ents k0) None [] [f; b] [b] _ _ k0); auto; [intros x [<-|[<-|[]]]; cbn; auto|eapply HI; exact G1|].
        intros k2 FX DX OX NX G2.
        apply (wps_close F p I b (k_ents k0) None [] [b] [] _ _ k0); auto; [intros x [<-|[]]; auto|eapply HI; exact G2|].
        intros k3 _ _ _ _ G3. apply wps_ret; [eapply HI; exact G3|]. split; [exact G3|exact CA].
    + intros (G1 & D1 & HF). cbn [lock_cleanup lk_bpffs release_chain lk_pin lk_chain pbind close_opt].
      apply (wps_close F p I b (k_ents k0) None [] [b] [] _ _ k0); auto; [intros x [<-|[]]; auto|eapply HI; exact G1|].
      intros k3 _ _ _ _ G3. apply wps_ret; [eapply HI; exact G3|]. auto.
  - intros HF _ e. apply wps_ret; [eapply HI; exact G0|]. split; [exact G0|left; eapply faulty_intro; exact HF].
Qed.

(** ** Opening an existing chain directory *)
Lemma open_existing_ok F p (I : kst -> Prop) pd pm n m k0 : sane k0 -> (forall S k', grow p S k0 k' -> I k') ->
  desc_of k0 p pd = Some (D_pindir pm) ->
  forall fuel k, (fuel = O -> faulty F) -> grow p [] k0 k ->
  wps F p I (open_existing fuel pd n m) (fun r k' =>
    match r with
    | Ok f => exists i, ent_find n (k_ents k0) = Some i /\ grow p [f] k0 k' /\ desc_of k' p f = Some (D_dir i m) /\ k_next k0 <= f
    | Er e => grow p [] k0 k' /\ (faulty F \/ (e = ENOENT /\ ent_find n (k_ents k0) = None) \/
                exists i, ent_find n (k_ents k0) = Some i /\ clash k0 (D_dir i L_NONE) m)
    end) k.
Proof.
  intros S0 HI DP. induction fuel as [|fuel IH]; intros k HZ G; cbn [open_existing].
  - apply wps_ret; [eapply HI; exact G|]. split; [exact G|left; apply HZ; reflexivity].
  - pose proof (ev_sane _ _ _ _ _ _ _ G) as SK. pose proof (ev_next _ _ _ _ _ _ _ G) as NX. pose proof (ev_ents _ _ _ _ _ _ _ G) as EN.
    pose proof (grow_desc _ _ _ _ _ _ _ G S0 DP) as DPk.
    apply wps_fd; [eapply HI; exact G| |].
    2:{ intros HF _ e. apply wps_ret; [eapply HI; exact G|]. split; [exact G|left; eapply faulty_intro; exact HF]. }
    intros s. cbn [kdo]. unfold is_pindir. rewrite DPk. cbn [negb]. rewrite EN.
    destruct (ent_find n (k_ents k0)) as [i|] eqn:FN.
    2:{ cbn [snd fst fres]. apply wps_ret; [eapply HI; exact G|]. split; [exact G|right; left; auto]. }
    cbn [new_fd snd fst fres]. set (f := k_next k). set (k1 := with_next _).
    assert (G1 : grow p [f] k0 k1).
    { apply (grow_trans p [] [f] k0 k); [exact G|]. apply (grow_fd k p (D_dir i L_NONE)); auto; [|discriminate].
      intros j x H. injection H as <- _. apply (sane_ent _ SK n). rewrite EN. exact FN. }
    assert (D1 : desc_of k1 p f = Some (D_dir i L_NONE)) by (apply find_desc_of; cbn; fold f; rewrite N.eqb_refl; reflexivity).
    assert (Lf : k_next k0 <= f) by (unfold f; lia).
    assert (DP1 : desc_of k1 p pd = Some (D_pindir pm)) by (eapply grow_desc; [exact G1|exact S0|exact DP]).
    assert (E1 : k_ents k1 = k_ents k0) by exact EN.
    clearbody k1 f. pose proof (ev_sane _ _ _ _ _ _ _ G1) as S1.
    match goal with |- wps _ _ _ _ ?Q _ => set (QQ := Q) in * end.
    assert (TAIL : forall k2, grow p [f] k0 k2 -> desc_of k2 p f = Some (D_dir i m) ->
      wps F p I (Do (C_fstat f) (fun rs => match rs with
        | R_ino i => Do (C_stat pd n) (fun rt => match rt with
            | R_ino j => if i =? j then Ret (Ok f) else sys_ (C_close f) ;;; open_existing fuel pd n m
            | _ => sys_ (C_close f) ;;; open_existing fuel pd n m end)
        | R_err e => sys_ (C_close f) ;;; Ret (Er e)
        | _ => sys_ (C_close f) ;;; Ret (Er EINVAL) end)) QQ k2).
    { intros k2 G2 D2. pose proof (grow_desc _ _ _ _ _ _ _ G2 S0 DP) as DP2. pose proof (ev_ents _ _ _ _ _ _ _ G2) as E2.
      apply wps_step; [eapply HI; exact G2|]. split.
      - intros s1. cbn [kdo]. unfold dir_of. rewrite D2. cbn [snd fst].
        apply wps_step; [eapply HI; exact G2|]. split.
        + intros s2. cbn [kdo]. unfold is_pindir. rewrite DP2, E2, FN. cbn [negb snd fst]. rewrite N.eqb_refl.
          apply wps_ret; [eapply HI; exact G2|]. exists i. auto.
        + intros HF _ e. apply (wps_close F p I f (k_ents k0) None [] [f] [] _ _ k0); auto; [intros x [<-|[]]; auto|eapply HI; exact G2|].
          intros k3 _ _ _ _ G3.
          apply (IH k3); [intros _; eapply faulty_intro; exact HF|exact G3].
      - intros HF _ e. apply (wps_close F p I f (k_ents k0) None [] [f] [] _ _ k0); auto; [intros x [<-|[]]; auto|eapply HI; exact G2|].
        intros k3 _ _ _ _ G3. apply wps_ret; [eapply HI; exact G3|]. split; [exact G3|left; eapply faulty_intro; exact HF]. }
    apply (wps_flock F p I f (D_dir i L_NONE) m); auto; [eapply HI; exact G1| | |].
    + intros _ C. apply TAIL; [apply evo_flock; assumption|eapply desc_set; exact D1].
    + intros ->. apply TAIL; [exact G1|exact D1].
    + intros e CE. apply (wps_close F p I f (k_ents k0) None [] [f] [] _ _ k0); auto; [intros x [<-|[]]; auto|eapply HI; exact G1|].
      intros k3 _ _ _ _ G3. apply wps_ret; [eapply HI; exact G3|]. split; [exact G3|].
      destruct CE as [HF|C]; [left; eapply faulty_intro; exact HF|]. right. right. exists i. split; [reflexivity|].
      apply (contended_clash _ _ _ _ S1) in C as (g & q & d' & NG & FG & SP & CF).
      destruct (N.lt_ge_cases g (k_next k0)) as [LT|GE].
      * rewrite (ev_old _ _ _ _ _ _ _ G1) in FG by exact LT. exists g, q, d'. auto.
      * destruct (ev_new _ _ _ _ _ _ _ G1 g GE) as [Y|[Y _]]; [congruence|]. destruct Y as [Y|[]]. congruence.
Qed.

(** ** Creating a chain directory *)
Definition nothing : view := fun _ => None.
Definition being_made (p : pid) (k0 : kst) (n : name) (i : ino) (S : list fd) (k : kst) : Prop :=
  ent_find n (k_ents k0) = None /\ k_next k0 <= i /\ evo p ((n, i) :: k_ents k0) (Some (i, nothing)) [] S k0 k.

Lemma mkdir_made k0 k p n : sane k0 -> grow p [] k0 k -> ent_find n (k_ents k) = None ->
  being_made p k0 n (k_next k) [] (with_next (with_dir (with_ents k ((n, k_next k) :: k_ents k)) (k_next k) [])).
Proof.
  intros S0 G FN. pose proof (ev_sane _ _ _ _ _ _ _ G) as SK. pose proof (ev_ents _ _ _ _ _ _ _ G) as EN.
  destruct G as [A1 A2 A3 A4 A5 A6 A7 A8 A9 A10]. split; [rewrite <- EN; exact FN|]. split; [exact A2|].
  constructor; cbn [with_next with_dir with_ents k_next k_cpus k_ents k_dirs k_objs k_fds]; auto; try lia.
  - assert (K1 : kinv (with_next (with_dir (with_ents k ((n, k_next k) :: k_ents k)) (k_next k) []))).
    { pose proof (sane_kinv _ SK) as K.
      constructor; cbn [with_next with_dir with_ents k_fds k_ents k_next ent_find].
      - intros f x H. pose proof (ki_fd _ K _ _ H). lia.
      - intros m i. destruct (bytes_eqb m n); [intros H; injection H as <-; lia|]. intros H. pose proof (ki_ent _ K _ _ H). lia.
      - intros a b i. destruct (name_eqb_spec a n) as [->|]; destruct (name_eqb_spec b n) as [->|]; try congruence.
        + intros H X. injection H as <-. pose proof (ki_ent _ K _ _ X). lia.
        + intros X H. injection H as <-. pose proof (ki_ent _ K _ _ X). lia.
        + apply (ki_inj _ K).
      - intros f q i m H. pose proof (ki_dir _ K _ _ _ _ H). lia.
      - intros f g q r a b. apply (ki_lock _ K). }
    apply kinv_sane; [exact K1| | | | |]; cbn.
    + intros o v H. pose proof (sane_obj _ SK _ _ H). lia.
    + intros j q o. unfold updN. destruct (j =? k_next k); [discriminate|apply (sane_pin _ SK)].
    + exact (sane_fdo _ SK).
    + exact (sane_uniq _ SK).
    + intros j L. unfold updN. destruct (j =? k_next k); [reflexivity|apply (sane_fresh _ SK); lia].
  - rewrite EN. reflexivity.
  - intros j L _. rewrite updN_other by lia. apply A5; [exact L|discriminate].
  - intros i D H. injection H as <- <-. split; [lia|]. intros q. unfold dview. cbn [with_next with_dir with_ents k_dirs]. rewrite updN_same. reflexivity.
  - intros j L H. unfold updN. destruct (N.eqb_spec j (k_next k)) as [->|NE]; [reflexivity|]. apply A10; [exact L|discriminate].
Qed.

(** Taking the entry away again, or renaming it. *)
Lemma made_ents p k0 n i S k E : sane k0 -> being_made p k0 n i S k -> sane (with_ents k E) ->
  evo p E (Some (i, nothing)) [] S k0 (with_ents k E).
Proof.
  intros S0 (FN & LI & [A1 A2 A3 A4 A5 A6 A7 A8 A9 A10]) SK. constructor; auto.
Qed.
Lemma made_old p k0 i D0 S k E : k_next k0 <= i -> (forall q, D0 q = None) -> evo p E (Some (i, D0)) [] S k0 k -> evo p E None [] S k0 k.
Proof.
  intros LI EM [A1 A2 A3 A4 A5 A6 A7 A8 A9 A10]. constructor; auto; try discriminate.
  - intros j L _. apply A5; [exact L|]. intros D H. injection H as <- _. lia.
  - intros j L _. destruct (N.eq_dec j i) as [->|NE]; [|apply A10; [exact L|]; intros D H; injection H as <- _; exact (NE eq_refl)].
    apply view_empty. intros q. destruct (A6 _ _ eq_refl) as [_ V]. rewrite V. apply EM.
Qed.

Lemma wps_made_rmdir {A} F p (I : kst -> Prop) pd pm n i S (g : unit -> prog A) Q k0 k : sane k0 ->
  being_made p k0 n i S k -> desc_of k p pd = Some (D_pindir pm) -> I k ->
  (forall k', grow p S k0 k' -> k_fds k' = k_fds k -> wps F p I (g tt) Q k') ->
  wps F p I (pbind (sys_ (C_rmdir pd n)) g) Q k.
Proof.
  intros S0 B D HI H. pose proof B as (FN & LI & EV). apply wps_ign; [exact HI| |discriminate]. intros s.
  pose proof (kdo_sane k p (C_rmdir pd n) s (ev_sane _ _ _ _ _ _ _ EV)) as SN. revert SN.
  cbn [kdo]. unfold is_pindir. rewrite D. cbn [negb]. rewrite (ev_ents _ _ _ _ _ _ _ EV), ent_find_head.
  assert (ED : k_dirs k i = []) by (apply view_empty; apply (ev_view _ _ _ _ _ _ _ EV i nothing eq_refl)).
  rewrite ED. cbn [fst]. rewrite ent_del_head by exact FN. intros SN. apply H; [|reflexivity].
  eapply made_old; [exact LI|intros q; reflexivity|]. eapply made_ents; [exact S0|exact B|exact SN].
Qed.

Lemma make_staging_ok F p (I : kst -> Prop) pd pm k0 : sane k0 -> desc_of k0 p pd = Some (D_pindir pm) ->
  (forall S k', grow p S k0 k' -> I k') ->
  (forall S s i k', is_staging s = true -> being_made p k0 s i S k' -> I k') ->
  forall fuel, wps F p I (make_staging fuel pd) (fun r k' =>
    match r with
    | Ok s => exists i, is_staging s = true /\ being_made p k0 s i [] k' /\ k_fds k' = k_fds k0
    | Er e => grow p [] k0 k' /\ (faulty F \/ fuel = O \/ exists s, is_staging s = true /\ ent_find s (k_ents k0) <> None)
    end) k0.
Proof.
  intros S0 DP HA HB. pose proof (evo_refl p k0 S0) as G0. induction fuel as [|fuel IH]; cbn [make_staging].
  - apply wps_ret; [eapply HA; exact G0|]. auto.
  - apply wps_step; [eapply HA; exact G0|]. split; [|discriminate]. intros s. cbn [kdo snd fst].
    assert (ST : is_staging (staging_prefix ++ s) = true).
    { unfold is_staging. assert (X : forall p n, has_prefix p (p ++ n) = true); [|apply X].
      induction p0 as [|x l IHl]; intros y; cbn [has_prefix app]; [reflexivity|]. rewrite N.eqb_refl. apply IHl. }
    apply wps_unit; [eapply HA; exact G0| |].
    + intros s1. cbn [kdo]. unfold is_pindir. rewrite DP. cbn [negb].
      destruct (ent_find (staging_prefix ++ s) (k_ents k0)) eqn:FN; cbn [snd fst ures].
      * rewrite N.eqb_refl. eapply wps_post; [| |exact IH]; [auto|]. cbn beta. intros [x|e] k'; [auto|].
        intros (GK & _). split; [exact GK|]. right. right. exists (staging_prefix ++ s). split; [exact ST|congruence].
      * pose proof (mkdir_made k0 k0 p _ S0 G0 FN) as B.
        apply wps_ret; [eapply HB; [exact ST|exact B]|]. eauto.
    + intros HF _ e. destruct (e =? EEXIST).
      * eapply wps_post; [| |exact IH]; [auto|]. cbn beta. intros [x|e'] k'; [auto|].
        intros (GK & _). split; [exact GK|left; eapply faulty_intro; exact HF].
      * apply wps_ret; [eapply HA; exact G0|]. split; [exact G0|left; eapply faulty_intro; exact HF].
Qed.

Lemma made_fd p k0 n i k d : sane k0 -> being_made p k0 n i [] k -> mode_of d = L_NONE -> (forall j m, d = D_dir j m -> j < k_next k) ->
  (forall o, d <> D_obj o) -> being_made p k0 n i [k_next k] (fst (new_fd k p d)).
Proof.
  intros S0 (FN & LI & EV) M H1 H2. split; [exact FN|split; [exact LI|]].
  apply (evo_grow p _ _ _ [] [k_next k] k0 k); [exact EV|]. apply grow_fd; auto; [exact (ev_sane _ _ _ _ _ _ _ EV)|].
  intros o X. destruct (H2 o X).
Qed.

Lemma stage_and_publish_ok F p (I : kst -> Prop) pd pm n k0 : sane k0 -> desc_of k0 p pd = Some (D_pindir pm) ->
  (forall S k', grow p S k0 k' -> I k') ->
  (forall S s i k', s = n \/ is_staging s = true -> being_made p k0 s i S k' -> I k') ->
  wps F p I (stage_and_publish pd n) (fun r k' =>
    match r with
    | Ok f => exists i, being_made p k0 n i [f] k' /\ desc_of k' p f = Some (D_dir i L_WRITE) /\ k_next k0 <= f
    | Er e => grow p [] k0 k' /\ (faulty F \/ (exists s, is_staging s = true /\ ent_find s (k_ents k0) <> None) \/
                 ent_find n (k_ents k0) <> None \/ is_staging n = true)
    end) k0.
Proof.
  intros S0 DP HA HB. unfold stage_and_publish. apply wps_bind.
  eapply wps_post with (I := I); [auto| |apply (make_staging_ok F p I pd pm k0 S0 DP HA)]; cycle 1.
  { intros S s i k' H1 H2. eapply HB; [right; exact H1|exact H2]. }
  intros [s|e] k.
  2:{ intros (G & C). apply wps_ret; [eapply HA; exact G|]. split; [exact G|]. destruct C as [C|[C|C]]; [auto|discriminate C|auto]. }
  intros (i & ST & B & FD). pose proof B as (FN & LI & EV). pose proof (ev_sane _ _ _ _ _ _ _ EV) as SK.
  assert (HB' : forall S k', being_made p k0 s i S k' -> I k') by (intros S k' X; eapply HB; [right; exact ST|exact X]).
  assert (DPk : desc_of k p pd = Some (D_pindir pm)) by (unfold desc_of in *; rewrite FD; exact DP).
  assert (LIk : i < k_next k) by (eapply (ev_view _ _ _ _ _ _ _ EV); reflexivity).
  apply wps_fd; [eapply HB'; exact B| |].
  2:{ intros HF _ e. apply (wps_made_rmdir F p I pd pm s i [] _ _ k0); auto; [eapply HB'; exact B|].
      intros k' G _. apply wps_ret; [eapply HA; exact G|]. split; [exact G|left; eapply faulty_intro; exact HF]. }
  intros x. cbn [kdo]. unfold is_pindir. rewrite DPk. cbn [negb]. rewrite (ev_ents _ _ _ _ _ _ _ EV), ent_find_head.
  cbn [new_fd snd fst fres]. set (f := k_next k). set (k1 := with_next _).
  assert (B1 : being_made p k0 s i [f] k1).
  { apply (made_fd p k0 s i k (D_dir i L_NONE)); auto; [|discriminate]. intros j m H. injection H as <- _. exact LIk. }
  assert (D1 : desc_of k1 p f = Some (D_dir i L_NONE)) by (apply find_desc_of; cbn; fold f; rewrite N.eqb_refl; reflexivity).
  assert (Lf : k_next k0 <= f) by (unfold f; pose proof (ev_next _ _ _ _ _ _ _ EV); lia).
  clearbody f k1. clear EV B SK DPk LIk FD k. pose proof B1 as (_ & _ & E1). pose proof (ev_sane _ _ _ _ _ _ _ E1) as S1.
  assert (DPk : desc_of k1 p pd = Some (D_pindir pm)) by (eapply evo_desc; [exact E1|exact S0|exact DP]).
  assert (FAIL : forall k e, being_made p k0 s i [f] k -> (faulty F \/ ent_find n (k_ents k0) <> None \/ is_staging n = true) ->
    wps F p I (sys_ (C_rmdir pd s) ;;; sys_ (C_close f) ;;; Ret (Er e)) (fun r k' =>
      match r with
      | Ok f => exists i, being_made p k0 n i [f] k' /\ desc_of k' p f = Some (D_dir i L_WRITE) /\ k_next k0 <= f
      | Er e => grow p [] k0 k' /\ (faulty F \/ (exists s, is_staging s = true /\ ent_find s (k_ents k0) <> None) \/
                 ent_find n (k_ents k0) <> None \/ is_staging n = true)
      end) k).
  { intros k e B C. pose proof B as (_ & _ & E). apply (wps_made_rmdir F p I pd pm s i [f] _ _ k0); auto; [eapply evo_desc; [exact E|exact S0|exact DP]|eapply HB'; exact B|].
    intros k' G _. apply (wps_close F p I f (k_ents k0) None [] [f] [] _ _ k0); auto; [intros y [<-|[]]; auto|eapply HA; exact G|].
    intros k3 _ _ _ _ G3. apply wps_ret; [eapply HA; exact G3|]. split; [exact G3|tauto]. }
  apply (wps_flock F p I f (D_dir i L_NONE) L_WRITE); auto; [eapply HB'; exact B1| |discriminate|].
  - intros _ C. set (k2 := set_desc k1 p f _).
    assert (E2 : evo p ((s, i) :: k_ents k0) (Some (i, nothing)) [] [f] k0 k2) by (apply evo_flock; assumption).
    assert (D2 : desc_of k2 p f = Some (D_dir i L_WRITE)) by (eapply desc_set; exact D1).
    clearbody k2. assert (B2 : being_made p k0 s i [f] k2) by (split; [exact FN|split; [exact LI|exact E2]]).
    assert (DP2 : desc_of k2 p pd = Some (D_pindir pm)) by (eapply evo_desc; [exact E2|exact S0|exact DP]).
    apply wps_unit; [eapply HB'; exact B2| |].
    + intros y. pose proof (kdo_sane k2 p (C_rename pd s n) y (ev_sane _ _ _ _ _ _ _ E2)) as SN. revert SN.
      cbn [kdo]. unfold is_pindir. rewrite DP2. cbn [negb]. rewrite (ev_ents _ _ _ _ _ _ _ E2), ent_find_head.
      destruct (name_eqb_spec n s) as [->|NS].
      * rewrite ent_find_head. cbn [snd fst ures]. intros _. apply FAIL; [exact B2|auto].
      * rewrite ent_find_skip by exact NS. destruct (ent_find n (k_ents k0)) eqn:FX; cbn [snd fst ures].
        -- intros _. apply FAIL; [exact B2|]. right. left. discriminate.
        -- rewrite ent_del_head by exact FN. intros SN.
           assert (E3 : evo p ((n, i) :: k_ents k0) (Some (i, nothing)) [] [f] k0 (with_ents k2 ((n, i) :: k_ents k0))) by (eapply made_ents; eauto).
           assert (B3 : being_made p k0 n i [f] (with_ents k2 ((n, i) :: k_ents k0))) by (split; [exact FX|split; [exact LI|exact E3]]).
           apply wps_ret; [eapply HB; [left; reflexivity|exact B3]|]. exists i. auto.
    + intros HF _ e. apply FAIL; [exact B2|left; eapply faulty_intro; exact HF].
  - intros e CE. destruct CE as [HF|C]; [apply FAIL; [exact B1|left; eapply faulty_intro; exact HF]|].
    apply (contended_clash _ _ _ _ S1) in C as (g & q & d' & NG & FG & SP & CF).
    destruct (N.lt_ge_cases g (k_next k0)) as [LT|GE].
    + rewrite (ev_old _ _ _ _ _ _ _ E1) in FG by exact LT. destruct d'; try discriminate SP.
      cbn [same_place] in SP. apply N.eqb_eq in SP. subst i0. pose proof (sane_dir _ S0 _ _ _ _ FG). lia.
    + destruct (ev_new _ _ _ _ _ _ _ E1 g GE) as [Y|[Y _]]; [congruence|]. destruct Y as [Y|[]]. congruence.
Qed.

(** ** bf_lock_acquire_chain *)
Lemma acquire_old_ok F p (I : kst -> Prop) lk b f pm n m k0 : sane k0 -> owns k0 p lk b f pm -> (forall S k', grow p S k0 k' -> I k') ->
  wps F p I (acquire_chain lk n m false) (fun r k' =>
    match r with
    | Ok lk' => exists c i, lk' = mkLk (Some b) (Some f) pm (Some (c, n, m)) /\ ent_find n (k_ents k0) = Some i /\
        grow p [c] k0 k' /\ desc_of k' p c = Some (D_dir i m) /\ k_next k0 <= c
    | Er e => grow p [] k0 k' /\ (faulty F \/ (e = ENOENT /\ ent_find n (k_ents k0) = None) \/
                exists i, ent_find n (k_ents k0) = Some i /\ clash k0 (D_dir i L_NONE) m)
    end) k0.
Proof.
  intros S0 (-> & D1 & D2 & NE) HI. pose proof (evo_refl p k0 S0) as G0. unfold acquire_chain. cbn [lk_bpffs lk_pin lk_chain lk_pinmode andb].
  apply wps_alloc; [eapply HI; exact G0| |].
  - apply wps_bind. eapply wps_post with (I := I); [auto| |apply (open_existing_ok F p I f pm n m k0 S0 HI D2); [discriminate|exact G0]].
    intros [c|e] k1.
    + intros (i & A & B & C & D). apply wps_ret; [eapply HI; exact B|]. exists c, i. auto.
    + intros (A & B). apply wps_ret; [eapply HI; exact A|]. auto.
  - intros HF e. apply wps_ret; [eapply HI; exact G0|]. split; [exact G0|left; eapply faulty_intro; exact HF].
Qed.
Definition refused (F : call -> bool) (k0 : kst) (n : name) : Prop :=
  faulty F \/ (exists s, is_staging s = true /\ ent_find s (k_ents k0) <> None) \/ ent_find n (k_ents k0) <> None \/ is_staging n = true.
Lemma acquire_new_ok F p (I : kst -> Prop) lk b f n k0 : sane k0 -> owns k0 p lk b f L_WRITE -> (forall S k', grow p S k0 k' -> I k') ->
  (forall S s i k', s = n \/ is_staging s = true -> being_made p k0 s i S k' -> I k') ->
  wps F p I (acquire_chain lk n L_WRITE true) (fun r k' =>
    match r with
    | Ok lk' => exists c i, lk' = mkLk (Some b) (Some f) L_WRITE (Some (c, n, L_WRITE)) /\ being_made p k0 n i [c] k' /\
        desc_of k' p c = Some (D_dir i L_WRITE) /\ k_next k0 <= c
    | Er e => grow p [] k0 k' /\ refused F k0 n
    end) k0.
Proof.
  intros S0 (-> & D1 & D2 & NE) HI HB. pose proof (evo_refl p k0 S0) as G0. unfold acquire_chain. cbn [lk_bpffs lk_pin lk_chain lk_pinmode andb is_write negb].
  apply wps_alloc; [eapply HI; exact G0| |].
  - apply wps_bind. eapply wps_post with (I := I); [auto| |apply (stage_and_publish_ok F p I f L_WRITE n k0 S0 D2 HI HB)].
    intros [c|e] k1.
    + intros (i & A & B & C). apply wps_ret; [eapply HB; [left; reflexivity|exact A]|]. exists c, i. auto.
    + intros (A & B). apply wps_ret; [eapply HI; exact A|]. auto.
  - intros HF e. apply wps_ret; [eapply HI; exact G0|]. split; [exact G0|left; eapply faulty_intro; exact HF].
Qed.

(** ** Releasing *)

(** The entries after the chain lock of mode [m] on [n] is released: an empty directory
    goes away with an exclusive lock. *)
Definition trim (k : kst) (m : lmode) (n : name) : list (name * ino) :=
  match m with
  | L_WRITE => match ent_find n (k_ents k) with
               | Some i => match k_dirs k i with [] => ent_del n (k_ents k) | _ :: _ => k_ents k end
               | None => k_ents k
               end
  | _ => k_ents k
  end.
(** Descriptors are closed and the entries become [E]. *)
Record cle (E : list (name * ino)) (k k' : kst) : Prop := {
  ce_sane : sane k'; ce_pindir : k_pindir k' = k_pindir k; ce_ents : k_ents k' = k_ents k \/ k_ents k' = E;
  ce_dirs : k_dirs k' = k_dirs k; ce_objs : k_objs k' = k_objs k; ce_next : k_next k' = k_next k; ce_cpus : k_cpus k' = k_cpus k;
  ce_fds : forall f x, fd_find f (k_fds k') = Some x -> fd_find f (k_fds k) = Some x
}.
Lemma cle_refl E k : sane k -> cle E k k. Proof. constructor; auto. Qed.
Lemma cle_cl E a b c : cle E a b -> cl b c -> cle E a c.
Proof.
  intros [A1 A2 A3 A4 A5 A6 A7 A8] [B1 B2 B3 B4 B5 B6 B7 B8]. constructor; try congruence; auto.
Qed.
Lemma cl_cle E a b c : cl a b -> cle E b c -> cle E a c.
Proof.
  intros [A1 A2 A3 A4 A5 A6 A7 A8] [B1 B2 B3 B4 B5 B6 B7 B8]. constructor; try congruence; auto.
Qed.

Lemma trim_step p pd pm n m k : sane k -> desc_of k p pd = Some (D_pindir pm) -> m = L_WRITE ->
  forall s, k_ents (fst (kdo k p (C_rmdir pd n) s)) = trim k m n /\ cle (trim k m n) k (fst (kdo k p (C_rmdir pd n) s)) /\
            k_fds (fst (kdo k p (C_rmdir pd n) s)) = k_fds k.
Proof.
  intros S D -> s. pose proof (kdo_sane k p (C_rmdir pd n) s S) as SN. revert SN.
  cbn [kdo trim]. unfold is_pindir. rewrite D. cbn [negb].
  destruct (ent_find n (k_ents k)); [|intros _; split; [reflexivity|split; [apply cle_refl, S|reflexivity]]].
  destruct (k_dirs k i) eqn:DI; [|intros _; split; [reflexivity|split; [apply cle_refl, S|reflexivity]]].
  cbn [fst with_ents k_ents k_fds]. intros SN. split; [reflexivity|]. split; [|reflexivity].
  constructor; auto.
Qed.
Lemma evo_cle p E X M S k0 k E' k' : evo p E X M S k0 k -> cle E' k k' -> k_ents k' = E' -> k_fds k' = k_fds k -> evo p E' X M S k0 k'.
Proof.
  intros [A1 A2 A3 A4 A5 A6 A7 A8 A9 A10] [B1 B2 B3 B4 B5 B6 B7 B8] EE FF. constructor; rewrite ?B6, ?B7, ?B4, ?B5, ?FF; auto.
  intros i D H. unfold dview. rewrite B4. apply A6, H.
Qed.

Lemma release_chain_ok F p (I : kst -> Prop) b pd pm c n m E X M S S' k0 k : sane k0 ->
  evo p E X M S k0 k -> desc_of k p pd = Some (D_pindir pm) -> k_next k0 <= c -> (forall x, In x S -> In x S' \/ x = c) ->
  (forall E' Z k', cle (trim k m n) k k' -> evo p E' X M Z k0 k' -> I k') ->
  wps F p I (release_chain (mkLk (Some b) (Some pd) pm (Some (c, n, m)))) (fun lk' k' =>
    lk' = mkLk (Some b) (Some pd) pm None /\ evo p (trim k m n) X M S' k0 k' /\ cle (trim k m n) k k' /\
    (forall x, x <> c -> fd_find x (k_fds k') = fd_find x (k_fds k))) k.
Proof.
  intros S0 EV DP LC HS HI. pose proof (ev_sane _ _ _ _ _ _ _ EV) as SK. unfold release_chain. cbn [lk_bpffs lk_pin lk_chain lk_pinmode].
  assert (T : forall k1, evo p (trim k m n) X M S k0 k1 -> cle (trim k m n) k k1 -> k_fds k1 = k_fds k ->
    wps F p I (sys_ (C_close c) ;;; Ret (mkLk (Some b) (Some pd) pm None)) (fun lk' k' =>
      lk' = mkLk (Some b) (Some pd) pm None /\ evo p (trim k m n) X M S' k0 k' /\ cle (trim k m n) k k' /\
      (forall x, x <> c -> fd_find x (k_fds k') = fd_find x (k_fds k))) k1).
  { intros k1 E1 C1 F1. apply wps_bind.
    eapply wps_post with (I := I); [auto| |apply (closes_one p c F I k0 (trim k m n) X M S S' k1 E1 S0)].
    - intros [] k2 (C2 & E2 & F2). apply wps_ret; [eapply HI; [eapply cle_cl; eassumption|exact E2]|].
      split; [reflexivity|split; [exact E2|split; [eapply cle_cl; eassumption|]]].
      intros x NX. rewrite F2 by (intros [Y|[]]; congruence). rewrite F1. reflexivity.
    - intros x [<-|[]]. exact LC.
    - intros x Hx. destruct (HS x Hx) as [Y|Y]; [left; exact Y|right; left; auto].
    - intros Z k2 C2 E2. eapply HI; [eapply cle_cl; eassumption|exact E2]. }
  destruct m.
  - cbn [pbind]. apply T; [rewrite <- (ev_ents _ _ _ _ _ _ _ EV) in EV; exact EV|apply cle_refl, SK|reflexivity].
  - cbn [pbind]. apply T; [rewrite <- (ev_ents _ _ _ _ _ _ _ EV) in EV; exact EV|apply cle_refl, SK|reflexivity].
  - apply wps_ign; [eapply HI; [apply cle_refl, SK|exact EV]| |discriminate].
    intros s. destruct (trim_step p pd pm n L_WRITE k SK DP eq_refl s) as (A1 & A2 & A3).
    apply T; [eapply evo_cle; eauto|exact A2|exact A3].
Qed.

Definition lock_fds (b pd : fd) : list fd := [pd; b].
Lemma lock_cleanup_ok F p (I : kst -> Prop) b pd pm E X M S S' k0 k : sane k0 ->
  evo p E X M S k0 k -> k_next k0 <= b -> k_next k0 <= pd -> (forall x, In x S -> In x S' \/ x = b \/ x = pd) ->
  (forall Z k', cl k k' -> evo p E X M Z k0 k' -> I k') ->
  wps F p I (lock_cleanup (mkLk (Some b) (Some pd) pm None)) (fun _ k' => evo p E X M S' k0 k' /\ cl k k') k.
Proof.
  intros S0 EV LB LP HS HI. unfold lock_cleanup. cbn [lk_bpffs release_chain lk_pin lk_chain pbind close_opt].
  eapply wps_post with (I := I); [auto| |apply (closes_bind p _ [pd] _ [b] (closes_one p pd) (closes_one p b) F I k0 E X M S S' k EV S0)].
  - intros [] k' (A & B & _). auto.
  - intros f [<-|[<-|[]]]; assumption.
  - intros x Hx. destruct (HS x Hx) as [Y|[Y|Y]]; [auto| |]; subst; right; cbn; auto.
  - exact HI.
Qed.
Lemma chain_cleanup_ok F p (I : kst -> Prop) b pd pm c n m E X M S S' k0 k : sane k0 ->
  evo p E X M S k0 k -> desc_of k p pd = Some (D_pindir pm) -> k_next k0 <= c -> k_next k0 <= b -> k_next k0 <= pd ->
  (forall x, In x S -> In x S' \/ x = c \/ x = b \/ x = pd) ->
  (forall E' Z k', cle (trim k m n) k k' -> evo p E' X M Z k0 k' -> I k') ->
  wps F p I (lock_cleanup (mkLk (Some b) (Some pd) pm (Some (c, n, m)))) (fun _ k' =>
    evo p (trim k m n) X M S' k0 k' /\ cle (trim k m n) k k') k.
Proof.
  intros S0 EV DP LC LB LP HS HI.
  assert (R : forall Q, wps F p I (pbind (release_chain (mkLk (Some b) (Some pd) pm (Some (c, n, m)))) (fun lk' => lock_cleanup lk')) Q k ->
              wps F p I (lock_cleanup (mkLk (Some b) (Some pd) pm (Some (c, n, m)))) Q k).
  { intros Q H. unfold lock_cleanup at 1. cbn [lk_bpffs].
    revert H. unfold release_chain. cbn [lk_bpffs lk_pin lk_chain lk_pinmode].
    intros H. destruct m; exact H. }
  apply R. apply wps_bind.
  eapply wps_post with (I := I); [auto| |apply (release_chain_ok F p I b pd pm c n m E X M S (S' ++ [b; pd]) k0 k); auto].
  - intros lk k1 (-> & E1 & C1 & _).
    eapply wps_post with (I := I); [auto| |apply (lock_cleanup_ok F p I b pd pm (trim k m n) X M (S' ++ [b; pd]) S' k0 k1); auto].
    + intros [] k2 (E2 & C2). split; [exact E2|eapply cle_cl; eassumption].
    + intros x Hx. apply in_app_or in Hx as [Y|[<-|[<-|[]]]]; auto.
    + intros Z k2 C2 E2. eapply HI; [eapply cle_cl; eassumption|exact E2].
  - intros x Hx. destruct (HS x Hx) as [Y|[Y|[Y|Y]]]; [left; apply in_or_app; auto|auto| |]; left; apply in_or_app; right; subst; cbn; auto.
Qed.
