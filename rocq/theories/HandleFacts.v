(** Handles: building, pinning, restoring and freeing them. *)
From Coq Require Import NArith ZArith List Bool Lia.
From Verif Require Import Bytes Types World BpfModel GenModel BytesFacts StrModel SetModel MapModel PackModel PackSpec HookModel KernModel LockModel CtlModel SysSpec SysFacts RelyFacts SeqFacts StageFacts EvoFacts CtlSpec.
Import ListNotations.
Local Open Scope N_scope.

Lemma Forall2_impl {A B} (P Q : A -> B -> Prop) l r : (forall a b, P a b -> Q a b) -> Forall2 P l r -> Forall2 Q l r.
Proof. intros H. induction 1; constructor; auto. Qed.

(** ** More single calls *)
Lemma wps_fill {A} F p (I : kst -> Prop) f m o m0 (g : res unit -> prog A) Q k :
  desc_of k p f = Some (D_obj o) -> k_objs k o = Some (O_set m0) -> I k ->
  wps F p I (g (Ok tt)) Q (with_obj k o (O_set m)) ->
  (F (C_set_fill f m) = true -> forall e, wps F p I (g (Er e)) Q k) ->
  wps F p I (pbind (sys_unit (C_set_fill f m)) g) Q k.
Proof.
  intros D O HI H1 H2. apply wps_unit; [exact HI| |auto]. intros s. cbn [kdo]. unfold obj_of. rewrite D, O. exact H1.
Qed.
Lemma wps_poke {A} F p (I : kst -> Prop) f o (g : res unit -> prog A) Q k :
  desc_of k p f = Some (D_obj o) -> k_objs k o = Some O_map -> I k ->
  wps F p I (g (Ok tt)) Q k ->
  (F (C_map_poke f) = true -> forall e, wps F p I (g (Er e)) Q k) ->
  wps F p I (pbind (sys_unit (C_map_poke f)) g) Q k.
Proof.
  intros D O HI H1 H2. apply wps_unit; [exact HI| |auto]. intros s. cbn [kdo]. unfold obj_of. rewrite D, O. exact H1.
Qed.
Lemma wps_ctx_write {A} F p (I : kst -> Prop) f x o x0 (g : res unit -> prog A) Q k :
  desc_of k p f = Some (D_obj o) -> k_objs k o = Some (O_ctx x0) -> I k ->
  wps F p I (g (Ok tt)) Q (with_obj k o (O_ctx (Some x))) ->
  (F (C_ctx_write f x) = true -> forall e, wps F p I (g (Er e)) Q k) ->
  wps F p I (pbind (sys_unit (C_ctx_write f x)) g) Q k.
Proof.
  intros D O HI H1 H2. apply wps_unit; [exact HI| |auto]. intros s. cbn [kdo]. unfold obj_of. rewrite D, O. exact H1.
Qed.
Lemma wps_cnt_write {A} F p (I : kst -> Prop) f i l o n v (g : res unit -> prog A) Q k :
  desc_of k p f = Some (D_obj o) -> k_objs k o = Some (O_counters n v) -> i < n -> I k ->
  wps F p I (g (Ok tt)) Q (with_obj k o (O_counters n (updN v i l))) ->
  (F (C_cnt_write f i l) = true -> forall e, wps F p I (g (Er e)) Q k) ->
  wps F p I (pbind (sys_unit (C_cnt_write f i l)) g) Q k.
Proof.
  intros D O L HI H1 H2. apply wps_unit; [exact HI| |auto]. intros s. cbn [kdo]. unfold obj_of. rewrite D, O.
  destruct (N.ltb_spec i n); [exact H1|lia].
Qed.

Lemma all_some_map {A B} (f : A -> option B) l r : Forall2 (fun a b => f a = Some b) l r -> all_some f l = Some r.
Proof. induction 1 as [|a b l r H _ IH]; cbn [all_some]; [reflexivity|]. rewrite H. fold (all_some f l). rewrite IH. reflexivity. Qed.

Lemma wps_prog {A} F p (I : kst -> Prop) img fs cf ss cm (g : res fd -> prog A) Q k : sane k ->
  Forall2 (fun f o => desc_of k p f = Some (D_obj o)) fs ss -> desc_of k p cf = Some (D_obj cm) -> I k ->
  (forall k' f o, grow p [f] k k' -> desc_of k' p f = Some (D_obj o) -> k_objs k' o = Some (O_prog img ss cm) ->
     k_next k <= o < k_next k' -> k_next k <= f -> wps F p I (g (Ok f)) Q k') ->
  (F (C_prog_load img fs cf) = true -> forall e, wps F p I (g (Er e)) Q k) ->
  wps F p I (pbind (sys_fd (C_prog_load img fs cf)) g) Q k.
Proof.
  intros S FS DC HI H1 H2. apply wps_fd; [exact HI| |auto]. intros s. cbn [kdo].
  rewrite (all_some_map (oid_of k p) fs ss); [|eapply Forall2_impl; [|exact FS]; intros a b H; unfold oid_of; rewrite H; reflexivity].
  unfold oid_of at 1 2. rewrite DC.
  destruct (new_obj_facts k p (O_prog img ss cm) S) as (A1 & A2 & A3 & A4). rewrite A3. cbn [fres].
  apply H1 with (o := k_next k); auto; [apply grow_new, S|lia|lia].
Qed.

Lemma wps_link_create {A} F p (I : kst -> Prop) pf h t po img ss cm (g : res fd -> prog A) Q k : sane k ->
  desc_of k p pf = Some (D_obj po) -> k_objs k po = Some (O_prog img ss cm) -> I k ->
  (forall k' f o, grow p [f] k k' -> desc_of k' p f = Some (D_obj o) -> k_objs k' o = Some (O_link h t po false) ->
     k_next k <= o < k_next k' -> k_next k <= f -> wps F p I (g (Ok f)) Q k') ->
  (F (C_link_create pf h t) = true -> forall e, wps F p I (g (Er e)) Q k) ->
  wps F p I (pbind (sys_fd (C_link_create pf h t)) g) Q k.
Proof.
  intros S D O HI H1 H2. apply wps_fd; [exact HI| |auto]. intros s. cbn [kdo]. unfold obj_of. rewrite D, O.
  destruct (new_obj_facts k p (O_link h t po false) S) as (A1 & A2 & A3 & A4). rewrite A3. cbn [fres].
  apply H1 with (o := k_next k); auto; [apply grow_new, S|lia|lia].
Qed.

(** The result of a call, passed on. *)
Lemma pbind_assoc {A B C} (m : prog A) (f : A -> prog B) (g : B -> prog C) :
  forall F p I Q k, wps F p I (pbind m (fun a => pbind (f a) g)) Q k -> wps F p I (pbind (pbind m f) g) Q k.
Proof.
  induction m as [a|c h IH]; intros F p I Q k; cbn [pbind wps]; [auto|].
  intros [A1 A2]. split; [exact A1|]. intros d E. apply IH, A2, E.
Qed.

Lemma faulty_intro F c : F c = true -> faulty F. Proof. intros H; exists c; exact H. Qed.
Lemma no_fault_not : ~ faulty no_fault. Proof. intros [c H]. discriminate H. Qed.

(** A descriptor of a new object. *)
Definition newfd (k0 k : kst) (p : pid) (f : fd) (o : oid) (v : obj) : Prop :=
  k_next k0 <= f /\ k_next k0 <= o /\ desc_of k p f = Some (D_obj o) /\ k_objs k o = Some v.

Lemma newfd_grow k0 k k' p q S f o v : grow q S k k' -> sane k -> newfd k0 k p f o v -> newfd k0 k' p f o v.
Proof.
  intros G K (A & B & C & D). split; [exact A|]. split; [exact B|]. split; [eapply grow_desc; eauto|eapply grow_obj; eauto].
Qed.
Lemma newfd_fill k0 k p f o v o' v' : o <> o' -> newfd k0 k p f o v -> newfd k0 (with_obj k o' v') p f o v.
Proof.
  intros N (A & B & C & D). split; [exact A|]. split; [exact B|]. split; [exact C|]. cbn. rewrite updN_other by exact N. exact D.
Qed.

(** ** Pins and descriptors of a handle *)
Definition lpins (l : option link) : list (pname * fd) :=
  match l with Some l => (P_link, l_fd l) :: opt_map P_link_extra (l_extra l) | None => [] end.
Definition hpins (h : handle) : list (pname * fd) := opt_map P_prog (h_prog h) ++ h_maps h ++ lpins (h_link h).
Definition hfds (h : handle) : list fd := map snd (hpins h).
Definition hrel (k : kst) (p : pid) (h : handle) (q : pname) (o : oid) : Prop :=
  exists f, In (q, f) (hpins h) /\ desc_of k p f = Some (D_obj o).
(** The handle's objects are complete for [ch]. *)
Definition good (k : kst) (p : pid) (ch : chain) (h : handle) : Prop := complete_at (hrel k p h) (k_objs k) ch (handle_desc h).

Lemma complete_mono (R R' : pname -> oid -> Prop) (O O' : oid -> option obj) ch hd :
  (forall q o, R q o -> R' q o) -> (forall q o v, R q o -> O o = Some v -> O' o = Some v) -> complete_at R O ch hd -> complete_at R' O' ch hd.
Proof.
  intros HR HO [(img & po & ss & cm & v & B1 & B2 & B3 & B4 & B5 & B6 & B7 & B8) C1 C2 C3 C4 C5]. constructor; auto.
  - exists img, po, ss, cm, v. repeat match goal with |- _ /\ _ => split end; eauto.
    + eapply Forall2_impl; [|exact B6]. auto.
    + clear -HO B6 B7. revert B7. generalize (build_groups (c_sets ch)). revert B6. generalize (set_names ch). intros l H.
      induction H as [|q o l ss H1 _ IH]; intros gs H2; inversion H2; subst; constructor; eauto.
    + destruct (hd_link hd) as [[hk opts]|]; [|exact B8]. destruct B8 as (D1 & (lo & t & D2 & D3 & D4) & D5).
      split; [exact D1|]. split; [exists lo, t; eauto|]. intros X. destruct (D5 X) as (lx & t' & E1 & E2 & E3). exists lx, t'; eauto.
  - destruct C2 as [C2 (o & X & Y)]. split; [exact C2|]. exists o; eauto.
  - destruct C3 as [C3 X]. split; [exact C3|]. intros Y. destruct (X Y) as (o & X1 & X2). exists o; eauto.
  - destruct C4 as [C4 X]. split; [exact C4|]. intros Y. destruct (X Y) as (o & X1 & X2). exists o; eauto.
Qed.

(** All descriptors of the handle are new; they refer to new objects. *)
Definition hnew (k0 k : kst) (p : pid) (h : handle) : Prop :=
  forall q f, In (q, f) (hpins h) -> exists o v, newfd k0 k p f o v.

Lemma hnew_grow k0 k k' p q S h : grow q S k k' -> sane k -> hnew k0 k p h -> hnew k0 k' p h.
Proof. intros G K H a f Hf. destruct (H a f Hf) as (o & v & X). exists o, v. eapply newfd_grow; eauto. Qed.

(** ** Building *)
Definition sets_only (l : list (pname * fd)) : handle := mkH None None None None None None l.
Lemma hpins_sets_only l : hpins (sets_only l) = l.
Proof. cbn. unfold h_maps. cbn. rewrite app_nil_r. reflexivity. Qed.

(** The set maps made so far, of groups [gs]. *)
Definition sets_made (k0 k : kst) (p : pid) (sets : list bset) (l : list (pname * fd)) (gs : list (list nat)) : Prop :=
  Forall2 (fun x g => exists o, newfd k0 k p (snd x) o (O_set (load_map sets g))) l gs.
Lemma sets_made_grow k0 k k' p q S sets l gs : grow q S k k' -> sane k -> sets_made k0 k p sets l gs -> sets_made k0 k' p sets l gs.
Proof. intros G K H. eapply Forall2_impl; [|exact H]. intros a b (o & X). exists o. eapply newfd_grow; eauto. Qed.
Lemma sets_made_new k0 k p sets l gs q f : sets_made k0 k p sets l gs -> In (q, f) l -> exists o v, newfd k0 k p f o v.
Proof.
  intros H. induction H as [|x g l gs (o & X) _ IH]; intros HI; [contradiction|]. destruct HI as [->|HI]; [|auto].
  exists o. eexists. exact X.
Qed.

Definition names_to (n : nat) : list pname := map set_map_name (seq 0 n).
Lemma names_to_S n : names_to (S n) = names_to n ++ [set_map_name n].
Proof. unfold names_to. rewrite seq_S, map_app. reflexivity. Qed.

Lemma load_sets_ok F p (I : kst -> Prop) sets k0 : sane k0 -> (forall S k', grow p S k0 k' -> I k') ->
  forall gs i l gs0 k, grow p (map snd l) k0 k -> sets_made k0 k p sets l gs0 -> map fst l = names_to i ->
  wps F p I (load_sets sets i gs (sets_only l)) (fun r k' => exists l',
    fst r = sets_only l' /\ grow p (map snd l') k0 k' /\
    match snd r with
    | Ok _ => sets_made k0 k' p sets l' (gs0 ++ gs) /\ map fst l' = names_to (i + length gs)
    | Er _ => faulty F /\ (forall q f, In (q, f) l' -> exists o v, newfd k0 k' p f o v)
    end) k.
Proof.
  intros K0 HI. induction gs as [|g gs IH]; intros i l gs0 k G M N; cbn [load_sets].
  - apply wps_ret; [eapply HI, G|]. exists l. cbn [fst snd]. rewrite app_nil_r, Nat.add_0_r. auto.
  - pose proof (ev_sane _ _ _ _ _ _ _ G) as K.
    assert (HE : forall e, faulty F -> wps F p I (Ret (sets_only l, Er e : res unit)) (fun r k' => exists l',
      fst r = sets_only l' /\ grow p (map snd l') k0 k' /\
      match snd r with Ok _ => sets_made k0 k' p sets l' (gs0 ++ g :: gs) /\ map fst l' = names_to (i + length (g :: gs))
      | Er _ => faulty F /\ (forall q f, In (q, f) l' -> exists o v, newfd k0 k' p f o v) end) k).
    { intros e FT. apply wps_ret; [eapply HI, G|]. exists l. cbn [fst snd]. split; [reflexivity|]. split; [exact G|]. split; [exact FT|].
      intros q f Hf. eapply sets_made_new; eauto. }
    apply wps_alloc; [eapply HI, G| |intros HF e; apply HE; exists C_alloc; exact HF].
    apply wps_create; [exact K|exact Logic.I|eapply HI, G| |intros HF e; apply HE; eapply faulty_intro, HF].
    intros k1 f o G1 D1 O1 L1 L2. cbn [fresh_obj] in O1.
    pose proof (ev_next _ _ _ _ _ _ _ G) as NX.
    pose proof (grow_trans _ _ _ _ _ _ G G1) as G01. cbn [app] in G01.
    pose proof (ev_sane _ _ _ _ _ _ _ G1) as K1.
    assert (M1 : sets_made k0 k1 p sets l gs0) by (eapply sets_made_grow; [exact G1|exact K|exact M]).
    assert (HC : forall k2 e, grow p (f :: map snd l) k0 k2 -> (forall q x, In (q, x) l -> exists o' v, newfd k0 k2 p x o' v) -> faulty F ->
      (forall q x, In (q, x) l -> x <> f) ->
      wps F p I (pbind (sys_ (C_close f)) (fun _ => Ret (sets_only l, Er e : res unit))) (fun r k' => exists l',
      fst r = sets_only l' /\ grow p (map snd l') k0 k' /\
      match snd r with Ok _ => sets_made k0 k' p sets l' (gs0 ++ g :: gs) /\ map fst l' = names_to (i + length (g :: gs))
      | Er _ => faulty F /\ (forall q f, In (q, f) l' -> exists o v, newfd k0 k' p f o v) end) k2).
    { intros k2 e G2 N2 FT NF. eapply wps_close with (f := f) (S' := map snd l); [exact G2|exact K0|lia| |eapply HI, G2|].
      - intros x [<-|X]; auto.
      - intros k3 FD _ OB _ G3. apply wps_ret; [eapply HI, G3|]. exists l. cbn [fst snd]. split; [reflexivity|]. split; [exact G3|]. split; [exact FT|].
        intros q x Hx. destruct (N2 q x Hx) as (o' & v & X1 & X2 & X3 & X4). exists o', v. split; [exact X1|]. split; [exact X2|].
        split; [|rewrite OB; exact X4]. apply find_desc_of. rewrite FD; [apply desc_of_find, X3|]. eapply NF, Hx. }
    assert (NF : forall q x, In (q, x) l -> x <> f).
    { intros q x Hx ->. destruct (sets_made_new _ _ _ _ _ _ _ _ M Hx) as (o' & v & _ & _ & X & _).
      pose proof (desc_lt _ _ _ _ K X). lia. }
    eapply wps_fill; [exact D1|exact O1|eapply HI, G01| |].
    + set (k2 := with_obj k1 o (O_set (load_map sets g))).
      assert (G2 : grow p (f :: map snd l) k0 k2) by (apply evo_put_new; [exact G01|]; lia).
      assert (M2 : sets_made k0 k2 p sets l gs0).
      { eapply Forall2_impl; [|exact M]. intros x gr (o1 & X). exists o1. apply newfd_fill; [|eapply newfd_grow; [exact G1|exact K|exact X]].
        destruct X as (_ & _ & _ & Z). pose proof (sane_obj _ K _ _ Z). lia. }
      apply wps_alloc; [eapply HI, G2| |].
      * cbn [sets_only h_prog h_link h_cmap h_pmap h_lmap h_smap h_sets].
        replace (gs0 ++ g :: gs) with ((gs0 ++ [g]) ++ gs) by (rewrite <- app_assoc; reflexivity).
        replace (i + length (g :: gs))%nat with (S i + length gs)%nat by (cbn [length]; lia).
        apply (IH (S i) (l ++ [(set_map_name i, f)])).
        -- rewrite map_app. cbn [map snd]. eapply evo_incl; [exact G2|]. intros x [<-|X]; apply in_or_app; cbn; auto.
        -- apply Forall2_app; [exact M2|]. constructor; [|constructor]. exists o. cbn [snd]. split; [lia|]. split; [lia|]. split; [exact D1|].
           cbn. apply updN_same.
        -- rewrite map_app, names_to_S, N. reflexivity.
      * intros HF e. apply HC; auto; [|exists C_alloc; exact HF]. intros q x Hx. eapply sets_made_new; eauto.
    + intros HF e. apply HC; auto; [|eapply faulty_intro, HF]. intros q x Hx. eapply sets_made_new; eauto.
Qed.

Ltac push G K :=
  match type of G with
  | grow _ _ ?a _ => repeat match goal with
      | H : newfd _ a _ _ _ _ |- _ => apply (newfd_grow _ _ _ _ _ _ _ _ _ G K) in H
      | H : sets_made _ a _ _ _ _ |- _ => apply (sets_made_grow _ _ _ _ _ _ _ _ _ G K) in H
      end
  end.

(** A map that is made only if [b]. *)
Definition opt_create (b : bool) : prog (res (option fd)) :=
  if b then r <~ sys_fd (C_map_create O_map) ;; match r with Er e => Ret (Er e) | Ok f => Ret (Ok (Some f)) end
  else Ret (Ok None).
Definition opt_fds (o : option fd) : list fd := match o with Some f => [f] | None => [] end.
Definition newopt (k0 k : kst) (p : pid) (o : option fd) : Prop :=
  match o with Some f => exists x, newfd k0 k p f x O_map | None => True end.
Lemma newopt_grow k0 k k' p q S o : grow q S k k' -> sane k -> newopt k0 k p o -> newopt k0 k' p o.
Proof. intros G K. destruct o as [f|]; [|auto]. intros (x & H). exists x. exact (newfd_grow _ _ _ _ _ _ _ _ _ G K H). Qed.
Lemma wps_opt_create {A} F p (I : kst -> Prop) b (g : res (option fd) -> prog A) Q k0 k : sane k -> k_next k0 <= k_next k -> I k ->
  (forall k' o, grow p (opt_fds o) k k' -> newopt k0 k' p o -> is_some o = b -> wps F p I (g (Ok o)) Q k') ->
  (faulty F -> forall e, wps F p I (g (Er e)) Q k) ->
  wps F p I (pbind (opt_create b) g) Q k.
Proof.
  intros K L HI H1 H2. destruct b; cbn [opt_create].
  - apply pbind_assoc. apply wps_create; [exact K|exact Logic.I|exact HI| |].
    + intros k' f o G D O L1 L2. cbn [pbind]. apply H1; [exact G| |reflexivity]. exists o. cbn [fresh_obj] in O.
      split; [lia|]. split; [lia|]. auto.
    + intros HF e. cbn [pbind]. apply H2. eapply faulty_intro, HF.
  - cbn [pbind]. apply H1; [apply evo_refl, K|exact Logic.I|reflexivity].
Qed.

Definition built (F : call -> bool) (p : pid) (k0 : kst) (ch : chain) (r : handle * res unit) (k' : kst) : Prop :=
  grow p (hfds (fst r)) k0 k' /\ hnew k0 k' p (fst r) /\ h_link (fst r) = None /\
  match snd r with
  | Ok _ => h_prog (fst r) <> None /\ good k' p ch (fst r) /\
      exists f o, h_cmap (fst r) = Some f /\ newfd k0 k' p f o (O_counters (n_rules ch + 2) (fun _ => zeros k0))
  | Er e => faulty F \/ gen_program ch = Er e
  end.

Lemma zeros_grow p S k k' : grow p S k k' -> zeros k' = zeros k.
Proof. intros G. unfold zeros. rewrite (ev_cpus _ _ _ _ _ _ _ G). reflexivity. Qed.

Lemma sets_made_open k0 k p sets l gs : sets_made k0 k p sets l gs ->
  exists ss, Forall2 (fun f o => desc_of k p f = Some (D_obj o)) (map snd l) ss /\
    Forall2 (fun o g => k_objs k o = Some (O_set (load_map sets g))) ss gs.
Proof.
  induction 1 as [|x g l gs (o & _ & _ & D & O) _ (ss & IH1 & IH2)]; [exists []; split; constructor|].
  exists (o :: ss). split; constructor; auto.
Qed.
Lemma Forall2_names k p l ss (R : pname -> oid -> Prop) : Forall2 (fun f o => desc_of k p f = Some (D_obj o)) (map snd l) ss ->
  (forall q f o, In (q, f) l -> desc_of k p f = Some (D_obj o) -> R q o) -> Forall2 R (map fst l) ss.
Proof.
  revert ss. induction l as [|[q f] l IH]; intros ss H HR; inversion H; subst; cbn [map fst]; constructor.
  - eapply HR; [left; reflexivity|assumption].
  - apply IH; [assumption|]. intros a b c Hi. apply HR. right. exact Hi.
Qed.

Lemma set_names_eq ch : set_names ch = names_to (length (build_groups (c_sets ch))).
Proof. reflexivity. Qed.

Lemma hnew_intro k0 k p h : (forall q f, In (q, f) (hpins h) -> exists o v, newfd k0 k p f o v) -> hnew k0 k p h.
Proof. auto. Qed.
Lemma in_opt_map q f a (o : option fd) : In (q, f) (opt_map a o) -> q = a /\ o = Some f.
Proof. destruct o; cbn; [|tauto]. intros [H|[]]. injection H as <- <-. auto. Qed.

Lemma hpins_cases q f h : In (q, f) (hpins h) ->
  (q = P_prog /\ h_prog h = Some f) \/ (q = P_cmap /\ h_cmap h = Some f) \/ (q = P_pmap /\ h_pmap h = Some f) \/
  (q = P_lmap /\ h_lmap h = Some f) \/ (q = P_smap /\ h_smap h = Some f) \/ In (q, f) (h_sets h) \/ In (q, f) (lpins (h_link h)).
Proof.
  unfold hpins, h_maps. rewrite !in_app_iff. intros H.
  repeat match goal with H : _ \/ _ |- _ => destruct H as [H|H] | H : In _ (opt_map _ _) |- _ => apply in_opt_map in H end; tauto.
Qed.

Lemma newopt_new k0 k p o f : newopt k0 k p o -> o = Some f -> exists x v, newfd k0 k p f x v.
Proof. intros H ->. destruct H as (x & H). exists x, O_map. exact H. Qed.

Definition mk_handle pf cm pm lm sm l : handle := mkH pf None cm pm lm sm l.

Lemma hnew_mk k0 k p pf cm pm lm sm l :
  (forall f, pf = Some f -> exists o v, newfd k0 k p f o v) -> (forall f, cm = Some f -> exists o v, newfd k0 k p f o v) ->
  newopt k0 k p pm -> newopt k0 k p lm -> newopt k0 k p sm ->
  (forall q f, In (q, f) l -> exists o v, newfd k0 k p f o v) -> hnew k0 k p (mk_handle pf cm pm lm sm l).
Proof.
  intros A B C D E L q f H. apply hpins_cases in H. cbn [mk_handle h_prog h_cmap h_pmap h_lmap h_smap h_sets h_link lpins In] in H.
  destruct H as [[_ H]|[[_ H]|[[_ H]|[[_ H]|[[_ H]|[H|[]]]]]]]; eauto using newopt_new.
Qed.
Lemma hfds_mk pf cm pm lm sm l : hfds (mk_handle pf cm pm lm sm l) =
  opt_fds pf ++ opt_fds cm ++ opt_fds pm ++ opt_fds lm ++ opt_fds sm ++ map snd l.
Proof.
  unfold hfds, hpins, h_maps, mk_handle. cbn [h_prog h_cmap h_pmap h_lmap h_smap h_sets h_link lpins].
  rewrite app_nil_r, !map_app. destruct pf, cm, pm, lm, sm; reflexivity.
Qed.

Lemma program_load_ok F p (I : kst -> Prop) ch img k0 : sane k0 -> (forall S k', grow p S k0 k' -> I k') -> gen_program ch = Ok img ->
  wps F p I (program_load ch img handle_new) (built F p k0 ch) k0.
Proof.
  intros K0 HI GP. unfold program_load. apply wps_bind.
  eapply wps_post; [| |apply (load_sets_ok F p I (c_sets ch) k0 K0 HI (build_groups (c_sets ch)) 0 [] [] k0)];
    [auto| |apply evo_refl, K0|constructor|reflexivity].
  intros [h r] k (l & EH & G & H). cbn [fst snd] in EH, G, H. subst h.
  pose proof (ev_sane _ _ _ _ _ _ _ G) as K. pose proof (ev_next _ _ _ _ _ _ _ G) as NX.
  destruct r as [u|e].
  2:{ destruct H as [FT H]. apply wps_ret; [eapply HI, G|]. unfold built. cbn [fst snd].
      replace (hfds (sets_only l)) with (map snd l) by (unfold hfds; rewrite hpins_sets_only; reflexivity).
      split; [exact G|]. split; [|auto]. intros q f Hf. rewrite hpins_sets_only in Hf. exact (H q f Hf). }
  destruct H as [M N]. cbn [app Nat.add] in M, N.
  change (sets_only l) with (mk_handle None None None None None l).
  assert (HE : forall k pf cm pm lm sm e, grow p (opt_fds pf ++ opt_fds cm ++ opt_fds pm ++ opt_fds lm ++ opt_fds sm ++ map snd l) k0 k ->
     (forall f, pf = Some f -> exists o v, newfd k0 k p f o v) -> (forall f, cm = Some f -> exists o v, newfd k0 k p f o v) ->
     newopt k0 k p pm -> newopt k0 k p lm -> newopt k0 k p sm -> sets_made k0 k p (c_sets ch) l (build_groups (c_sets ch)) -> faulty F ->
     wps F p I (Ret (mk_handle pf cm pm lm sm l, Er e : res unit)) (built F p k0 ch) k).
  { intros k' pf cm pm lm sm e G' A B C D E M' FT. apply wps_ret; [eapply HI, G'|]. unfold built. cbn [fst snd].
    rewrite hfds_mk. split; [exact G'|]. split; [|split; [reflexivity|left; exact FT]].
    apply hnew_mk; auto. intros q f Hf. eapply sets_made_new; eauto. }
  apply wps_create; [exact K|exact Logic.I|eapply HI, G| |].
  2:{ intros HF e. apply HE; auto; try exact Logic.I; try discriminate. eapply faulty_intro, HF. }
  intros k1 cf co G1 D1 O1 L1 L2. cbn [fresh_obj] in O1.
  assert (C1 : newfd k0 k1 p cf co (O_counters (n_rules ch + 2) (fun _ => zeros k0))).
  { split; [lia|]. split; [lia|]. split; [exact D1|]. rewrite O1. rewrite (zeros_grow _ _ _ _ G). reflexivity. }
  clear D1 O1. push G1 K. pose proof (ev_sane _ _ _ _ _ _ _ G1) as K1. pose proof (ev_next _ _ _ _ _ _ _ G1) as NX1.
  pose proof (grow_trans _ _ _ _ _ _ G G1) as T1. cbn [app] in T1.
  cbn [mk_handle h_prog h_cmap h_pmap h_lmap h_smap h_sets h_link]. fold (mk_handle None (Some cf) None None None l).
  assert (CM : forall k, newfd k0 k p cf co (O_counters (n_rules ch + 2) (fun _ => zeros k0)) -> forall f, Some cf = Some f -> exists o v, newfd k0 k p f o v).
  { intros k' H f X. injection X as <-. eauto. }
  apply wps_alloc; [eapply HI, T1| |].
  2:{ intros HF e. apply HE; auto; try exact Logic.I; try discriminate; eauto. exists C_alloc; exact HF. }
  apply wps_create; [exact K1|exact Logic.I|eapply HI, T1| |].
  2:{ intros HF e. apply HE; auto; try exact Logic.I; try discriminate; eauto. eapply faulty_intro, HF. }
  intros k2 pf po G2 D2 O2 L3 L4. cbn [fresh_obj] in O2.
  assert (P2 : newopt k0 k2 p (Some pf)). { exists po. split; [lia|]. split; [lia|]. auto. }
  push G2 K1. pose proof (ev_sane _ _ _ _ _ _ _ G2) as K2. pose proof (ev_next _ _ _ _ _ _ _ G2) as NX2.
  assert (T2 : grow p (opt_fds None ++ [cf] ++ [pf] ++ opt_fds None ++ opt_fds None ++ map snd l) k0 k2).
  { eapply evo_incl; [exact (grow_trans _ _ _ _ _ _ T1 G2)|]. cbn [app opt_fds]. intros f [<-|[<-|H]]; cbn; auto. }
  cbn [mk_handle h_prog h_cmap h_pmap h_lmap h_smap h_sets h_link]. fold (mk_handle None (Some cf) (Some pf) None None l).
  eapply wps_poke; [exact D2|exact O2|eapply HI, T2| |].
  2:{ intros HF e. apply HE; auto; try exact Logic.I; try discriminate; eauto. eapply faulty_intro, HF. }
  clear D2 O2.
  change (if c_log ch then _ else _) with (opt_create (c_log ch)).
  apply wps_opt_create with (k0 := k0); [exact K2|lia|eapply HI, T2| |].
  2:{ intros FT e. apply HE; auto; try exact Logic.I; try discriminate; eauto. }
  intros k3 lm G3 P3 B3. push G3 K2. apply (newopt_grow _ _ _ _ _ _ _ G3 K2) in P2.
  pose proof (ev_sane _ _ _ _ _ _ _ G3) as K3. pose proof (ev_next _ _ _ _ _ _ _ G3) as NX3.
  assert (T3 : grow p (opt_fds None ++ [cf] ++ [pf] ++ opt_fds lm ++ opt_fds None ++ map snd l) k0 k3).
  { eapply evo_incl; [exact (grow_trans _ _ _ _ _ _ T2 G3)|]. cbn [app opt_fds]. intros f H. apply in_app_or in H.
    destruct H as [H|[<-|[<-|H]]]; cbn; rewrite ?in_app_iff; auto. }
  cbn [mk_handle h_prog h_cmap h_pmap h_lmap h_smap h_sets h_link]. fold (mk_handle None (Some cf) (Some pf) lm None l).
  change (if c_ratelimit ch && negb (n_rules ch =? 0) then _ else _) with (opt_create (c_ratelimit ch && negb (n_rules ch =? 0))).
  apply wps_opt_create with (k0 := k0); [exact K3|lia|eapply HI, T3| |].
  2:{ intros FT e. apply HE; auto; try exact Logic.I; try discriminate; eauto. }
  intros k4 sm G4 P4 B4. push G4 K3. apply (newopt_grow _ _ _ _ _ _ _ G4 K3) in P2. apply (newopt_grow _ _ _ _ _ _ _ G4 K3) in P3.
  pose proof (ev_sane _ _ _ _ _ _ _ G4) as K4. pose proof (ev_next _ _ _ _ _ _ _ G4) as NX4.
  assert (T4 : grow p (opt_fds None ++ [cf] ++ [pf] ++ opt_fds lm ++ opt_fds sm ++ map snd l) k0 k4).
  { eapply evo_incl; [exact (grow_trans _ _ _ _ _ _ T3 G4)|]. cbn [app opt_fds]. intros f H. rewrite !in_app_iff in *. cbn in *. rewrite !in_app_iff in *. tauto. }
  cbn [mk_handle h_prog h_cmap h_pmap h_lmap h_smap h_sets h_link]. fold (mk_handle None (Some cf) (Some pf) lm sm l).
  destruct (sets_made_open _ _ _ _ _ _ M) as (ss & S1 & S2).
  eapply wps_prog; [exact K4|exact S1|apply C1|eapply HI, T4| |].
  2:{ intros HF e. apply HE; auto; try exact Logic.I; try discriminate; eauto. eapply faulty_intro, HF. }
  intros k5 gf go G5 D5 O5 L5 L6.
  assert (P5 : newfd k0 k5 p gf go (O_prog img ss co)). { split; [lia|]. split; [lia|]. auto. }
  push G5 K4. apply (newopt_grow _ _ _ _ _ _ _ G5 K4) in P2. apply (newopt_grow _ _ _ _ _ _ _ G5 K4) in P3. apply (newopt_grow _ _ _ _ _ _ _ G5 K4) in P4.
  pose proof (ev_sane _ _ _ _ _ _ _ G5) as K5.
  assert (T5 : grow p (opt_fds (Some gf) ++ [cf] ++ [pf] ++ opt_fds lm ++ opt_fds sm ++ map snd l) k0 k5).
  { eapply evo_incl; [exact (grow_trans _ _ _ _ _ _ T4 G5)|]. cbn [app opt_fds]. intros f H. cbn in *. tauto. }
  cbn [mk_handle h_prog h_cmap h_pmap h_lmap h_smap h_sets h_link]. fold (mk_handle (Some gf) (Some cf) (Some pf) lm sm l).
  apply wps_ret; [eapply HI, T5|]. unfold built. cbn [fst snd]. rewrite hfds_mk. split; [exact T5|]. split; [|split; [reflexivity|]].
  { apply hnew_mk; [intros f X; injection X as <-; eauto|apply CM, C1|exact P2|exact P3|exact P4|]. intros q f Hf. exact (sets_made_new _ _ _ _ _ _ _ _ M Hf). }
  split; [discriminate|]. split; [|exists cf, co; split; [reflexivity|exact C1]].
  assert (HR : forall q f o, In (q, f) (hpins (mk_handle (Some gf) (Some cf) (Some pf) lm sm l)) -> desc_of k5 p f = Some (D_obj o) ->
     hrel k5 p (mk_handle (Some gf) (Some cf) (Some pf) lm sm l) q o) by (intros q f o X Y; exists f; auto).
  assert (IN : forall q f, In (q, f) ((P_prog, gf) :: (P_cmap, cf) :: (P_pmap, pf) :: opt_map P_lmap lm ++ opt_map P_smap sm ++ l) ->
     In (q, f) (hpins (mk_handle (Some gf) (Some cf) (Some pf) lm sm l))).
  { intros q f H. unfold hpins, h_maps. cbn [mk_handle h_prog h_cmap h_pmap h_lmap h_smap h_sets h_link lpins opt_map app].
    rewrite app_nil_r. exact H. }
  assert (S1' : Forall2 (fun f o => desc_of k5 p f = Some (D_obj o)) (map snd l) ss).
  { eapply Forall2_impl; [|exact S1]. intros f o. apply (grow_desc _ _ _ _ _ _ _ G5 K4). }
  assert (S2' : Forall2 (fun o g => k_objs k5 o = Some (O_set (load_map (c_sets ch) g))) ss (build_groups (c_sets ch))).
  { eapply Forall2_impl; [|exact S2]. intros f o. apply (grow_obj _ _ _ _ _ _ G5 K4). }
  destruct C1 as (_ & _ & C1 & C2). destruct P5 as (_ & _ & P5 & P6). destruct P2 as (x2 & _ & _ & P2 & P2').
  unfold good. constructor; cbn [handle_desc mk_handle h_prog h_cmap h_pmap h_lmap h_smap h_sets h_link hd_link hd_cmap hd_pmap hd_lmap hd_smap hd_sets is_some].
  - exists img, go, ss, co, (fun _ => zeros k0). split; [exact GP|]. split; [eapply HR; [apply IN; left; reflexivity|exact P5]|]. split; [exact P6|].
    split; [eapply HR; [apply IN; right; left; reflexivity|exact C1]|]. split; [exact C2|]. split; [|split; [exact S2'|exact Logic.I]].
    rewrite set_names_eq, <- N. eapply Forall2_names; [exact S1'|]. intros q f o Hi Hd. eapply HR; [|exact Hd]. apply IN.
    right. right. right. rewrite !in_app_iff. auto.
  - reflexivity.
  - split; [reflexivity|]. exists x2. split; [|exact P2']. eapply HR; [|exact P2]. apply IN. right; right; left; reflexivity.
  - split; [exact B3|]. intros X. rewrite X in B3. destruct lm as [lf|]; [|discriminate B3]. destruct P3 as (x3 & _ & _ & P3 & P3').
    exists x3. split; [|exact P3']. eapply HR; [|exact P3]. apply IN. right; right; right; left; reflexivity.
  - split; [exact B4|]. intros X. rewrite X in B4. destruct sm as [sf|]; [|discriminate X]. destruct P4 as (x4 & _ & _ & P4 & P4').
    exists x4. split; [|exact P4']. eapply HR; [|exact P4]. apply IN. right; right; right. rewrite in_app_iff. right. left. reflexivity.
  - rewrite set_names_eq. exact N.
Qed.

Lemma build_program_ok F p (I : kst -> Prop) c k0 : sane k0 -> (forall S k', grow p S k0 k' -> I k') ->
  wps F p I (build_program c handle_new) (built F p k0 (nc_chain c)) k0.
Proof.
  intros K0 HI. unfold build_program.
  assert (HE : forall e, faulty F \/ gen_program (nc_chain c) = Er e ->
    wps F p I (Ret (handle_new, Er e : res unit)) (built F p k0 (nc_chain c)) k0).
  { intros e X. apply wps_ret; [eapply HI, evo_refl, K0|]. split; [apply evo_refl, K0|]. split; [intros q f []|]. split; [reflexivity|exact X]. }
  apply wps_alloc; [eapply HI, evo_refl, K0| |intros HF e; apply HE; left; exists C_alloc; exact HF].
  destruct (gen_program (nc_chain c)) as [img|e] eqn:GP; [|apply HE; auto].
  apply program_load_ok; assumption.
Qed.
