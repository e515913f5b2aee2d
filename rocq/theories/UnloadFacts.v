(** Detaching, unloading and flushing a chain. *)
From Coq Require Import NArith ZArith List Bool Lia.
From Verif Require Import Bytes Types World BpfModel GenModel BytesFacts StrModel SetModel MapModel PackModel PackSpec PackFacts4 HookModel KernModel LockModel CtlModel SysSpec SysFacts RelyFacts SeqFacts StageFacts EvoFacts CtlSpec HandleFacts PinFacts AttachFacts LockSeqFacts LoadFacts RestoreFacts WithFacts IsolFacts.
Import ListNotations.
Local Open Scope N_scope.

(** Only links among [O] changed, and only by being detached. *)
Record turned (O : list oid) (k k' : kst) : Prop := {
  tn_ents : k_ents k' = k_ents k;
  tn_dirs : k_dirs k' = k_dirs k;
  tn_next : k_next k' = k_next k;
  tn_objs : forall o, k_objs k' o = k_objs k o \/
    (In o O /\ exists h t po b, k_objs k o = Some (O_link h t po b) /\ k_objs k' o = Some (O_link h t po true))
}.
Definition down (k : kst) (o : oid) : Prop := forall h t po b, k_objs k o = Some (O_link h t po b) -> b = true.
Lemma turned_refl O k : turned O k k.
Proof. constructor; auto. Qed.
Lemma turned_trans O k k1 k2 : turned O k k1 -> turned O k1 k2 -> turned O k k2.
Proof.
  intros [A1 A2 A3 A4] [B1 B2 B3 B4]. constructor; try congruence. intros o.
  destruct (B4 o) as [X|(I1 & h & t & po & b & X & Y)]; destruct (A4 o) as [Z|(I2 & h' & t' & po' & b' & Z & W)].
  - left. congruence.
  - right. split; [exact I2|]. exists h', t', po', b'. split; [exact Z|congruence].
  - right. split; [exact I1|]. exists h, t, po, b. split; [congruence|exact Y].
  - right. split; [exact I1|]. exists h', t', po', b'. split; [exact Z|]. congruence.
Qed.
Lemma turned_incl O O' k k' : (forall o, In o O -> In o O') -> turned O k k' -> turned O' k k'.
Proof. intros H [A B C D]. constructor; auto. intros o. destruct (D o) as [X|[X Y]]; auto. Qed.
Lemma turned_cl O k k1 k2 : turned O k k1 -> cl k1 k2 -> turned O k k2.
Proof.
  intros T C. eapply turned_trans; [exact T|]. constructor; [apply C|apply C|apply C|]. intros o. left. rewrite (cl_objs _ _ C). reflexivity.
Qed.
Lemma down_turned O k k' o : turned O k k' -> down k o -> down k' o.
Proof.
  intros T D h t po b H. destruct (tn_objs _ _ _ T o) as [X|(_ & h' & t' & po' & b' & X & Y)]; [rewrite X in H; exact (D _ _ _ _ H)|congruence].
Qed.

Lemma wps_detach {A} F p (I : kst -> Prop) f o E X M S (g : unit -> prog A) Q k0 k : evo p E X M S k0 k -> desc_of k p f = Some (D_obj o) -> I k ->
  (forall k' M', evo p E X (M' ++ M) S k0 k' -> turned [o] k k' -> down k' o -> k_fds k' = k_fds k -> wps F p I (g tt) Q k') ->
  wps F p I (pbind (sys_ (C_link_detach f)) g) Q k.
Proof.
  intros EV D HI H. pose proof (ev_sane _ _ _ _ _ _ _ EV) as SK.
  destruct (sane_fdo _ SK _ _ _ (desc_of_find _ _ _ _ D)) as (v & V).
  apply wps_ign; [exact HI| |intros _ X0; discriminate X0].
  intros s. cbn [kdo]. unfold obj_of. rewrite D, V.
  destruct v as [| | | | |h t po b]; try (cbn [fst]; apply (H k []); [exact EV|apply turned_refl|unfold down; rewrite V; discriminate|reflexivity]).
  cbn [fst]. apply (H _ [(o, O_link h t po true)]).
  - apply evo_put; [exact EV|]. eapply sane_obj; [exact SK|exact V].
  - constructor; try reflexivity. intros x. cbn. unfold updN. destruct (N.eqb_spec x o) as [->|]; [|left; reflexivity].
    right. split; [left; reflexivity|]. exists h, t, po, b. split; [exact V|reflexivity].
  - intros h' t' po' b'. cbn. unfold updN. rewrite N.eqb_refl. congruence.
  - reflexivity.
Qed.

Definition link_oids (k : kst) (p : pid) (ol : option link) (O : list oid) : Prop :=
  Forall2 (fun x o => desc_of k p (snd x) = Some (D_obj o)) (lpins ol) O.

Lemma handle_detach_ok F p (I : kst -> Prop) h O E X M S S' k0 k : evo p E X M S k0 k -> sane k0 -> link_oids k p (h_link h) O ->
  (forall f, In f (map snd (lpins (h_link h))) -> k_next k0 <= f) -> (forall f, In f S -> In f S' \/ In f (map snd (lpins (h_link h)))) ->
  (forall M' Z k', evo p E X (M' ++ M) Z k0 k' -> turned O k k' -> I k') ->
  wps F p I (handle_detach h) (fun _ k' => exists M', evo p E X (M' ++ M) S' k0 k' /\ turned O k k' /\ (forall o, In o O -> down k' o) /\
    (forall f, ~ In f (map snd (lpins (h_link h))) -> fd_find f (k_fds k') = fd_find f (k_fds k))) k.
Proof.
  intros EV S0 LO LF HS HI. unfold handle_detach. destruct (h_link h) as [l|].
  2:{ inversion LO; subst. apply wps_ret; [apply (HI [] S); [exact EV|apply turned_refl]|]. exists []. split; [|split; [apply turned_refl|split; [intros o []|auto]]].
      cbn [app]. eapply evo_incl; [exact EV|]. intros f H. destruct (HS f H) as [Y|[]]. exact Y. }
  assert (HI0 : I k) by (apply (HI [] S); [exact EV|apply turned_refl]).
  assert (FREE : forall k1 M1, evo p E X (M1 ++ M) S k0 k1 -> turned O k k1 -> (forall o, In o O -> down k1 o) -> k_fds k1 = k_fds k ->
    wps F p I (link_free (Some l)) (fun _ k' => exists M', evo p E X (M' ++ M) S' k0 k' /\ turned O k k' /\ (forall o, In o O -> down k' o) /\
      (forall f, ~ In f (map snd (lpins (Some l))) -> fd_find f (k_fds k') = fd_find f (k_fds k))) k1).
  { intros k1 M1 E1 T1 D1 FD. eapply wps_post with (I := I); [auto| |apply (closes_link p (Some l) F I k0 E X (M1 ++ M) S S' k1 E1 S0 LF HS)].
    - intros [] k2 (C & E2 & HF). exists M1. split; [exact E2|]. split; [eapply turned_cl; eassumption|].
      split; [intros o H; unfold down; rewrite (cl_objs _ _ C); exact (D1 o H)|]. intros f NI. rewrite (HF f NI), FD. reflexivity.
    - intros Z k2 C E2. eapply HI; [exact E2|]. eapply turned_cl; eassumption. }
  unfold link_oids, lpins in LO. destruct (l_extra l) as [fx|] eqn:EX; cbn [opt_map] in LO.
  - destruct O as [|o [|ox [|]]]; try solve [exfalso; inversion LO; subst; try (match goal with H : Forall2 _ _ _ |- _ => inversion H; subst; match goal with H : Forall2 _ _ _ |- _ => inversion H end end)].
    assert (D1 : desc_of k p (l_fd l) = Some (D_obj o)) by (inversion LO; assumption).
    assert (D2 : desc_of k p fx = Some (D_obj ox)) by (inversion LO as [|? ? ? ? ? LO1]; inversion LO1; assumption).
    eapply wps_detach; [exact EV|exact D1|exact HI0|]. intros k1 M1 E1 T1 DN1 FD1.
    assert (T1' : turned [o; ox] k k1) by (eapply turned_incl; [|exact T1]; intros x [<-|[]]; left; reflexivity).
    assert (D2' : desc_of k1 p fx = Some (D_obj ox)) by (unfold desc_of; rewrite FD1; exact D2).
    eapply wps_detach; [exact E1|exact D2'|eapply HI; [exact E1|exact T1']|]. intros k2 M2 E2 T2 DN2 FD2.
    assert (T2' : turned [o; ox] k k2) by (eapply turned_trans; [exact T1'|]; eapply turned_incl; [|exact T2]; intros x [<-|[]]; right; left; reflexivity).
    apply (FREE k2 (M2 ++ M1)).
    + rewrite <- app_assoc. exact E2.
    + exact T2'.
    + intros x [<-|[<-|[]]]; [exact (down_turned _ _ _ _ T2 DN1)|exact DN2].
    + congruence.
  - destruct O as [|o [|]]; try solve [exfalso; inversion LO; subst; match goal with H : Forall2 _ _ _ |- _ => inversion H end].
    assert (D1 : desc_of k p (l_fd l) = Some (D_obj o)) by (inversion LO; assumption).
    eapply wps_detach; [exact EV|exact D1|exact HI0|]. intros k1 M1 E1 T1 DN1 FD1. cbn [pbind].
    apply (FREE k1 M1); auto. intros x [<-|[]]. exact DN1.
Qed.

Lemma link_oids_same k k' p ol O : link_oids k p ol O ->
  (forall x, In x (lpins ol) -> fd_find (snd x) (k_fds k') = fd_find (snd x) (k_fds k)) -> link_oids k' p ol O.
Proof.
  unfold link_oids. induction 1 as [|x o l os H FA IH]; intros HF; constructor.
  - unfold desc_of. rewrite (HF x (or_introl eq_refl)). exact H.
  - apply IH. intros y HY. apply HF. right. exact HY.
Qed.

Lemma handle_unload_ok F p (I : kst -> Prop) h O E X M S S' k0 k : evo p E X M S k0 k -> sane k0 -> link_oids k p (h_link h) O ->
  (forall f, In f (hfds h) -> k_next k0 <= f) -> (forall f, In f S -> In f S' \/ In f (hfds h)) ->
  (forall f, In f (opt_fds (h_prog h)) -> ~ In f (map snd (lpins (h_link h)))) ->
  (forall M' Z k', evo p E X (M' ++ M) Z k0 k' -> turned O k k' -> I k') ->
  wps F p I (handle_unload h) (fun _ k' => exists M', evo p E X (M' ++ M) S' k0 k' /\ turned O k k' /\ (forall o, In o O -> down k' o) /\
    (forall f, ~ In f (hfds h) -> fd_find f (k_fds k') = fd_find f (k_fds k))) k.
Proof.
  intros EV S0 LO LF HS ND HI. unfold handle_unload.
  assert (IN : forall f, In f (hfds h) <-> In f (opt_fds (h_prog h)) \/ In f (map snd (h_maps h)) \/ In f (map snd (lpins (h_link h)))).
  { intros f. unfold hfds, hpins. rewrite !map_app, !in_app_iff. destruct (h_prog h); cbn; tauto. }
  apply wps_bind. eapply wps_post with (I := I); [auto| |apply (closes_opt p (h_prog h) F I k0 E X M S (S' ++ map snd (h_maps h) ++ map snd (lpins (h_link h))) k EV S0)].
  2:{ intros f H. apply LF. rewrite IN. tauto. }
  2:{ intros f H. rewrite !in_app_iff. destruct (HS f H) as [Y|Y]; [tauto|]. rewrite IN in Y. tauto. }
  2:{ intros Z k' C E1. apply (HI [] Z k' E1). eapply turned_cl; [apply turned_refl|exact C]. }
  intros [] k1 (C1 & E1 & F1).
  apply wps_bind. eapply wps_post with (I := I); [auto| |apply (handle_detach_ok F p I h O E X M _ (S' ++ map snd (h_maps h)) k0 k1 E1 S0)].
  2:{ eapply link_oids_same; [exact LO|]. intros x HX. apply F1. intros Y. apply (ND _ Y). apply in_map, HX. }
  2:{ intros f H. apply LF. rewrite IN. tauto. }
  2:{ intros f H. rewrite !in_app_iff in *. tauto. }
  2:{ intros M' Z k' E2 T2. apply (HI M' Z k' E2). eapply turned_trans; [|exact T2]. eapply turned_cl; [apply turned_refl|exact C1]. }
  intros [] k2 (M2 & E2 & T2 & DN2 & F2).
  assert (T02 : turned O k k2) by (eapply turned_trans; [|exact T2]; eapply turned_cl; [apply turned_refl|exact C1]).
  eapply wps_post with (I := I); [auto| |apply (closes_all p (map snd (h_maps h)) F I k0 E X (M2 ++ M) _ S' k2 E2 S0)].
  2:{ intros f H. apply LF. rewrite IN. tauto. }
  2:{ intros f H. rewrite !in_app_iff in *. tauto. }
  2:{ intros Z k' C E3. apply (HI M2 Z k' E3). eapply turned_cl; [exact T02|exact C]. }
  intros [] k3 (C3 & E3 & F3). exists M2. split; [exact E3|]. split; [eapply turned_cl; [exact T02|exact C3]|].
  split; [intros o H; unfold down; rewrite (cl_objs _ _ C3); exact (DN2 o H)|].
  intros f NI. rewrite IN in NI. rewrite F3, F2, F1 by tauto. reflexivity.
Qed.

Record unloaded (p : pid) (h : handle) (i : ino) (O : list oid) (E : list (name * ino)) (S : list fd) (k0 k k' : kst) : Prop := {
  un_evo : exists D M, evo p E (Some (i, D)) M S k0 k' /\ D P_ctx = None /\ (forall q, In q (hnames h) -> D q = None) /\
    (forall q, q <> P_ctx -> ~ In q (hnames h) -> D q = dview k i q);
  un_objs : forall o, k_objs k' o = k_objs k o \/
    (In o O /\ exists h t po b, k_objs k o = Some (O_link h t po b) /\ k_objs k' o = Some (O_link h t po true));
  un_down : forall o, In o O -> down k' o;
  un_fds : forall f, ~ In f (hfds h) -> fd_find f (k_fds k') = fd_find f (k_fds k)
}.

Lemma cgen_unload_ok F p (I : kst -> Prop) g d i md O E M S k0 k : evo p E None M (hfds (g_handle g) ++ S) k0 k -> sane k0 -> i < k_next k0 ->
  desc_of k p d = Some (D_dir i md) -> link_oids k p (h_link (g_handle g)) O -> hok (g_handle g) ->
  (forall f, In f (hfds (g_handle g)) -> k_next k0 <= f) ->
  (forall f, In f (opt_fds (h_prog (g_handle g))) -> ~ In f (map snd (lpins (h_link (g_handle g))))) ->
  I k -> (forall D M Z k', evo p E (Some (i, D)) M Z k0 k' -> D P_ctx = None -> (forall o, k_objs k' o = k_objs k o \/ In o O) -> I k') ->
  wps F p I (cgen_unload g d) (fun _ k' => unloaded p (g_handle g) i O E S k0 k k') k.
Proof.
  intros EV S0 LI DD LO HOK LF ND HI0 HI. unfold cgen_unload. set (h := g_handle g) in *.
  pose proof (ev_sane _ _ _ _ _ _ _ EV) as SK. pose proof (ev_next _ _ _ _ _ _ _ EV) as NX.
  eapply wps_unlink; [exact SK|exact DD|exact HI0|]. intros k1 W1.
  assert (D1 : desc_of k1 p d = Some (D_dir i md)) by (rewrite (dwr_desc _ _ _ _ _ _ W1); exact DD).
  assert (V1 : dview k1 i P_ctx = None) by (rewrite (dw_view _ _ _ _ W1); apply dset_same).
  assert (EVX : forall D k', dwr i D k1 k' -> evo p E (Some (i, D)) M (hfds h ++ S) k0 k').
  { intros D k' W. eapply evo_dwr; [exact EV|exact Logic.I|lia|]. eapply dwr_trans; [exact W1|exact W]. }
  apply wps_bind. eapply wps_post with (I := I); [auto| |apply (unpins_handle p h d F I i md (hnames h) k1 (dw_sane _ _ _ _ W1) D1)].
  2:{ intros D k' W OF. eapply HI; [apply EVX; exact W| |].
      - rewrite OF; [exact V1|]. intros X. exact (proj1 (hok_names _ _ HOK X) eq_refl).
      - intros o. left. rewrite (dw_objs _ _ _ _ W), (dw_objs _ _ _ _ W1). reflexivity. }
  2:{ auto. }
  intros [] k2 (D & W2 & OF & UN).
  assert (DC : D P_ctx = None) by (rewrite OF; [exact V1|]; intros X; exact (proj1 (hok_names _ _ HOK X) eq_refl)).
  pose proof (EVX D k2 W2) as E2.
  assert (FD : k_fds k2 = k_fds k) by (rewrite (dw_fds _ _ _ _ W2); exact (dw_fds _ _ _ _ W1)).
  assert (OB : k_objs k2 = k_objs k) by (rewrite (dw_objs _ _ _ _ W2); exact (dw_objs _ _ _ _ W1)).
  eapply wps_post with (I := I); [auto| |apply (handle_unload_ok F p I h O E (Some (i, D)) M (hfds h ++ S) S k0 k2 E2 S0)].
  - intros [] k3 (M3 & E3 & T3 & DN & F3). constructor.
    + exists D, (M3 ++ M). split; [exact E3|]. split; [exact DC|]. split; [exact UN|].
      intros q N1 N2. rewrite (OF q N2), (dw_view _ _ _ _ W1). apply dset_other, N1.
    + intros o. rewrite <- OB. exact (tn_objs _ _ _ T3 o).
    + exact DN.
    + intros f NI. rewrite (F3 f NI), FD. reflexivity.
  - eapply link_oids_same; [exact LO|]. intros x _. rewrite FD. reflexivity.
  - exact LF.
  - intros f. rewrite in_app_iff. tauto.
  - exact ND.
  - intros M' Z k' E' T. eapply HI; [exact E'|exact DC|]. intros o. rewrite <- OB. destruct (tn_objs _ _ _ T o) as [X|[X _]]; auto.
Qed.

Lemma desc_hnames h q : In q (pin_names (handle_desc h)) -> In q (hnames h).
Proof.
  unfold hnames, pin_names, handle_desc, h_maps. cbn [hd_link hd_cmap hd_pmap hd_lmap hd_smap hd_sets In].
  rewrite !map_app, !in_app_iff. destruct (h_link h), (h_cmap h), (h_pmap h), (h_lmap h), (h_smap h); cbn [is_some opt_map map fst In]; tauto.
Qed.
Lemma consistent_sets k i o t hd : consistent k i -> dview k i P_ctx = Some o -> k_objs k o = Some (O_ctx (Some (t, hd))) ->
  exists c, holds_chain k i c hd /\ chain_built c /\ storable c.
Proof.
  intros [H|(c & hd' & H & B & S)] V X; [unfold pin in H; unfold dview in V; congruence|].
  exists c. split; [|auto]. destruct H as ((o' & t' & A & C & P) & CP). unfold pin in A. unfold dview in V.
  assert (o' = o) by congruence. subst o'. rewrite X in C. injection C as <- <-. split; [exists o, t; auto|exact CP].
Qed.
Lemma sets_hok h : (forall q, In q (hd_sets (handle_desc h)) -> exists j, q = P_set j) -> hok h.
Proof. intros H q. exact (H q). Qed.
Lemma holds_sets k i c hd q : holds_chain k i c hd -> In q (hd_sets hd) -> exists j, q = P_set j.
Proof.
  intros (_ & C). rewrite (cp_sets _ _ _ _ C). unfold set_names. rewrite in_map_iff. intros (j & <- & _). eauto.
Qed.

(** What a completed flush leaves of the chain that was in directory [i]. *)
Record flushed (F : call -> bool) (p : pid) (k0 : kst) (n : name) (i : ino) (hd : hdesc) (k' : kst) : Prop := {
  fl_dir : exists D M, evo p (k_ents k') (Some (i, D)) M [] k0 k' /\ D P_ctx = None /\ (forall q, In q (pin_names hd) -> D q = None) /\
    (forall q, q <> P_ctx -> ~ In q (pin_names hd) -> D q = dview k0 i q) /\
    ((k_ents k' = ent_del n (k_ents k0) /\ forall q, D q = None) \/ (k_ents k' = k_ents k0 /\ exists q, D q <> None));
  fl_link : forall o, hd_link hd <> None -> dview k0 i P_link = Some o -> down k' o;
  fl_extra : forall o, hd_link hd <> None -> dview k0 i P_link_extra = Some o -> down k' o \/ faulty F
}.

Lemma opened_links F p mm k0 n pm cm b pd cf i hd g k1 : opened_chain F p mm k0 n pm cm b pd cf i hd g k1 ->
  exists O, link_oids k1 p (h_link (g_handle g)) O /\
    (forall o, hd_link hd <> None -> dview k0 i P_link = Some o -> In o O) /\
    (forall o, hd_link hd <> None -> dview k0 i P_link_extra = Some o -> In o O \/ faulty F) /\
    (forall o, In o O -> exists q, (q = P_link \/ q = P_link_extra) /\ dview k0 i q = Some o).
Proof.
  intros OC. pose proof (oc_got _ _ _ _ _ _ _ _ _ _ _ _ _ _ OC) as GO. pose proof (oc_extra _ _ _ _ _ _ _ _ _ _ _ _ _ _ OC) as LX.
  pose proof (oc_hd _ _ _ _ _ _ _ _ _ _ _ _ _ _ OC) as HD.
  assert (GL : forall q f, In (q, f) (lpins (h_link (g_handle g))) -> exists o, dview k0 i q = Some o /\ desc_of k1 p f = Some (D_obj o)).
  { intros q f H. destruct (GO q f) as (_ & _ & _ & (_ & X)); [unfold hpins; rewrite !in_app_iff; auto|exact X]. }
  subst hd. cbn [handle_desc hd_link]. unfold link_oids. destruct (h_link (g_handle g)) as [l|].
  2:{ exists []. split; [constructor|]. split; [congruence|]. split; [congruence|]. intros o []. }
  unfold lpins in *. cbn [lost_extra] in LX.
  destruct (GL P_link (l_fd l) (or_introl eq_refl)) as (o & V & D).
  destruct (l_extra l) as [fx|].
  - destruct (GL P_link_extra fx) as (ox & VX & DX); [right; left; reflexivity|].
    exists [o; ox]. split; [constructor; [exact D|constructor; [exact DX|constructor]]|].
    split; [intros x _ H; left; congruence|]. split; [intros x _ H; left; right; left; congruence|].
    intros x [<-|[<-|[]]]; [exists P_link|exists P_link_extra]; auto.
  - exists [o]. split; [constructor; [exact D|constructor]|]. split; [intros x _ H; left; congruence|].
    split; [intros x _ H; right; destruct (LX eq_refl) as [Y|Y]; [exact (extra_is_faulty _ Y)|congruence]|]. intros x [<-|[]]. exists P_link; auto.
Qed.
Lemma opened_dirent F p mm k0 n pm cm b pd cf i hd g k1 : opened_chain F p mm k0 n pm cm b pd cf i hd g k1 -> sane k0 -> i < k_next k0.
Proof. intros OC S0. eapply sane_ent; [exact S0|apply (oc_ent _ _ _ _ _ _ _ _ _ _ _ _ _ _ OC)]. Qed.
Lemma opened_fds F p mm k0 n pm cm b pd cf i hd g k1 : opened_chain F p mm k0 n pm cm b pd cf i hd g k1 ->
  forall f, In f (hfds (g_handle g)) -> k_next k0 <= f /\ f <> cf /\ f <> pd /\ f <> b.
Proof.
  intros OC f H. unfold hfds in H. apply in_map_iff in H as ([q f'] & <- & H). cbn [snd].
  destruct (oc_got _ _ _ _ _ _ _ _ _ _ _ _ _ _ OC q f' H) as (A & B & C & (D & _)). auto.
Qed.
Lemma opened_held F p mm k0 n pm cm b pd cf i hd g k1 : sane k0 -> opened_chain F p mm k0 n pm cm b pd cf i hd g k1 -> consistent k0 i ->
  exists c, holds_chain k0 i c hd /\ chain_built c /\ storable c /\ same_chain c (g_chain g) /\ hok (g_handle g) /\
    (half_link F (g_handle g) \/ good k1 p (nc_chain c) (g_handle g)).
Proof.
  intros S0 OC CS. destruct (oc_ctx _ _ _ _ _ _ _ _ _ _ _ _ _ _ OC) as (o & t & V & X & U).
  destruct (consistent_sets _ _ _ _ _ CS V X) as (c & H & B & S). exists c. split; [exact H|]. split; [exact B|]. split; [exact S|]. split; [|split].
  - destruct H as ((o' & t' & A & C & P) & _). unfold pin in A. unfold dview in V. assert (o' = o) by congruence. subst o'.
    rewrite X in C. injection C as <-.
    destruct (chain_round_trip (m_nd mm) (m_tb mm) c B S) as [(c' & E & SC)|E]; unfold chain_copy in E; rewrite P in E; cbn [bind] in E; rewrite U in E; [|discriminate E].
    injection E as <-. exact SC.
  - apply sets_hok. rewrite (oc_hd _ _ _ _ _ _ _ _ _ _ _ _ _ _ OC). intros q. eapply holds_sets; exact H.
  - eapply restored_good; [exact S0|exact H|apply (oc_grow _ _ _ _ _ _ _ _ _ _ _ _ _ _ OC)| |apply (oc_hd _ _ _ _ _ _ _ _ _ _ _ _ _ _ OC)|apply (oc_prog _ _ _ _ _ _ _ _ _ _ _ _ _ _ OC)|apply (oc_extra _ _ _ _ _ _ _ _ _ _ _ _ _ _ OC)].
    intros q f Y. apply (oc_got _ _ _ _ _ _ _ _ _ _ _ _ _ _ OC q f Y).
Qed.

Lemma trim_write k n i : ent_find n (k_ents k) = Some i ->
  (trim k L_WRITE n = ent_del n (k_ents k) /\ forall q, dview k i q = None) \/ (trim k L_WRITE n = k_ents k /\ exists q, dview k i q <> None).
Proof.
  intros H. unfold trim. rewrite H. destruct (k_dirs k i) as [|[q o] l] eqn:D; [left|right]; (split; [reflexivity|]).
  - apply view_empty, D.
  - exists q. unfold dview. rewrite D. cbn [pin_find]. rewrite pname_eqb_refl. discriminate.
Qed.

Lemma chain_flush_ok F p (I : kst -> Prop) mm n k0 : sane k0 -> (forall i, ent_find n (k_ents k0) = Some i -> consistent k0 i) ->
  (forall S k', grow p S k0 k' -> I k') -> (forall S k', evo p (trim k0 L_WRITE n) None [] S k0 k' -> I k') ->
  (forall i D M Z E' k', ent_find n (k_ents k0) = Some i -> E' = k_ents k0 \/ E' = ent_del n (k_ents k0) ->
     evo p E' (Some (i, D)) M Z k0 k' -> D P_ctx = None -> I k') ->
  wps F p I (chain_flush mm n) (fun r k' =>
    match r with
    | Ok _ => exists i c hd, ent_find n (k_ents k0) = Some i /\ holds_chain k0 i c hd /\ flushed F p k0 n i hd k'
    | Er e => (grow p [] k0 k' \/ evo p (trim k0 L_WRITE n) None [] [] k0 k') /\ unopened F mm k0 n L_WRITE L_WRITE e
    end) k0.
Proof.
  intros S0 CONS HG HT HU. unfold chain_flush. apply with_chain_ok; [exact S0|exact HG|exact HT|auto|].
  intros b pd cf i hd g k1 OC. pose proof (oc_ent _ _ _ _ _ _ _ _ _ _ _ _ _ _ OC) as EN. pose proof (sane_ent _ S0 _ _ EN) as LI.
  destruct (opened_held _ _ _ _ _ _ _ _ _ _ _ _ _ _ S0 OC (CONS i EN)) as (c & HC & CB & CS & SC & HOK & _).
  destruct (opened_links _ _ _ _ _ _ _ _ _ _ _ _ _ _ OC) as (O & LO & L1 & L2 & _).
  pose proof (opened_fds _ _ _ _ _ _ _ _ _ _ _ _ _ _ OC) as FDS. pose proof (oc_grow _ _ _ _ _ _ _ _ _ _ _ _ _ _ OC) as G1.
  pose proof (oc_hd _ _ _ _ _ _ _ _ _ _ _ _ _ _ OC) as HD.
  apply wps_bind. eapply wps_post with (I := I); [auto| |apply (cgen_unload_ok F p I g cf i L_WRITE O (k_ents k0) [] [cf; pd; b] k0 k1 G1 S0 LI (oc_cf _ _ _ _ _ _ _ _ _ _ _ _ _ _ OC) LO HOK)]; cycle 1.
  { intros f H. apply FDS, H. }
  { exact (oc_apart _ _ _ _ _ _ _ _ _ _ _ _ _ _ OC). }
  { eapply HG, G1. }
  { intros D M Z k' E' DC _. eapply HU; [exact EN|left; reflexivity|exact E'|exact DC]. }
  intros [] k2 U. destruct U as [(D & M & E2 & DC & UN & KEEP) UO DN UF].
  apply wps_ret; [eapply HU; [exact EN|left; reflexivity|exact E2|exact DC]|].
  assert (DIR : forall k', cle (trim k2 L_WRITE n) k2 k' -> forall q, dview k' i q = D q).
  { intros k' C q. unfold dview. rewrite (ce_dirs _ _ _ C). apply (ev_view _ _ _ _ _ _ _ E2 i D eq_refl). }
  assert (EE : k_ents k2 = k_ents k0) by apply (ev_ents _ _ _ _ _ _ _ E2).
  assert (TR : (trim k2 L_WRITE n = ent_del n (k_ents k0) /\ forall q, D q = None) \/ (trim k2 L_WRITE n = k_ents k0 /\ exists q, D q <> None)).
  { rewrite <- EE in EN. destruct (trim_write k2 n i EN) as [(A & Z)|(A & q & B)]; rewrite EE in A; [left; split; [exact A|intros q; rewrite <- (proj2 (ev_view _ _ _ _ _ _ _ E2 i D eq_refl) q); apply Z]|right].
    split; [exact A|]. exists q. rewrite <- (proj2 (ev_view _ _ _ _ _ _ _ E2 i D eq_refl) q). exact B. }
  exists (Some (i, D)), M. cbn [fst snd g_handle]. split; [exact E2|]. split; [|split; [intros f []|split]].
  - apply find_desc_of. rewrite UF; [apply desc_of_find, (oc_pd _ _ _ _ _ _ _ _ _ _ _ _ _ _ OC)|]. intros X. destruct (FDS _ X) as (_ & _ & Y & _). congruence.
  - intros E' Z k' C EV. pose proof (ev_ents _ _ _ _ _ _ _ EV) as Y. eapply HU; [exact EN| |exact EV|exact DC].
    destruct (ce_ents _ _ _ C) as [X|X]; rewrite Y in X; rewrite X; [left; exact EE|]. destruct TR as [(T & _)|(T & _)]; rewrite T; auto.
  - intros k' C EV. exists i, c, hd. split; [exact EN|]. split; [exact HC|].
    assert (DN' : forall o, In o O -> down k' o) by (intros o H; unfold down; rewrite (ce_objs _ _ _ C); exact (DN o H)).
    constructor.
    + exists D, M. pose proof (ev_ents _ _ _ _ _ _ _ EV) as Y. rewrite Y. split; [exact EV|]. split; [exact DC|]. split; [|split].
      * intros q H. apply UN. apply desc_hnames. rewrite HD. exact H.
      * intros q N1 N2. rewrite KEEP; [|exact N1|intros X; apply N2; rewrite <- HD; apply hnames_desc, X].
        eapply dview_grow; [exact G1|exact LI].
      * exact TR.
    + intros o H1 H2. apply DN', L1; assumption.
    + intros o H1 H2. destruct (L2 o H1 H2) as [X|X]; [left; apply DN', X|right; exact X].
Qed.
