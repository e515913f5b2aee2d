(** Attaching, and bf_cgen_set as a whole. *)
From Coq Require Import NArith ZArith List Bool Lia.
From Verif Require Import Bytes Types World BpfModel GenModel BytesFacts StrModel SetModel MapModel PackModel PackSpec HookModel KernModel LockModel CtlModel SysSpec SysFacts RelyFacts SeqFacts StageFacts EvoFacts CtlSpec HandleFacts PinFacts.
Import ListNotations.
Local Open Scope N_scope.

(** The link object is attached for program [po]; relative to [k0] it is new. *)
Definition link_on (k0 k : kst) (p : pid) (po : oid) (l : link) : Prop :=
  (exists lo t, attach_point (l_hook l) (l_opts l) 2 = Some t /\ newfd k0 k p (l_fd l) lo (O_link (l_hook l) t po false)) /\
  match l_extra l with
  | Some fx => hook_flavor (l_hook l) = F_NF /\
      exists lx t, attach_point (l_hook l) (l_opts l) 10 = Some t /\ newfd k0 k p fx lx (O_link (l_hook l) t po false)
  | None => hook_flavor (l_hook l) <> F_NF
  end.
Lemma link_on_grow k0 k k' p q S po l : grow q S k k' -> sane k -> link_on k0 k p po l -> link_on k0 k' p po l.
Proof.
  intros G K [(lo & t & A & B) C]. split; [exists lo, t; split; [exact A|exact (newfd_grow _ _ _ _ _ _ _ _ _ G K B)]|].
  destruct (l_extra l); [|exact C]. destruct C as (D & lx & t' & E & N). split; [exact D|]. exists lx, t'. split; [exact E|exact (newfd_grow _ _ _ _ _ _ _ _ _ G K N)].
Qed.

Definition is_cgroup (h : hook) : Prop := hook_flavor h = F_CGROUP_SKB \/ hook_flavor h = F_SOCK_ADDR.

Definition link_made (F : call -> bool) (p : pid) (k0 : kst) (h : hook) (opts : hookopts) (po : oid) (r : res (option link)) (k' : kst) : Prop :=
  match r with
  | Ok (Some l) => grow p (map snd (lpins (Some l))) k0 k' /\ l_hook l = h /\ l_opts l = opts /\ link_on k0 k' p po l
  | Ok None => grow p [] k0 k' /\ is_cgroup h /\ (faulty F \/ ho_cgpath opts = None)
  | Er _ => grow p [] k0 k' /\ faulty F
  end.

Lemma link_new_ok F p (I : kst -> Prop) h opts pf po img ss cm k0 : sane k0 -> (forall S k', grow p S k0 k' -> I k') ->
  desc_of k0 p pf = Some (D_obj po) -> k_objs k0 po = Some (O_prog img ss cm) ->
  wps F p I (link_new h opts pf) (link_made F p k0 h opts po) k0.
Proof.
  intros K HI DP OP. unfold link_new. pose proof (evo_refl p k0 K) as G0.
  assert (HE : forall e, faulty F -> wps F p I (Ret (Er e : res (option link))) (link_made F p k0 h opts po) k0).
  { intros e FT. apply wps_ret; [eapply HI, G0|]. split; assumption. }
  apply wps_alloc; [eapply HI, G0| |intros HF e; apply HE; exists C_alloc; exact HF].
  (* one link *)
  assert (H1 : forall k t f o, hook_flavor h <> F_NF -> attach_point h opts 2 = Some t -> grow p [f] k0 k -> newfd k0 k p f o (O_link h t po false) ->
     wps F p I (Ret (Ok (Some (mkLink h opts f None)))) (link_made F p k0 h opts po) k).
  { intros k t f o NF AP G N. apply wps_ret; [eapply HI, G|]. cbn [link_made lpins l_fd l_extra opt_map map snd l_hook l_opts].
    split; [exact G|]. split; [reflexivity|]. split; [reflexivity|]. split; [exists o, t; auto|exact NF]. }
  destruct (hook_flavor h) eqn:FL.
  - (* TC *)
    eapply wps_link_create; [exact K|exact DP|exact OP|eapply HI, G0| |intros HF e; apply HE; eapply faulty_intro, HF].
    intros k1 f o G1 D1 O1 L1 L2. apply (H1 k1 (T_if (opt_ifindex opts)) f o); [discriminate|unfold attach_point; rewrite FL; reflexivity|exact G1|].
    split; [lia|]. split; [lia|]. split; [exact D1|exact O1].
  - (* NF *)
    eapply wps_link_create; [exact K|exact DP|exact OP|eapply HI, G0| |intros HF e; apply HE; eapply faulty_intro, HF].
    intros k1 f o G1 D1 O1 L1 L2. pose proof (ev_sane _ _ _ _ _ _ _ G1) as K1.
    assert (N1 : newfd k0 k1 p f o (O_link h (T_nf PF_INET (fst (opt_prios opts))) po false)) by (split; [lia|]; split; [lia|]; auto).
    eapply wps_link_create; [exact K1|exact (grow_desc _ _ _ _ _ _ _ G1 K DP)|exact (grow_obj _ _ _ _ _ _ G1 K OP)|eapply HI, G1| |].
    + intros k2 f6 o6 G2 D2 O2 L3 L4. pose proof (grow_trans _ _ _ _ _ _ G1 G2) as T2. pose proof (ev_next _ _ _ _ _ _ _ G1) as NX.
      apply (newfd_grow _ _ _ _ _ _ _ _ _ G2 K1) in N1.
      apply wps_ret; [eapply HI, T2|]. cbn [link_made lpins l_fd l_extra opt_map map snd l_hook l_opts].
      split; [eapply evo_incl; [exact T2|cbn; intuition auto]|]. split; [reflexivity|]. split; [reflexivity|]. split.
      * exists o, (T_nf PF_INET (fst (opt_prios opts))). split; [|exact N1]. unfold attach_point. cbn [l_hook l_opts]. rewrite FL. unfold opt_prios. destruct (ho_priorities opts); reflexivity.
      * cbn [l_extra l_hook l_opts]. split; [exact FL|]. exists o6, (T_nf PF_INET6 (fst (opt_prios opts))). split; [unfold attach_point; rewrite FL; unfold opt_prios; destruct (ho_priorities opts); reflexivity|].
        split; [lia|]. split; [lia|]. auto.
    + intros HF e. eapply wps_close with (S' := []); [exact G1|exact K|exact L2|intros x [<-|[]]; auto|eapply HI, G1|].
      intros k2 _ _ _ _ G2. apply wps_ret; [eapply HI, G2|]. split; [exact G2|eapply faulty_intro, HF].
  - (* XDP *)
    unfold try_attach_xdp. apply pbind_assoc. eapply wps_link_create; [exact K|exact DP|exact OP|eapply HI, G0| |].
    + intros k1 f o G1 D1 O1 L1 L2. cbn [pbind]. apply (H1 k1 (T_if (opt_ifindex opts)) f o); [discriminate|unfold attach_point; rewrite FL; reflexivity|exact G1|].
      split; [lia|]. split; [lia|]. split; [exact D1|exact O1].
    + intros HF e. destruct (e =? ENOTSUP); [|cbn [pbind]; apply HE; eapply faulty_intro, HF].
      eapply wps_link_create; [exact K|exact DP|exact OP|eapply HI, G0| |intros HF' e'; apply HE; eapply faulty_intro, HF'].
      intros k1 f o G1 D1 O1 L1 L2. apply (H1 k1 (T_if (opt_ifindex opts)) f o); [discriminate|unfold attach_point; rewrite FL; reflexivity|exact G1|].
      split; [lia|]. split; [lia|]. split; [exact D1|exact O1].
  - (* cgroup *)
    assert (CG : is_cgroup h) by (left; exact FL).
    destruct (ho_cgpath opts) as [path|] eqn:CP.
    2:{ apply wps_ret; [eapply HI, G0|]. split; [exact G0|]. split; [exact CG|auto]. }
    apply wps_fd; [eapply HI, G0| |].
    2:{ intros HF _ e. apply wps_ret; [eapply HI, G0|]. split; [exact G0|]. split; [exact CG|]. left. eapply faulty_intro, HF. }
    intros s. cbn [kdo new_fd snd fres].
    assert (G1 : grow p [k_next k0] k0 (fst (new_fd k0 p (D_cgroup path)))) by (apply grow_fd; [exact K|reflexivity|discriminate|discriminate]).
    revert G1. set (k1 := fst (new_fd k0 p (D_cgroup path))). intros G1. change (fst (kdo k0 p (C_open_cgroup path) s)) with k1.
    pose proof (ev_sane _ _ _ _ _ _ _ G1) as K1.
    eapply wps_link_create; [exact K1|exact (grow_desc _ _ _ _ _ _ _ G1 K DP)|exact (grow_obj _ _ _ _ _ _ G1 K OP)|eapply HI, G1| |].
    + intros k2 f o G2 D2 O2 L3 L4. pose proof (grow_trans _ _ _ _ _ _ G1 G2) as T2. pose proof (ev_next _ _ _ _ _ _ _ G1) as NX.
      eapply wps_close with (S' := [f]); [exact T2|exact K|lia|intros x [<-|[<-|[]]]; [left; left; reflexivity|right; reflexivity]|eapply HI, T2|].
      intros k3 FD _ OB _ G3. eapply (H1 k3 (T_cgroup path) f o); [discriminate|unfold attach_point; rewrite FL, CP; reflexivity|exact G3|].
      split; [lia|]. split; [lia|]. split; [|rewrite OB; exact O2]. apply find_desc_of. rewrite FD; [apply desc_of_find, D2|]. cbn in NX, L4. lia.
    + intros HF e. eapply wps_close with (S' := []); [exact G1|exact K|lia|intros x [<-|[]]; auto|eapply HI, G1|].
      intros k2 _ _ _ _ G2. apply wps_ret; [eapply HI, G2|]. split; [exact G2|eapply faulty_intro, HF].
  - (* sock_addr *)
    assert (CG : is_cgroup h) by (right; exact FL).
    destruct (ho_cgpath opts) as [path|] eqn:CP.
    2:{ apply wps_ret; [eapply HI, G0|]. split; [exact G0|]. split; [exact CG|auto]. }
    apply wps_fd; [eapply HI, G0| |].
    2:{ intros HF _ e. apply wps_ret; [eapply HI, G0|]. split; [exact G0|]. split; [exact CG|]. left. eapply faulty_intro, HF. }
    intros s. cbn [kdo new_fd snd fres].
    assert (G1 : grow p [k_next k0] k0 (fst (new_fd k0 p (D_cgroup path)))) by (apply grow_fd; [exact K|reflexivity|discriminate|discriminate]).
    revert G1. set (k1 := fst (new_fd k0 p (D_cgroup path))). intros G1. change (fst (kdo k0 p (C_open_cgroup path) s)) with k1.
    pose proof (ev_sane _ _ _ _ _ _ _ G1) as K1.
    eapply wps_link_create; [exact K1|exact (grow_desc _ _ _ _ _ _ _ G1 K DP)|exact (grow_obj _ _ _ _ _ _ G1 K OP)|eapply HI, G1| |].
    + intros k2 f o G2 D2 O2 L3 L4. pose proof (grow_trans _ _ _ _ _ _ G1 G2) as T2. pose proof (ev_next _ _ _ _ _ _ _ G1) as NX.
      eapply wps_close with (S' := [f]); [exact T2|exact K|lia|intros x [<-|[<-|[]]]; [left; left; reflexivity|right; reflexivity]|eapply HI, T2|].
      intros k3 FD _ OB _ G3. eapply (H1 k3 (T_cgroup path) f o); [discriminate|unfold attach_point; rewrite FL, CP; reflexivity|exact G3|].
      split; [lia|]. split; [lia|]. split; [|rewrite OB; exact O2]. apply find_desc_of. rewrite FD; [apply desc_of_find, D2|]. cbn in NX, L4. lia.
    + intros HF e. eapply wps_close with (S' := []); [exact G1|exact K|lia|intros x [<-|[]]; auto|eapply HI, G1|].
      intros k2 _ _ _ _ G2. apply wps_ret; [eapply HI, G2|]. split; [exact G2|eapply faulty_intro, HF].
Qed.

Lemma good_names k p ch h : good k p ch h -> map fst (h_sets h) = set_names ch.
Proof. intros [_ _ _ _ _ H]. exact H. Qed.
Lemma set_names_P ch q : In q (set_names ch) -> exists j, q = P_set j.
Proof. unfold set_names. intros H. apply in_map_iff in H as (j & <- & _). eauto. Qed.
Lemma good_hok k p ch h : good k p ch h -> hok h.
Proof. intros H q Hq. rewrite (good_names _ _ _ _ H) in Hq. eapply set_names_P, Hq. Qed.

Lemma good_mono k k' p ch h : good k p ch h ->
  (forall q f o, In (q, f) (hpins h) -> desc_of k p f = Some (D_obj o) -> desc_of k' p f = Some (D_obj o)) ->
  (forall o v, k_objs k o = Some v -> k_objs k' o = Some v) -> good k' p ch h.
Proof.
  intros G HD HO. eapply complete_mono; [| |exact G].
  - intros q o (f & X & Y). exists f. split; [exact X|]. eapply HD; eauto.
  - intros q o v _. apply HO.
Qed.
Lemma good_grow k k' p q S ch h : grow q S k k' -> sane k -> good k p ch h -> good k' p ch h.
Proof.
  intros G K H. eapply good_mono; [exact H| |].
  - intros a f o _. apply (grow_desc _ _ _ _ _ _ _ G K).
  - intros o v. apply (grow_obj _ _ _ _ _ _ G K).
Qed.

(** The program of a good handle. *)
Lemma good_prog k p ch h : good k p ch h -> exists img pf po ss cm, gen_program ch = Ok img /\ h_prog h = Some pf /\
  desc_of k p pf = Some (D_obj po) /\ k_objs k po = Some (O_prog img ss cm).
Proof.
  intros H. pose proof (good_hok _ _ _ _ H) as HK. destruct H as [(img & po & ss & cm & v & B1 & (f & X & Y) & B3 & _) _ _ _ _ _].
  apply hpins_cases in X. destruct X as [[_ X]|[[X _]|[[X _]|[[X _]|[[X _]|[X|X]]]]]]; try discriminate X.
  - exists img, f, po, ss, cm. auto.
  - apply (in_map fst) in X. destruct (HK _ X) as (j & E). discriminate E.
  - destruct (h_link h) as [l|]; [|destruct X]. cbn [lpins] in X. destruct X as [X|X]; [discriminate X|]. apply in_opt_map in X as [X _]. discriminate X.
Qed.

Lemma good_set_link k0 k p ch h l po pf : good k p ch h -> h_link h = None -> h_prog h = Some pf -> desc_of k p pf = Some (D_obj po) ->
  link_on k0 k p po l -> l_hook l = c_hook ch -> good k p ch (set_link h (Some l)).
Proof.
  intros G HL HP DP LO HH. pose proof (good_hok _ _ _ _ G) as HK.
  assert (IN : forall q f, In (q, f) (hpins h) -> In (q, f) (hpins (set_link h (Some l)))).
  { intros q f. unfold hpins, set_link, h_maps. cbn [h_prog h_link h_cmap h_pmap h_lmap h_smap h_sets]. rewrite !in_app_iff, HL. cbn [lpins In]. tauto. }
  assert (IL : forall q f, In (q, f) (lpins (Some l)) -> In (q, f) (hpins (set_link h (Some l)))).
  { intros q f H. unfold hpins. rewrite !in_app_iff. auto. }
  destruct G as [(img & po' & ss & cm & v & B1 & (f & X & Y) & B3 & (fc & XC & YC) & B5 & B6 & B7 & _) C1 C2 C3 C4 C5].
  assert (po' = po) as ->.
  { apply hpins_cases in X. destruct X as [[_ X]|[[X _]|[[X _]|[[X _]|[[X _]|[X|X]]]]]]; try discriminate X.
    - congruence.
    - apply (in_map fst) in X. destruct (HK _ X) as (j & E). discriminate E.
    - rewrite HL in X. destruct X. }
  destruct LO as [(lo & t & A1 & _ & _ & A2 & A3) A4].
  constructor; cbn [handle_desc set_link h_prog h_link h_cmap h_pmap h_lmap h_smap h_sets hd_link hd_cmap hd_pmap hd_lmap hd_smap hd_sets] in *.
  - exists img, po, ss, cm, v. split; [exact B1|]. split; [exists f; auto|]. split; [exact B3|]. split; [exists fc; auto|]. split; [exact B5|].
    split; [eapply Forall2_impl; [|exact B6]; intros q o (g & H1 & H2); exists g; auto|]. split; [exact B7|].
    split; [exact HH|]. split.
    + exists lo, t. split; [exact A1|]. split; [|exact A3]. exists (l_fd l). split; [apply IL; left; reflexivity|exact A2].
    + intros NF. destruct (l_extra l) as [fx|] eqn:EX; [|contradiction]. destruct A4 as (_ & lx & t' & E1 & _ & _ & E2 & E3).
      exists lx, t'. split; [exact E1|]. split; [|exact E3]. exists fx. split; [|exact E2]. apply IL. cbn [lpins]. rewrite EX. right. left. reflexivity.
  - exact C1.
  - destruct C2 as (D1 & o & (g & D2 & D3) & D4). split; [exact D1|]. exists o. split; [exists g; auto|exact D4].
  - destruct C3 as (D1 & D2). split; [exact D1|]. intros H. destruct (D2 H) as (o & (g & D3 & D4) & D5). exists o. split; [exists g; auto|exact D5].
  - destruct C4 as (D1 & D2). split; [exact D1|]. intros H. destruct (D2 H) as (o & (g & D3 & D4) & D5). exists o. split; [exists g; auto|exact D5].
  - exact C5.
Qed.

(** The link that the options ask for; none if the cgroup cannot be opened. *)
Definition link_as_asked (F : call -> bool) (ch : chain) (opts : option hookopts) (h : handle) : Prop :=
  match opts with
  | None => h_link h = None
  | Some o => (exists l, h_link h = Some l /\ l_opts l = o /\ l_hook l = c_hook ch) \/
              (h_link h = None /\ is_cgroup (c_hook ch) /\ (faulty F \/ ho_cgpath o = None))
  end.

(** The result of attaching a built handle. *)
Definition attached (F : call -> bool) (p : pid) (k0 : kst) (ch : chain) (opts : option hookopts) (h : handle) (k' : kst) : Prop :=
  grow p (hfds h) k0 k' /\ hnew k0 k' p h /\ h_prog h <> None /\ good k' p ch h /\
  link_as_asked F ch opts h.

Lemma hpins_set_link h l q f : h_link h = None -> (In (q, f) (hpins (set_link h (Some l))) <-> In (q, f) (hpins h) \/ In (q, f) (lpins (Some l))).
Proof.
  intros HL. unfold hpins, h_maps. cbn [set_link h_prog h_link h_cmap h_pmap h_lmap h_smap h_sets]. rewrite !in_app_iff, HL. cbn [lpins In]. tauto.
Qed.

Lemma set_link_none h : h_link h = None -> set_link h None = h.
Proof. destruct h as [a b c d e f g]. cbn. intros ->. reflexivity. Qed.

Lemma handle_attach_ok F p (I : kst -> Prop) ch o h k0 k : sane k0 -> (forall S k', grow p S k0 k' -> I k') ->
  grow p (hfds h) k0 k -> hnew k0 k p h -> h_link h = None -> good k p ch h ->
  wps F p I (handle_attach h (c_hook ch) o) (fun r k' =>
    match r with
    | Ok h' => attached F p k0 ch (Some o) h' k'
    | Er _ => grow p (hfds h) k0 k' /\ hnew k0 k' p h /\ faulty F
    end) k.
Proof.
  intros K0 HI G N HL GD. destruct (good_prog _ _ _ _ GD) as (img & pf & po & ss & cm & _ & HP & DP & OP).
  pose proof (ev_sane _ _ _ _ _ _ _ G) as K. pose proof (ev_next _ _ _ _ _ _ _ G) as NX.
  unfold handle_attach. rewrite HL, HP. apply wps_bind.
  eapply wps_post with (I := I); [auto| |eapply link_new_ok with (k0 := k)]; cycle 1.
  { exact K. }
  { intros S k' G'. eapply HI. exact (grow_trans _ _ _ _ _ _ G G'). }
  { exact DP. }
  { exact OP. }
  intros r k1 H. destruct r as [[l|]|e]; cbn [link_made] in H.
  - destruct H as (G1 & H1 & H2 & H3). pose proof (grow_trans _ _ _ _ _ _ G G1) as T1.
    apply wps_ret; [eapply HI, T1|].
    assert (LO : link_on k0 k1 p po l).
    { destruct H3 as [(lo & t & A & B1 & B2 & B) C]. split; [exists lo, t; split; [exact A|split; [lia|split; [lia|exact B]]]|].
      destruct (l_extra l); [|exact C]. destruct C as (C1 & lx & t' & C2 & B3 & B4 & B5). split; [exact C1|]. exists lx, t'. split; [exact C2|split; [lia|split; [lia|exact B5]]]. }
    split; [|split; [|split; [|split]]].
    + eapply evo_incl; [exact T1|]. intros f Hf. apply in_app_or in Hf. unfold hfds. apply in_map_iff.
      destruct Hf as [Hf|Hf]; apply in_map_iff in Hf as ([q x] & <- & Hx); exists (q, x); (split; [reflexivity|]); apply hpins_set_link; auto.
    + intros q f Hf. apply hpins_set_link in Hf; [|exact HL]. destruct Hf as [Hf|Hf].
      * destruct (N q f Hf) as (o' & v & X). exists o', v. exact (newfd_grow _ _ _ _ _ _ _ _ _ G1 K X).
      * destruct LO as [(lo & t & _ & A) B]. cbn [lpins] in Hf. destruct Hf as [Hf|Hf]; [injection Hf as <- <-; eauto|].
        apply in_opt_map in Hf as [-> Hf]. rewrite Hf in B. destruct B as (_ & lx & t' & _ & B). eauto.
    + cbn. rewrite HP. discriminate.
    + eapply good_set_link; [exact (good_grow _ _ _ _ _ _ _ G1 K GD)|exact HL|exact HP|exact (grow_desc _ _ _ _ _ _ _ G1 K DP)|exact LO|exact H1].
    + left. exists l. auto.
  - destruct H as (G1 & CG & C). pose proof (grow_trans _ _ _ _ _ _ G G1) as T1. apply wps_ret; [eapply HI, T1|].
    rewrite set_link_none by exact HL. split; [exact T1|]. split; [exact (hnew_grow _ _ _ _ _ _ _ G1 K N)|]. split; [congruence|].
    split; [exact (good_grow _ _ _ _ _ _ _ G1 K GD)|]. right. auto.
  - destruct H as (G1 & FT). pose proof (grow_trans _ _ _ _ _ _ G G1) as T1. apply wps_ret; [eapply HI, T1|].
    split; [exact T1|]. split; [exact (hnew_grow _ _ _ _ _ _ _ G1 K N)|exact FT].
Qed.

(** ** bf_cgen_set on an empty directory *)
Definition set_done (F : call -> bool) (p : pid) (k0 : kst) (i : ino) (c : nchain) (opts : option hookopts) (r : cgen * res unit) (k' : kst) : Prop :=
  g_chain (fst r) = c /\ (forall f, In f (hfds (g_handle (fst r))) -> k_next k0 <= f) /\
  exists D, evo p (k_ents k0) (Some (i, D)) [] (hfds (g_handle (fst r))) k0 k' /\
  match snd r with
  | Ok _ => holds_chain k' i c (handle_desc (g_handle (fst r))) /\ link_as_asked F (nc_chain c) opts (g_handle (fst r)) /\
      hnew k0 k' p (g_handle (fst r)) /\ good k' p (nc_chain c) (g_handle (fst r)) /\ tidy k' i
  | Er e => (forall q, D q = None) /\
      (faulty F \/ gen_program (nc_chain c) = Er e \/ chain_pack c = Er e \/ ~ NoDup (set_names (nc_chain c)))
  end.

Lemma hnew_fds k0 k p h f : hnew k0 k p h -> In f (hfds h) -> k_next k0 <= f.
Proof. intros N H. apply in_map_iff in H as ([q x] & <- & H). destruct (N q x H) as (o & v & L & _). exact L. Qed.
Lemma hnew_opened k0 k p h : hnew k0 k p h -> opened k p (hpins h).
Proof. intros N q f H. destruct (N q f H) as (o & v & _ & _ & D & _). exists o. exact D. Qed.
Lemma good_hmaps k p ch h : good k p ch h -> ~ NoDup (map fst (h_maps h)) -> ~ NoDup (set_names ch).
Proof.
  intros G H N. apply H. rewrite <- (good_names _ _ _ _ G) in N. pose proof (good_hok _ _ _ _ G) as HK.
  unfold h_maps. rewrite !map_app.
  assert (A : forall (q : pname) o l, NoDup (map fst (l : list (pname * fd))) -> (forall x, In x (map fst l) -> x <> q) -> NoDup (map fst (opt_map q o ++ l))).
  { intros q o l X Y. destruct o; cbn; [|exact X]. constructor; [|exact X]. intros Z. exact (Y q Z eq_refl). }
  assert (B : forall (q : pname) o x, In x (map fst (opt_map q o)) -> x = q) by (intros q o x; destruct o; cbn; [intros [<-|[]]; reflexivity|intros []]).
  rewrite <- !map_app.
  apply A; [apply A; [apply A; [apply A; [exact N|]|]|]|]; intros x; rewrite ?map_app, ?in_app_iff; intros X E; subst x;
    repeat match goal with H : _ \/ _ |- _ => destruct H as [H|H] | H : In _ (map fst (opt_map _ _)) |- _ => apply B in H; discriminate H
           | H : In _ (map fst (h_sets h)) |- _ => destruct (HK _ H) as (j & H'); discriminate H' end.
Qed.

Lemma hnames_desc h q : In q (hnames h) -> In q (pin_names (handle_desc h)).
Proof.
  unfold hnames, pin_names, handle_desc, h_maps. cbn [hd_link hd_cmap hd_pmap hd_lmap hd_smap hd_sets In].
  rewrite !map_app, !in_app_iff. destruct (h_link h), (h_cmap h), (h_pmap h), (h_lmap h), (h_smap h); cbn [is_some opt_map map fst In]; tauto.
Qed.

Lemma cgen_set_ok F p (I : kst -> Prop) c opts d i md k0 : sane k0 -> desc_of k0 p d = Some (D_dir i md) -> (forall q, dview k0 i q = None) ->
  (forall S D k', evo p (k_ents k0) (Some (i, D)) [] S k0 k' -> D P_ctx = None -> I k') ->
  (forall S D k' h, evo p (k_ents k0) (Some (i, D)) [] S k0 k' -> holds_chain k' i c (handle_desc h) -> link_as_asked F (nc_chain c) opts h -> I k') ->
  wps F p I (cgen_set (mkCg c handle_new) opts d) (set_done F p k0 i c opts) k0.
Proof.
  intros K0 DD EM HA HB. pose proof (dir_lt _ _ _ _ _ K0 DD) as LI.
  assert (HG : forall S k', grow p S k0 k' -> I k') by (intros S k' G; eapply HA; [exact (evo_none _ _ _ _ _ _ G i LI)|apply EM]).
  unfold cgen_set. cbn [g_chain g_handle]. apply wps_bind.
  eapply wps_post with (I := I); [auto| |apply (build_program_ok F p I c k0 K0 HG)].
  intros [h r] k1 (G1 & N1 & L1 & R). cbn [fst snd] in *.
  destruct r as [u|e].
  2:{ apply wps_ret; [eapply HG, G1|]. unfold set_done. cbn [fst snd g_chain g_handle]. split; [reflexivity|]. split; [intros f; apply (hnew_fds _ _ _ _ _ N1)|].
      exists (dview k0 i). split; [exact (evo_none _ _ _ _ _ _ G1 i LI)|]. split; [exact EM|]. tauto. }
  destruct R as (HP & GD & _).
  apply wps_bind.
  eapply wps_post with (I := I) (Q := fun r k' => match r with
    | Ok h' => attached F p k0 (nc_chain c) opts h' k'
    | Er _ => grow p (hfds h) k0 k' /\ hnew k0 k' p h /\ faulty F end); [auto| |].
  2:{ destruct opts as [o|].
      - apply handle_attach_ok; auto.
      - apply wps_ret; [eapply HG, G1|]. split; [exact G1|]. split; [exact N1|]. split; [exact HP|]. split; [exact GD|exact L1]. }
  intros r k2 R. destruct r as [h'|e].
  2:{ destruct R as (G2 & N2 & FT). apply wps_ret; [eapply HG, G2|]. unfold set_done. cbn [fst snd g_chain g_handle]. split; [reflexivity|]. split; [intros f; apply (hnew_fds _ _ _ _ _ N2)|].
      exists (dview k0 i). split; [exact (evo_none _ _ _ _ _ _ G2 i LI)|]. split; [exact EM|]. tauto. }
  clear HP GD. destruct R as (G2 & N2 & HP & GD & LA). pose proof (evo_none _ _ _ _ _ _ G2 i LI) as E2.
  pose proof (ev_sane _ _ _ _ _ _ _ G2) as K2. pose proof (good_hok _ _ _ _ GD) as HK.
  assert (V2 : forall q, dview k2 i q = None). { intros q. destruct (ev_view _ _ _ _ _ _ _ E2 i _ eq_refl) as [_ V]. rewrite V. apply EM. }
  assert (LI2 : i < k_next k2) by (pose proof (ev_next _ _ _ _ _ _ _ G2); lia).
  assert (DD2 : desc_of k2 p d = Some (D_dir i md)) by exact (grow_desc _ _ _ _ _ _ _ G2 K0 DD).
  apply wps_bind.
  eapply wps_post with (I := I); [auto| |eapply (handle_pin_ok F p I d i md h' k2 K2 DD2)]; cycle 1.
  { eapply hnew_opened, N2. }
  { exact HP. }
  { exact HK. }
  { intros D k' W O. eapply HA; [exact (evo_dwr _ _ _ _ _ _ _ _ _ _ E2 eq_refl LI2 W)|]. rewrite O; [apply V2|]. intros X. destruct (hok_names _ _ HK X) as [X' _]. congruence. }
  intros r k3 (D3 & W3 & O3 & R). pose proof (evo_dwr _ _ _ _ _ _ _ _ _ _ E2 eq_refl LI2 W3) as E3. pose proof (ev_sane _ _ _ _ _ _ _ E3) as K3.
  assert (DW : forall f, desc_of k3 p f = desc_of k2 p f) by (intros f; apply (dwr_desc _ _ _ _ _ _ W3)).
  assert (C3 : D3 P_ctx = None). { rewrite O3; [apply V2|]. intros X. destruct (hok_names _ _ HK X) as [X' _]. congruence. }
  assert (T3 : D3 P_ctx_tmp = None). { rewrite O3; [apply V2|]. intros X. destruct (hok_names _ _ HK X) as [_ X']. congruence. }
  destruct r as [u'|e].
  2:{ apply wps_ret; [eapply HA; eauto|]. unfold set_done. cbn [fst snd g_chain g_handle]. split; [reflexivity|]. split; [intros f; apply (hnew_fds _ _ _ _ _ N2)|].
      exists D3. split; [exact E3|]. destruct R as [R1 R2]. split.
      - intros q. destruct (in_dec pname_dec q (hnames h')) as [X|X]; [apply R1, X|rewrite (O3 q X); apply V2].
      - destruct R2 as [R2|[(q & _ & X)|R2]]; [auto|rewrite V2 in X; congruence|]. right. right. right. eapply good_hmaps; eauto. }
  destruct R as [R1 R2].
  assert (GD3 : good k3 p (nc_chain c) h').
  { eapply good_mono; [exact GD| |]; [intros q f o _; rewrite DW; auto|rewrite (dw_objs _ _ _ _ W3); auto]. }
  assert (CP3 : forall kk D, (forall o v, k_objs k3 o = Some v -> k_objs kk o = Some v) -> (forall q, q <> P_ctx -> q <> P_ctx_tmp -> D q = D3 q) -> (forall q, pin kk i q = D q) ->
     complete_at (fun q o => pin kk i q = Some o) (k_objs kk) (nc_chain c) (handle_desc h')).
  { intros kk D HO HD HV. eapply complete_mono; [| |exact GD3].
    - intros q o (f & X & Y). rewrite HV. pose proof (hok_names _ _ HK (hpins_names _ _ _ X)) as [X1 X2]. rewrite HD by assumption.
      eapply R1; [exact X|]. rewrite <- DW. exact Y.
    - intros q o v _. apply HO. }
  assert (HS : forall S D k', evo p (k_ents k3) (Some (i, D)) [] S k3 k' -> evo p (k_ents k0) (Some (i, D)) [] (S ++ hfds h') k0 k').
  { intros S D k' E. pose proof (evo_trans _ _ _ _ _ _ _ _ _ _ _ _ E3 E eq_refl) as T. cbn [join app] in T.
    rewrite (ev_ents _ _ _ _ _ _ _ E3) in T. exact T. }
  assert (DD3 : desc_of k3 p d = Some (D_dir i md)) by (rewrite DW; exact DD2).
  assert (V3 : forall q, dview k3 i q = D3 q) by (apply (dw_view _ _ _ _ W3)).
  assert (HO : forall S D k', evo p (k_ents k3) (Some (i, D)) [] S k3 k' -> forall o v, k_objs k3 o = Some v -> k_objs k' o = Some v).
  { intros S D k' E o v X. eapply evo_obj; [exact E|exact K3|exact X|reflexivity]. }
  assert (HH : forall S D k', evo p (k_ents k3) (Some (i, D)) [] S k3 k' -> off [P_ctx_tmp; P_ctx] (dview k3 i) D ->
     ctx_at k' D c (handle_desc h') -> holds_chain k' i c (handle_desc h')).
  { intros S D k' E O (o & t & X1 & X2 & X3). destruct (ev_view _ _ _ _ _ _ _ E i D eq_refl) as [_ V]. split.
    - exists o, t. split; [unfold pin; fold (dview k' i P_ctx); rewrite V; exact X1|auto].
    - apply (CP3 k' D); [exact (HO _ _ _ E)| |exact V]. intros q Q1 Q2. rewrite O; [apply V3|]. intros [X|[X|[]]]; congruence. }
  apply wps_bind.
  eapply wps_post with (I := I); [auto| |eapply (persist_ok F p I (mkCg c h') d i md k3 K3 DD3)]; cycle 1.
  { intros S D k' E O. eapply HA; [exact (HS _ _ _ E)|]. rewrite O; [rewrite V3; exact C3|]. intros [X|[]]; discriminate X. }
  { intros S D k' E O C. eapply HB; [exact (HS _ _ _ E)|eapply HH; eauto|exact LA]. }
  intros r k4 (D4 & E4 & R). cbn [g_chain g_handle] in R.
  destruct r as [u''|e].
  - destruct R as (O4 & T4 & C4). pose proof (HH _ _ _ E4 O4 C4) as HC.
    apply wps_ret; [eapply HB; [exact (HS _ _ _ E4)|exact HC|exact LA]|].
    unfold set_done. cbn [fst snd g_chain g_handle]. split; [reflexivity|]. split; [intros f; apply (hnew_fds _ _ _ _ _ N2)|].
    exists D4. split; [exact (HS _ _ _ E4)|]. split; [exact HC|]. split; [exact LA|].
    assert (HD : forall f x, desc_of k3 p f = Some x -> desc_of k4 p f = Some x) by (intros f x; apply (evo_desc _ _ _ _ _ _ _ _ _ _ E4 K3)).
    split.
    + intros q f X. destruct (N2 q f X) as (o & v & Y1 & Y2 & Y3 & Y4). exists o, v. split; [exact Y1|]. split; [exact Y2|].
      split; [apply HD; rewrite DW; exact Y3|]. eapply HO; [exact E4|]. rewrite (dw_objs _ _ _ _ W3). exact Y4.
    + split; [eapply good_mono; [exact GD3| |exact (HO _ _ _ E4)]; intros q f o _; apply HD|].
      destruct C4 as (o & t & X1 & X2 & X3). destruct (ev_view _ _ _ _ _ _ _ E4 i _ eq_refl) as [_ V4].
      exists o, t, (handle_desc h'). unfold pin. change (pin_find P_ctx (k_dirs k4 i)) with (dview k4 i P_ctx). rewrite V4. split; [exact X1|]. split; [exact X2|].
      intros q. change (pin_find q (k_dirs k4 i)) with (dview k4 i q). rewrite V4. intros NQ.
      destruct (pname_dec q P_ctx) as [->|Q1]; [left; reflexivity|]. destruct (pname_dec q P_ctx_tmp) as [->|Q2]; [contradiction|].
      right. rewrite O4 in NQ by (intros [X|[X|[]]]; congruence). rewrite V3 in NQ.
      apply hnames_desc. destruct (in_dec pname_dec q (hnames h')) as [X|X]; [exact X|]. rewrite (O3 q X), V2 in NQ. contradiction.
  - destruct R as (O4 & T4 & C4). pose proof (ev_sane _ _ _ _ _ _ _ E4) as K4. pose proof (HS _ _ _ E4) as E4'. cbn [app] in E4'.
    assert (LI4 : i < k_next k4) by (destruct (ev_view _ _ _ _ _ _ _ E4 i _ eq_refl); assumption).
    assert (V4 : forall q, dview k4 i q = D4 q) by (destruct (ev_view _ _ _ _ _ _ _ E4 i _ eq_refl); assumption).
    assert (DD4 : desc_of k4 p d = Some (D_dir i md)) by exact (evo_desc _ _ _ _ _ _ _ _ _ _ E4 K3 DD3).
    assert (C4' : D4 P_ctx = None). { rewrite O4; [rewrite V3; exact C3|]. intros [X|[]]; discriminate X. }
    assert (PC : forall D, off (hnames h') (dview k4 i) D -> D P_ctx = None).
    { intros D O. rewrite O; [rewrite V4; exact C4'|]. intros X. destruct (hok_names _ _ HK X) as [X' _]. congruence. }
    apply wps_bind.
    eapply wps_post with (I := I); [auto| |eapply (unpins_handle p h' d F I i md (hnames h') k4 K4 DD4)]; cycle 1.
    { intros D k' W O. eapply HA; [exact (evo_dwr _ _ _ _ _ _ _ _ _ _ E4' eq_refl LI4 W)|exact (PC D O)]. }
    { auto. }
    intros _ k5 (D5 & W5 & O5 & Z5). pose proof (evo_dwr _ _ _ _ _ _ _ _ _ _ E4' eq_refl LI4 W5) as E5.
    apply wps_ret; [eapply HA; [exact E5|exact (PC D5 O5)]|]. unfold set_done. cbn [fst snd g_chain g_handle]. split; [reflexivity|].
    split; [intros f; apply (hnew_fds _ _ _ _ _ N2)|]. exists D5. split; [exact E5|]. split; [|tauto].
    intros q. destruct (in_dec pname_dec q (hnames h')) as [X|X]; [apply Z5, X|]. rewrite (O5 q X), V4.
    destruct (pname_dec q P_ctx_tmp) as [->|NE].
    + destruct T4 as [T4|T4]; [rewrite T4, V3; exact T3|exact T4].
    + rewrite O4 by (intros [Y|[]]; congruence). rewrite V3, (O3 q X). apply V2.
Qed.
