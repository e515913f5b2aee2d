(** Reading a chain and its counters. *)
From Coq Require Import NArith ZArith List Bool Lia.
From Verif Require Import Bytes Types World BpfModel GenModel BytesFacts StrModel SetModel MapModel PackModel PackSpec PackFacts4 HookModel KernModel LockModel CtlModel SysSpec SysFacts RelyFacts SeqFacts StageFacts EvoFacts CtlSpec HandleFacts PinFacts AttachFacts LockSeqFacts LoadFacts RestoreFacts WithFacts IsolFacts UnloadFacts AttachOpFacts SetOpFacts HistSpec HistFacts CtlFacts.
Import ListNotations.
Local Open Scope N_scope.

Lemma sum_from l : forall a b, fold_left (fun a x => ((fst a + fst x) mod two64, (snd a + snd x) mod two64)) l (a mod two64, b mod two64) =
  ((a + fold_right N.add 0 (map fst l)) mod two64, (b + fold_right N.add 0 (map snd l)) mod two64).
Proof.
  assert (Z : two64 <> 0) by discriminate.
  induction l as [|[x y] l IH]; intros a b; cbn [fold_left map fold_right fst snd]; [rewrite !N.add_0_r; reflexivity|].
  rewrite !N.add_mod_idemp_l by exact Z. rewrite IH. f_equal; f_equal; lia.
Qed.
Lemma sum_total l : sum_counters l = total l.
Proof. unfold sum_counters, total. change (0, 0) with (0 mod two64, 0 mod two64). rewrite sum_from. reflexivity. Qed.


Lemma get_counter_ok F p (I : kst -> Prop) h i o n v k : I k -> cmap_is k p h o n v ->
  wps F p I (handle_get_counter h i) (fun r k' => k' = k /\ match r with Ok x => i < n /\ x = total (v i) | Er e => faulty F \/ n <= i end) k.
Proof.
  intros HI (f & HC & D & OB). unfold handle_get_counter. rewrite HC. unfold sys. cbn [pbind]. apply wps_step; [exact HI|]. split.
  2:{ intros H _ e. cbn [pbind]. apply wps_ret; [exact HI|]. split; [reflexivity|]. left. eapply faulty_intro; exact H. }
  intros s. cbn [kdo snd fst pbind]. apply wps_alloc; [exact HI| |].
  2:{ intros H e. apply wps_ret; [exact HI|]. split; [reflexivity|]. left. eapply faulty_intro; exact H. }
  apply wps_step; [exact HI|]. split.
  - intros s'. cbn [kdo]. unfold obj_of. rewrite D, OB. destruct (N.ltb_spec i n) as [L|L]; cbn [snd fst]; apply wps_ret; auto.
    split; [reflexivity|]. split; [exact L|apply sum_total].
  - intros H _ e. apply wps_ret; [exact HI|]. split; [reflexivity|]. left. eapply faulty_intro; exact H.
Qed.

Lemma slot_of g z : counter_slot g z =
  let n := n_rules (nc_chain (g_chain g)) in
  if (z =? -2)%Z then Ok n else if (z =? -1)%Z then Ok (n + 1) else if (z <? 0)%Z || (Z.of_N n <=? z)%Z then Er EINVAL else Ok (Z.to_N z).
Proof.
  unfold counter_slot, COUNTER_POLICY, COUNTER_ERRORS. cbv zeta. rewrite N2Z.id.
  replace (Z.to_N (Z.of_N (n_rules (nc_chain (g_chain g))) + 1)) with (n_rules (nc_chain (g_chain g)) + 1) by lia. reflexivity.
Qed.

Lemma cgen_counter_ok F p (I : kst -> Prop) g z o v k : I k -> cmap_is k p (g_handle g) o (n_rules (nc_chain (g_chain g)) + 2) v ->
  wps F p I (cgen_get_counter g z) (fun r k' => k' = k /\
    match r with Ok x => exists i, counter_slot g z = Ok i /\ x = total (v i) | Er e => faulty F \/ (counter_slot g z = Er EINVAL /\ e = EINVAL) end) k.
Proof.
  intros HI CM. unfold cgen_get_counter. pose proof (slot_of g z) as SL. cbv zeta in SL.
  destruct (counter_slot g z) as [i|e] eqn:CS.
  - eapply wps_post with (I := I); [auto| |eapply get_counter_ok; [exact HI|exact CM]].
    intros [x|e] k' (-> & H); (split; [reflexivity|]); [exists i; split; [reflexivity|apply H]|].
    destruct H as [H|H]; [left; exact H|exfalso].
    destruct (z =? -2)%Z; [injection SL as ->; lia|]. destruct (z =? -1)%Z; [injection SL as ->; lia|].
    destruct ((z <? 0)%Z || (Z.of_N (n_rules (nc_chain (g_chain g))) <=? z)%Z) eqn:B; [discriminate SL|]. injection SL as ->.
    apply orb_false_iff in B as [B1 B2]. lia.
  - apply wps_ret; [exact HI|]. split; [reflexivity|]. right.
    destruct (z =? -2)%Z; [discriminate SL|]. destruct (z =? -1)%Z; [discriminate SL|].
    destruct ((z <? 0)%Z || (Z.of_N (n_rules (nc_chain (g_chain g))) <=? z)%Z); [|discriminate SL]. injection SL as ->. auto.
Qed.

Lemma rule_counters_ok F p (I : kst -> Prop) g o v k l : I k -> cmap_is k p (g_handle g) o (n_rules (nc_chain (g_chain g)) + 2) v ->
  (forall r, In r l -> r_index r < n_rules (nc_chain (g_chain g))) ->
  wps F p I (load_rule_counters g l) (fun r k' => k' = k /\
    match r with Ok xs => xs = map (fun r => if r_counters r then Some (total (v (r_index r))) else None) l | Er _ => faulty F end) k.
Proof.
  intros HI CM. induction l as [|r l IH]; intros LT; cbn [load_rule_counters map].
  - apply wps_ret; auto.
  - assert (SLOT : counter_slot g (Z.of_N (r_index r)) = Ok (r_index r)).
    { rewrite slot_of. cbv zeta. pose proof (LT r (or_introl eq_refl)). rewrite (proj2 (Z.eqb_neq _ _)), (proj2 (Z.eqb_neq _ _)) by lia.
      rewrite (proj2 (Z.ltb_ge _ _)), (proj2 (Z.leb_gt _ _)) by lia. cbn [orb]. rewrite N2Z.id. reflexivity. }
    assert (TAIL : forall y : option (N * N), wps F p I (rr <~ load_rule_counters g l ;; match rr with Er e => Ret (Er e) | Ok vs => Ret (Ok (y :: vs)) end)
       (fun r0 k' => k' = k /\ match r0 with Ok xs => xs = y :: map (fun r => if r_counters r then Some (total (v (r_index r))) else None) l | Er _ => faulty F end) k).
    { intros y. apply wps_bind. eapply wps_post with (I := I); [auto| |apply IH; intros x H; apply LT; right; exact H].
      intros [xs|e] k' (-> & H); (apply wps_ret; [exact HI|]); (split; [reflexivity|]); [rewrite H; reflexivity|exact H]. }
    destruct (r_counters r).
    + apply pbind_assoc. apply wps_bind. eapply wps_post with (I := I); [auto| |eapply cgen_counter_ok; [exact HI|exact CM]].
      intros [x|e] k' (-> & H); cbn [pbind].
      * destruct H as (i & E & ->). rewrite SLOT in E. injection E as <-. apply TAIL.
      * apply wps_ret; [exact HI|]. split; [reflexivity|]. destruct H as [H|[H _]]; [exact H|congruence].
    + cbn [pbind]. apply TAIL.
Qed.

Lemma load_counters_ok F p (I : kst -> Prop) g o v k : I k -> cmap_is k p (g_handle g) o (n_rules (nc_chain (g_chain g)) + 2) v ->
  (forall r, In r (c_rules (nc_chain (g_chain g))) -> r_index r < n_rules (nc_chain (g_chain g))) ->
  wps F p I (load_counters g) (fun r k' => k' = k /\ match r with Ok cs => cs = reading (nc_chain (g_chain g)) v | Er _ => faulty F end) k.
Proof.
  intros HI CM LT. unfold load_counters. apply wps_bind.
  eapply wps_post with (I := I); [auto| |apply (rule_counters_ok F p I g o v k _ HI CM LT)].
  intros [vs|e] k' (-> & H); [|apply wps_ret; auto]. apply wps_bind.
  eapply wps_post with (I := I); [auto| |eapply cgen_counter_ok; [exact HI|exact CM]].
  intros [x|e] k' (-> & HX); [|apply wps_ret; [exact HI|]; split; [reflexivity|]; destruct HX as [Y|[Y _]]; [exact Y|discriminate Y]].
  apply wps_bind. eapply wps_post with (I := I); [auto| |eapply cgen_counter_ok; [exact HI|exact CM]].
  intros [y|e] k' (-> & HY); [|apply wps_ret; [exact HI|]; split; [reflexivity|]; destruct HY as [Y|[Y _]]; [exact Y|discriminate Y]].
  apply wps_ret; [exact HI|]. split; [reflexivity|]. unfold reading. subst vs.
  destruct HX as (i & E & ->). destruct HY as (j & E' & ->). rewrite slot_of in E, E'. cbn [Z.eqb Pos.eqb] in E, E'. injection E as <-. injection E' as <-. reflexivity.
Qed.

Lemma built_index c : chain_built c -> forall r, In r (c_rules (nc_chain c)) -> r_index r < n_rules (nc_chain c).
Proof.
  intros B r Hr. destruct (built_settled c B) as [_ _ R]. apply In_nth_error in Hr as (i & Hi).
  pose proof (check_rules_index _ _ _ _ _ _ R i r Hi) as ->. assert (i < length (c_rules (nc_chain c)))%nat by (apply nth_error_Some; congruence).
  unfold n_rules. lia.
Qed.

Lemma opts_desc g : cgen_opts g = desc_opts (handle_desc (g_handle g)).
Proof. unfold cgen_opts, desc_opts, handle_desc. cbn [hd_link]. destruct (h_link (g_handle g)); reflexivity. Qed.

Lemma opened_cmap F p mm k0 n pm cm b pd cf i hd g k1 c : opened_chain F p mm k0 n pm cm b pd cf i hd g k1 -> sane k0 -> holds_chain k0 i c hd ->
  exists o v, pin k0 i P_cmap = Some o /\ k_objs k0 o = Some (O_counters (n_rules (nc_chain c) + 2) v) /\ cmap_is k1 p (g_handle g) o (n_rules (nc_chain c) + 2) v.
Proof.
  intros OC S0 (_ & CP). destruct (cp_body _ _ _ _ CP) as (img & po & ss & co & v & _ & _ & _ & PC & OB & _).
  pose proof (cp_cmap _ _ _ _ CP) as HC. rewrite <- (oc_hd _ _ _ _ _ _ _ _ _ _ _ _ _ _ OC) in HC. unfold handle_desc in HC. cbn [hd_cmap] in HC.
  exists co, v. split; [exact PC|]. split; [exact OB|]. destruct (h_cmap (g_handle g)) as [f|] eqn:HF; [|discriminate HC].
  exists f. split; [exact HF|].
  assert (IN : In (P_cmap, f) (hpins (g_handle g))).
  { unfold hpins, h_maps. rewrite HF. cbn [opt_map]. rewrite !in_app_iff. cbn. tauto. }
  destruct (oc_got _ _ _ _ _ _ _ _ _ _ _ _ _ _ OC _ _ IN) as (_ & _ & _ & (_ & o & V & D)).
  unfold dview in V. unfold pin in PC. assert (o = co) by congruence. subst o. split; [exact D|].
  rewrite (ev_objs _ _ _ _ _ _ _ (oc_grow _ _ _ _ _ _ _ _ _ _ _ _ _ _ OC)) by (eapply sane_obj; eauto). exact OB.
Qed.

Lemma cle_refl_leave {A} p (I : kst -> Prop) (Q : res A -> kst -> Prop) F mm k0 n pm cm b pd cf i hd g k1 r : opened_chain F p mm k0 n pm cm b pd cf i hd g k1 -> sane k0 ->
  is_write cm = false \/ (exists q, dview k0 i q <> None) ->
  (forall S k', grow p S k0 k' -> I k') -> (forall k', grow p [] k0 k' -> Q r k') -> leaves p I Q k0 n pm cm b pd cf (g, r) k1.
Proof.
  intros OC S0 HW HG HQ. pose proof (oc_grow _ _ _ _ _ _ _ _ _ _ _ _ _ _ OC) as G1. pose proof (oc_ent _ _ _ _ _ _ _ _ _ _ _ _ _ _ OC) as EN.
  assert (TR : trim k1 cm n = k_ents k0).
  { rewrite <- (ev_ents _ _ _ _ _ _ _ G1). destruct cm; try reflexivity. destruct HW as [HW|(q & HW)]; [discriminate HW|].
    rewrite <- (ev_ents _ _ _ _ _ _ _ G1) in EN. destruct (trim_write k1 n i EN) as [(_ & X)|(X & _)]; [exfalso|exact X].
    apply HW. rewrite <- (X q). symmetry. eapply dview_grow; [exact G1|]. eapply sane_ent; [exact S0|]. rewrite (ev_ents _ _ _ _ _ _ _ G1) in EN. exact EN. }
  exists None, []. cbn [fst snd]. split; [exact G1|]. split; [apply (oc_pd _ _ _ _ _ _ _ _ _ _ _ _ _ _ OC)|]. split; [|split].
  - intros f H. destruct (opened_fds _ _ _ _ _ _ _ _ _ _ _ _ _ _ OC f H) as (A1 & _ & B1 & _). auto.
  - intros E' Z k' C EV. eapply HG. pose proof (ev_ents _ _ _ _ _ _ _ EV) as Y. unfold grow.
    destruct (ce_ents _ _ _ C) as [X|X]; rewrite Y in X; [rewrite (ev_ents _ _ _ _ _ _ _ G1) in X|rewrite TR in X]; rewrite X in EV; exact EV.
  - intros k' C EV. apply HQ. rewrite TR in EV. exact EV.
Qed.

Lemma chain_get_ok F p (I : kst -> Prop) mm n k0 : sane k0 -> (forall i, ent_find n (k_ents k0) = Some i -> consistent k0 i) ->
  (forall S k', grow p S k0 k' -> I k') ->
  wps F p I (chain_get mm n) (fun r k' => grow p [] k0 k' /\
    match r with
    | Ok (c', cs, opts) => exists i c hd v, ent_find n (k_ents k0) = Some i /\ holds_chain k0 i c hd /\ chain_built c /\ storable c /\ same_chain c c' /\
        opts = desc_opts hd /\ counts_at k0 i (n_rules (nc_chain c)) v /\ cs = reading (nc_chain c) v
    | Er e => unopened F mm k0 n L_READ L_READ e
    end) k0.
Proof.
  intros S0 CONS HG. unfold chain_get.
  assert (TR : trim k0 L_READ n = k_ents k0) by reflexivity.
  apply with_chain_ok; [exact S0|exact HG|intros S k' EV; rewrite TR in EV; eapply HG; exact EV|intros e k' [X|X] Y; (split; [exact X|exact Y])|].
  intros b pd cf i hd g k1 OC. pose proof (oc_ent _ _ _ _ _ _ _ _ _ _ _ _ _ _ OC) as EN.
  destruct (opened_held _ _ _ _ _ _ _ _ _ _ _ _ _ _ S0 OC (CONS i EN)) as (c & HC & CB & CS & SC & HOK & _).
  destruct (opened_cmap _ _ _ _ _ _ _ _ _ _ _ _ _ _ _ OC S0 HC) as (o & v & PC & OB & CM).
  pose proof (oc_grow _ _ _ _ _ _ _ _ _ _ _ _ _ _ OC) as G1. assert (HI : I k1) by (eapply HG; exact G1).
  assert (UN : forall e, faulty F -> unopened F mm k0 n L_READ L_READ e) by (intros e H; left; exact H).
  destruct SC as (SN & SS & SE). pose proof (conj SN (conj SS SE)) as SC. fold (same_chain c (g_chain g)) in SC.
  apply wps_bind. eapply wps_post with (I := I); [auto| |apply (load_counters_ok F p I g o v k1 HI)].
  2:{ rewrite <- SE. exact CM. }
  2:{ rewrite <- SE. apply built_index, CB. }
  intros [cs|e] k' (-> & H).
  2:{ apply wps_ret; [exact HI|]. eapply cle_refl_leave; [exact OC|exact S0|left; reflexivity|exact HG|]. intros k' G. split; [exact G|]. apply UN, H. }
  rewrite opts_desc, (oc_hd _ _ _ _ _ _ _ _ _ _ _ _ _ _ OC).
  assert (DONE : wps F p I (Ret (g, Ok (g_chain g, cs, desc_opts hd))) (leaves p I (fun (r : res (nchain * counters * option hookopts)) k' => grow p [] k0 k' /\
    match r with
    | Ok (c', cs, opts) => exists i c hd v, ent_find n (k_ents k0) = Some i /\ holds_chain k0 i c hd /\ chain_built c /\ storable c /\ same_chain c c' /\
        opts = desc_opts hd /\ counts_at k0 i (n_rules (nc_chain c)) v /\ cs = reading (nc_chain c) v
    | Er e => unopened F mm k0 n L_READ L_READ e
    end) k0 n L_READ L_READ b pd cf) k1).
  { apply wps_ret; [exact HI|]. eapply cle_refl_leave; [exact OC|exact S0|left; reflexivity|exact HG|]. intros k' G. split; [exact G|].
    exists i, c, hd, v. split; [exact EN|]. split; [exact HC|]. split; [exact CB|]. split; [exact CS|]. split; [exact SC|]. split; [reflexivity|].
    split; [exists o; auto|]. rewrite SE. exact H. }
  unfold copy_hookopts. destruct (desc_opts hd) as [oo|]; cbn [pbind]; [|exact DONE].
  apply pbind_assoc. apply wps_alloc; [exact HI|exact DONE|]. intros HF e. cbn [pbind]. apply wps_ret; [exact HI|].
  eapply cle_refl_leave; [exact OC|exact S0|left; reflexivity|exact HG|]. intros k' G. split; [exact G|]. apply UN. eapply faulty_intro; exact HF.
Qed.

(** ** Histories *)
Lemma none_no_fds k p : k_fds k = [] -> no_fds k p.
Proof. intros H f x. unfold desc_of. rewrite H. cbn. discriminate. Qed.
Lemma set_failed F p m1 m2 c o k0 e k : sane k0 -> all_consistent k0 -> chain_built c -> storable c -> ends F p (chain_set m1 m2 c o) k0 (Er e) k ->
  nothing_new (nc_name c) k0 k \/
  exists i c0 hd, ent_find (nc_name c) (k_ents k0) = Some i /\ holds_chain k0 i c0 hd /\ forall j, ent_find (nc_name c) (k_ents k) = Some j -> pin k j P_ctx = None.
Proof.
  intros S0 CONS CB CS EN.
  pose proof (wps_ends _ _ _ _ _ _ _ _ EN (chain_set_ok F p (fun _ => True) m1 m2 c o k0 S0 (CONS (nc_name c)) CB CS (fun _ _ _ => Logic.I) (fun _ _ _ => Logic.I) (fun _ _ _ _ _ _ _ _ _ _ => Logic.I) (fun _ _ _ _ _ _ => Logic.I) (fun _ _ _ _ _ _ => Logic.I))) as H.
  cbn beta iota in H. destruct H as [([G|G] & _)|(kb & CL & SB & G & _)];
    [left; eapply unchanged_new, grow_unchanged; eassumption|left; eapply trim_new; eassumption|].
  pose proof (grow_unchanged _ _ _ SB G) as [U1 U2 U3 U4 U5].
  destruct CL as [(-> & _)|[(T & _)|(i & c0 & hd & EI & HC & FL)]].
  - left. apply unchanged_new. constructor; auto.
  - left. destruct (trim_new _ _ _ _ S0 T) as [A1 A2 A3 A4 A5 A6 A7]. constructor.
    + intros m j. rewrite U1. auto.
    + intros m j. rewrite U1. auto.
    + intros j q x. rewrite U2. auto.
    + intros j q x. rewrite U2. auto.
    + intros f. rewrite U3. auto.
    + auto.
    + auto.
  - right. exists i, c0, hd. split; [exact EI|]. split; [exact HC|]. intros j. rewrite U1, U2.
    destruct (fl_dir _ _ _ _ _ _ _ FL) as (D & M & EV & DC & _ & _ & TR). intros H.
    assert (j = i) as ->. { destruct TR as [(X & _)|(X & _)]; rewrite X in H; [apply del_sub in H|]; congruence. }
    rewrite <- DC. apply (ev_view _ _ _ _ _ _ _ EV i D eq_refl).
Qed.

Lemma attach_failed_tidy F p mm n o k0 e k : sane k0 -> all_consistent k0 -> (forall i, ent_find n (k_ents k0) = Some i -> tidy k0 i) ->
  ends F p (chain_attach mm n o) k0 (Er e) k -> unchanged k0 k.
Proof.
  intros S0 CONS TD EN.
  pose proof (wps_ends _ _ _ _ _ _ _ _ EN (chain_attach_ok F p (fun _ => True) mm n o k0 S0 (CONS n) (fun _ _ _ => Logic.I) (fun _ _ _ => Logic.I) (fun _ _ _ _ _ _ _ _ _ _ _ => Logic.I) (fun _ _ _ _ _ _ _ _ _ _ => Logic.I))) as H.
  cbn beta iota in H. destruct H as [([G|G] & _)|(i & c & hd & EI & HC & (D & EV & OF & SUB & SAME) & _)];
    [eapply grow_unchanged; eassumption| |].
  - eapply grow_unchanged; [exact S0|]. unfold grow. replace (k_ents k0) with (trim k0 L_WRITE n); [exact G|].
    unfold trim. destruct (ent_find n (k_ents k0)) as [i|] eqn:EI; [|reflexivity]. destruct (TD i eq_refl) as (x & t & hd & A & _).
    unfold pin in A. destruct (k_dirs k0 i); [discriminate A|reflexivity].
  - pose proof (attach_failed _ _ _ _ _ _ _ _ S0 CONS EN) as [A1 A2 A3 A4 A5 A6 A7].
    assert (PN : forall j q, pin k j q = pin k0 j q).
    { intros j q. destruct (pin k0 j q) as [x|] eqn:P0.
      - destruct (A4 j q x P0) as [X|(X & Y & c' & hd' & HC' & HL)]; [exact X|exfalso].
        rewrite EI in X. injection X as <-. destruct (TD i EI) as (o1 & t1 & hd1 & B1 & B2 & B3).
        destruct HC' as ((o2 & t2 & C1 & C2 & _) & CP'). assert (o2 = o1) by congruence. subst o2. rewrite B2 in C2. injection C2 as <- <-.
        destruct (B3 q) as [Z|Z]; [congruence|destruct Y as [-> | ->]; discriminate Z|].
        unfold pin_names in Z. rewrite HL in Z. rewrite (cp_sets _ _ _ _ CP') in Z. cbn [app In] in Z. rewrite !in_app_iff in Z.
        assert (NS : ~ In q (set_names (nc_chain c'))) by (unfold set_names; rewrite in_map_iff; intros (z & W & _); destruct Y as [-> | ->]; discriminate W).
        destruct (hd_cmap hd1), (hd_pmap hd1), (hd_lmap hd1), (hd_smap hd1); cbn [In] in Z; destruct Y as [-> | ->]; intuition congruence.
      - destruct (pin k j q) as [y|] eqn:P1; [|reflexivity]. apply A3 in P1. congruence. }
    constructor; auto. exact (ev_ents _ _ _ _ _ _ _ EV).
Qed.

Lemma holds_rnames k i c hd q : holds_chain k i c hd -> In q (rnames hd) -> dview k i q <> None.
Proof.
  intros (_ & CP) H. destruct CP as [(img & po & ss & cm & v & B1 & B2 & B3 & B4 & B5 & B6 & B7 & B8) C1 (C2 & x2 & C2' & _) (C3 & C3') (C4 & C4') C5].
  unfold rnames in H. cbn [In] in H. rewrite !in_app_iff in H. unfold dview. unfold pin in *.
  destruct H as [<-|[H|[H|[H|[H|[H|H]]]]]]; [rewrite B2; discriminate| | | | | |].
  - destruct (hd_link hd) as [[hk oo]|]; [|destruct H]. destruct H as [<-|[]]. destruct B8 as (_ & (lo & t & _ & X & _) & _). rewrite X. discriminate.
  - destruct (hd_cmap hd); [|destruct H]. destruct H as [<-|[]]. rewrite B4. discriminate.
  - destruct (hd_pmap hd); [|destruct H]. destruct H as [<-|[]]. rewrite C2'. discriminate.
  - rewrite C3 in H. destruct (c_log (nc_chain c)); [|destruct H]. destruct H as [<-|[]]. destruct (C3' eq_refl) as (x & X & _). rewrite X. discriminate.
  - destruct (hd_smap hd); [|destruct H]. destruct H as [<-|[]]. destruct (C4' eq_refl) as (x & X & _). rewrite X. discriminate.
  - rewrite C5 in H. clear -H B6. induction B6; cbn [In] in H; [destruct H|]. destruct H as [<-|H]; [rewrite H0; discriminate|auto].
Qed.

Lemma set_works p m1 m2 c o k0 : sane k0 -> all_consistent k0 -> chain_built c -> storable c ->
  ~ clash k0 (D_pindir L_NONE) L_WRITE -> (forall s, is_staging s = true -> ent_find s (k_ents k0) = None) -> is_staging (nc_name c) = false ->
  (forall i, generous (m_nd m2 i) (m_tb m2)) -> (exists img, gen_program (nc_chain c) = Ok img) -> NoDup (set_names (nc_chain c)) ->
  Forall (fun u => forall l, set_read u = Ok l -> N.of_nat (length l) < two32) (nc_sets c) ->
  (forall i, ent_find (nc_name c) (k_ents k0) = Some i ->
     ~ clash k0 (D_dir i L_NONE) L_WRITE /\
     ((forall q, pin k0 i q = None) \/ (tidy k0 i /\ forall c0 hd, holds_chain k0 i c0 hd -> exists c', chain_copy (m_nd m1) (m_tb m1) c0 = Ok c'))) ->
  fst (solo p (chain_set m1 m2 c o) k0) = Ok tt.
Proof.
  intros S0 CONS CB CS NC NS NST GEN (img & GP) ND SZ OLD.
  pose proof (solo_ends no_fault p (chain_set m1 m2 c o) k0) as EN. destruct (fst (solo p (chain_set m1 m2 c o) k0)) as [[]|e] eqn:R; [reflexivity|exfalso].
  pose proof (wps_ends _ _ _ _ _ _ _ _ EN (chain_set_ok no_fault p (fun _ => True) m1 m2 c o k0 S0 (CONS (nc_name c)) CB CS (fun _ _ _ => Logic.I) (fun _ _ _ => Logic.I) (fun _ _ _ _ _ _ _ _ _ _ => Logic.I) (fun _ _ _ _ _ _ => Logic.I) (fun _ _ _ _ _ _ => Logic.I))) as H.
  cbn beta iota in H. set (n := nc_name c) in *.
  assert (NF : ~ faulty no_fault) by (intros (x & X); discriminate X).
  assert (READ : forall i e, ent_find n (k_ents k0) = Some i -> unread no_fault m1 k0 i e -> e = ENOENT /\ forall q, pin k0 i q = None).
  { intros i e' EI U. destruct (OLD i EI) as (_ & [E0|(TD & CP)]).
    - destruct U as [U|[(A & B)|[(x & A & _)|(x & t & hd & A & _)]]]; [contradiction|auto| |]; unfold dview in A; specialize (E0 P_ctx); unfold pin in E0; congruence.
    - exfalso. destruct (CONS n i EI) as [X|(c0 & hd & HC & B & S)].
      + destruct TD as (x & t & hd & A & _). congruence.
      + destruct (CP c0 hd HC) as (c' & CC). pose proof HC as ((x & t & P1 & P2 & P3) & _). unfold pin in P1. fold (dview k0 i P_ctx) in P1.
        destruct U as [U|[(A & _)|[(y & A & A')|(y & t' & hd' & A & A' & A'')]]].
        * contradiction.
        * congruence.
        * assert (y = x) by congruence. subst y. exact (A' _ P2).
        * assert (y = x) by congruence. subst y. rewrite P2 in A'. injection A' as <- <-. destruct A'' as [A''|[A''|(_ & q & Q1 & Q2)]].
          -- unfold chain_copy in CC. rewrite P3 in CC. cbn [bind] in CC. congruence.
          -- contradiction.
          -- exact (holds_rnames _ _ _ _ _ HC Q1 Q2). }
  destruct H as [(_ & U & EE)|(kb & CL & SB & G & LR)].
  - destruct U as [U|[U|[(-> & U)|(i & EI & [U|U])]]]; [contradiction|contradiction| | |].
    + destruct (EE eq_refl); contradiction.
    + exact (proj1 (OLD i EI) U).
    + destruct (READ i e EI U) as (-> & _). destruct (EE eq_refl); contradiction.
  - assert (KB : ent_find n (k_ents kb) = None /\ (forall x j, ent_find x (k_ents kb) = Some j -> ent_find x (k_ents k0) = Some j) /\ ~ clash kb (D_pindir L_NONE) L_WRITE).
    { assert (FDS : forall E X M, evo p E X M [] k0 kb -> ~ clash kb (D_pindir L_NONE) L_WRITE).
      { intros E X M EV (g & q & d & A & B & C). apply NC. exists g, q, d. rewrite <- (none_new _ _ _ _ _ _ g S0 EV). auto. }
      destruct CL as [(-> & [C|[C|(i & EI & C)]])|[(EV & i & EI & C)|(i & c0 & hd & EI & HC & FL)]].
      - contradiction.
      - auto.
      - exfalso. exact (proj1 (OLD i EI) C).
      - destruct (READ i _ EI C) as (_ & Z). split; [|split; [|eapply FDS; exact EV]]; rewrite (ev_ents _ _ _ _ _ _ _ EV).
        + destruct (trim_write k0 n i EI) as [(-> & _)|(_ & q & Q)]; [|exfalso; exact (Q (Z q))].
          rewrite ent_find_del. rewrite (proj2 (bytes_eqb_eq n n) eq_refl). reflexivity.
        + intros x j. apply trim_sub.
      - destruct (fl_dir _ _ _ _ _ _ _ FL) as (D & M & EV & DC & UN & KEEP & TR).
        assert (DZ : forall q, D q = None).
        { intros q. destruct (OLD i EI) as (_ & [E0|((x & t & hd' & T1 & T2 & T3) & _)]).
          - destruct (pname_dec q P_ctx) as [->|Q1]; [exact DC|]. destruct (in_dec pname_dec q (pin_names hd)) as [X|X]; [apply UN, X|]. rewrite KEEP by assumption. apply E0.
          - destruct HC as ((x' & t' & P1 & P2 & _) & _). assert (x' = x) by congruence. subst x'. rewrite T2 in P2. injection P2 as <- <-.
            destruct (pname_dec q P_ctx) as [->|Q1]; [exact DC|]. destruct (in_dec pname_dec q (pin_names hd')) as [X|X]; [apply UN, X|]. rewrite KEEP by assumption.
            destruct (dview k0 i q) as [y|] eqn:Y; [|reflexivity]. exfalso. destruct (T3 q) as [Z|Z]; [unfold pin; unfold dview in Y; congruence|contradiction|contradiction]. }
        destruct TR as [(TR & _)|(_ & q & Q)]; [|exfalso; exact (Q (DZ q))]. split; [|split; [|eapply FDS; exact EV]]; rewrite TR.
        + rewrite ent_find_del. rewrite (proj2 (bytes_eqb_eq n n) eq_refl). reflexivity.
        + intros x j. apply del_sub. }
    destruct KB as (K1 & K2 & K3).
    destruct (chain_round_trip_generous (m_nd m2) (m_tb m2) c GEN CB CS SZ) as (c' & RT & _).
    assert (PK : exists t, chain_pack c = Ok t) by (unfold chain_copy in RT; destruct (chain_pack c) eqn:PK; [eauto|cbn [bind] in RT; congruence]).
    destruct LR as [H|[H|[H|[H|[H|H]]]]]; [|tauto|congruence|congruence|destruct PK; congruence|tauto].
    destruct H as [H|[(s & A & B)|[H|H]]]; [contradiction| |exact (H K1)|unfold n in NST; rewrite NST in H; discriminate H].
    destruct (ent_find s (k_ents kb)) as [j|] eqn:Y; [|congruence]. apply K2 in Y. rewrite (NS s A) in Y. discriminate Y.
Qed.

Lemma rest_clash k d m : k_fds k = [] -> ~ clash k d m.
Proof. intros H (g & q & d' & A & _). rewrite H in A. discriminate A. Qed.

Lemma set_done F p m1 m2 c o k0 k : sane k0 -> all_consistent k0 -> chain_built c -> storable c -> ends F p (chain_set m1 m2 c o) k0 (Ok tt) k ->
  exists i hd, ent_find (nc_name c) (k_ents k) = Some i /\ holds_chain k i c hd /\ as_asked F (nc_chain c) o hd.
Proof.
  intros S0 CONS CB CS EN.
  pose proof (wps_ends _ _ _ _ _ _ _ _ EN (chain_set_ok F p (fun _ => True) m1 m2 c o k0 S0 (CONS (nc_name c)) CB CS (fun _ _ _ => Logic.I) (fun _ _ _ => Logic.I) (fun _ _ _ _ _ _ _ _ _ _ => Logic.I) (fun _ _ _ _ _ _ => Logic.I) (fun _ _ _ _ _ _ => Logic.I))) as H.
  cbn beta iota in H. destruct H as (kb & _ & _ & (i & D & hd & E1 & _ & EV & HC & AS) & _). exists i, hd. split; [|auto].
  rewrite (ev_ents _ _ _ _ _ _ _ EV). cbn [ent_find]. rewrite (proj2 (bytes_eqb_eq _ _) eq_refl). reflexivity.
Qed.
Lemma load_done F p mm c k0 k : sane k0 -> chain_built c -> storable c -> ends F p (chain_load mm c) k0 (Ok tt) k ->
  exists i hd, ent_find (nc_name c) (k_ents k) = Some i /\ holds_chain k i c hd /\ hd_link hd = None /\ tidy k i.
Proof.
  intros S0 CB CS EN. pose proof (wps_ends _ _ _ _ _ _ _ _ EN (chain_load_ok F p (fun _ => True) mm c k0 S0 CB CS (fun _ _ _ => Logic.I) (fun _ _ _ => Logic.I) (fun _ _ _ => Logic.I))) as H.
  cbn beta iota in H. destruct H as ((i & D & hd & E1 & _ & EV & HC & AS) & TD). exists i, hd.
  assert (X : ent_find (nc_name c) (k_ents k) = Some i). { rewrite (ev_ents _ _ _ _ _ _ _ EV). cbn [ent_find]. rewrite (proj2 (bytes_eqb_eq _ _) eq_refl). reflexivity. }
  split; [exact X|]. split; [exact HC|]. split; [exact AS|exact (TD i X)].
Qed.
Lemma attach_done F p mm n o k0 k : sane k0 -> all_consistent k0 -> ends F p (chain_attach mm n o) k0 (Ok tt) k ->
  exists i c hd, ent_find n (k_ents k0) = Some i /\ ent_find n (k_ents k) = Some i /\ (exists hd0, holds_chain k0 i c hd0 /\ hd_link hd0 = None) /\
    holds_chain k i c hd /\ hd_link hd = Some (c_hook (nc_chain c), o) /\ validate o (c_hook (nc_chain c)) = Ok tt /\ (tidy k0 i -> tidy k i).
Proof.
  intros S0 CONS EN. pose proof (wps_ends _ _ _ _ _ _ _ _ EN (chain_attach_ok F p (fun _ => True) mm n o k0 S0 (CONS n) (fun _ _ _ => Logic.I) (fun _ _ _ => Logic.I) (fun _ _ _ _ _ _ _ _ _ _ _ => Logic.I) (fun _ _ _ _ _ _ _ _ _ _ => Logic.I))) as H.
  cbn beta iota in H. destruct H as (i & c & hd0 & EI & HC & _ & _ & HL & VA & (D & hd & EV & _ & HC' & HL') & TD).
  exists i, c, hd. split; [exact EI|]. split; [rewrite (ev_ents _ _ _ _ _ _ _ EV); exact EI|]. split; [eauto|]. auto.
Qed.

Lemma flush_done F p mm n k0 k : sane k0 -> all_consistent k0 -> ends F p (chain_flush mm n) k0 (Ok tt) k ->
  exists i c hd, ent_find n (k_ents k0) = Some i /\ holds_chain k0 i c hd /\ (forall q, q = P_ctx \/ In q (pin_names hd) -> pin k i q = None) /\
    (forall o, hd_link hd <> None -> pin k0 i P_link = Some o -> detached k o) /\
    (forall o, hd_link hd <> None -> pin k0 i P_link_extra = Some o -> detached k o \/ faulty F) /\
    (tidy k0 i -> ent_find n (k_ents k) = None) /\ forall f, fd_find f (k_fds k) = fd_find f (k_fds k0).
Proof.
  intros S0 CONS EN. pose proof (wps_ends _ _ _ _ _ _ _ _ EN (chain_flush_ok F p (fun _ => True) mm n k0 S0 (CONS n) (fun _ _ _ => Logic.I) (fun _ _ _ => Logic.I) (fun _ _ _ _ _ _ _ _ _ _ => Logic.I))) as H.
  cbn beta iota in H. destruct H as (i & c & hd & EI & HC & [(D & M & EV & DC & UN & KEEP & TR) FL FX]).
  exists i, c, hd. split; [exact EI|]. split; [exact HC|].
  assert (VW : forall q, pin k i q = D q) by (intros q; apply (ev_view _ _ _ _ _ _ _ EV i D eq_refl)).
  split; [intros q [->|H]; rewrite VW; auto|]. split; [exact FL|]. split; [exact FX|]. split; [|intros f; exact (none_new _ _ _ _ _ _ f S0 EV)].
  intros (x & t & hd' & T1 & T2 & T3). destruct HC as ((x' & t' & P1 & P2 & _) & _). assert (x' = x) by congruence. subst x'. rewrite T2 in P2. injection P2 as <- <-.
  assert (DZ : forall q, D q = None).
  { intros q. destruct (pname_dec q P_ctx) as [->|Q1]; [exact DC|]. destruct (in_dec pname_dec q (pin_names hd')) as [X|X]; [apply UN, X|]. rewrite KEEP by assumption.
    destruct (dview k0 i q) as [y|] eqn:Y; [|reflexivity]. exfalso. destruct (T3 q) as [Z|Z]; [unfold pin; unfold dview in Y; congruence|contradiction|contradiction]. }
  destruct TR as [(TR & _)|(_ & q & Q)]; [|exfalso; exact (Q (DZ q))]. rewrite TR, ent_find_del, (proj2 (bytes_eqb_eq n n) eq_refl). reflexivity.
Qed.
