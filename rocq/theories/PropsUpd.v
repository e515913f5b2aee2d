(** C29-C31, C55, C56: updates of chains and of their sets. *)
From Coq Require Import String NArith ZArith List Bool Lia.
From Verif Require Import Bytes Types World BpfModel GenModel ChainModel PktSpec NewSpec StrModel SetModel SetSpec MapModel PackModel PackSpec PackFacts4 HookModel KernModel LockModel CtlModel SysSpec SysFacts RelyFacts SeqFacts StageFacts EvoFacts CtlSpec HistSpec HistFacts CtlFacts CountFacts UpdSpec UpdFacts UpdOpFacts UpdSetFacts HistInv UpdSum IsolFacts LockSeqFacts LoadFacts PropsPack PropsConc PropsCtl.
Import ListNotations.
Local Open Scope N_scope.

(** ** Things to try it on *)
Lemma holds_given k n i c o t hd : history no_update k -> ent_find n (k_ents k) = Some i ->
  pin k i P_ctx = Some o -> k_objs k o = Some (O_ctx (Some (t, hd))) -> chain_pack c = Ok t -> chain_built c -> storable c ->
  (exists nd tb c', chain_copy nd tb c = Ok c') -> holds_chain k i c hd.
Proof.
  intros H EI P O PK B S (nd & tb & y & CC). pose proof (proj1 (history_inv _ H)) as INV. pose proof (in_cons _ INV) as CONS.
  destruct (CONS _ _ EI) as [X|(c1 & hd1 & HC & B1 & S1)]; [congruence|].
  pose proof HC as ((o1 & t1 & P1 & O1 & PK1) & CP). assert (o1 = o) by congruence. subst o1. rewrite O in O1. injection O1 as <- <-.
  assert (E : chain_copy nd tb c1 = chain_copy nd tb c) by (unfold chain_copy; rewrite PK, PK1; reflexivity).
  destruct (chain_round_trip nd tb c B S) as [(x & E1 & _ & _ & SC1)|E1]; [|congruence].
  destruct (chain_round_trip nd tb c1 B1 S1) as [(x' & E2 & _ & _ & SC2)|E2]; [|congruence].
  split; [exists o, t; auto|]. assert (nc_chain c = nc_chain c1) as -> by congruence. exact CP.
Qed.
Definition k_desc (k : kst) (i : ino) : hdesc := match pin k i P_ctx with Some o => match k_objs k o with Some (O_ctx (Some (_, hd))) => hd | _ => mkHD None false false false false [] end | None => mkHD None false false false false [] end.
Definition ex_hd2 : hdesc := k_desc ex_k2 12.
Lemma ex_h2p : history no_update (closed 1 ex_k2). Proof. apply ex_h2; [exact ex_usual|reflexivity]. Qed.
Lemma ex_held2 : holds_chain (closed 1 ex_k2) 12 ex_nchain ex_hd2.
Proof.
  destruct (chain_pack ex_nchain) as [t|] eqn:PK; [|vm_compute in PK; discriminate PK].
  apply (holds_given _ ex_edge 12 _ 40 t).
  - exact ex_h2p.
  - vm_compute. reflexivity.
  - vm_compute. reflexivity.
  - vm_compute in PK. injection PK as <-. vm_compute. reflexivity.
  - exact PK.
  - exact ex_nchain_built.
  - exact ex_nchain_storable.
  - destruct (chain_copy (fun i j => Some (10 * i + j)%nat) (fun _ => true) ex_nchain) as [c'|] eqn:E; [eauto|vm_compute in E; discriminate E].
Qed.
Lemma pins_in q l : pin_find q l <> None -> In q (map fst l).
Proof. induction l as [|[a b] l IH]; cbn [pin_find map fst In]; intros X; [destruct X; reflexivity|]. destruct (pname_eqb_spec q a) as [->|]; auto. Qed.
Lemma tidy_given k i o t hd : pin k i P_ctx = Some o -> k_objs k o = Some (O_ctx (Some (t, hd))) ->
  incl (map fst (k_dirs k i)) (P_ctx :: pin_names hd) -> tidy k i.
Proof.
  intros P O IN. exists o, t, hd. split; [exact P|]. split; [exact O|]. intros q X. apply pins_in, IN in X. destruct X as [<-|X]; auto.
Qed.
Lemma ex_tidy2 : tidy (closed 1 ex_k2) 12.
Proof.
  destruct (chain_pack ex_nchain) as [t|] eqn:PK; [|vm_compute in PK; discriminate PK].
  apply (tidy_given _ 12 40 t ex_hd2); [vm_compute; reflexivity|vm_compute in PK; injection PK as <-; vm_compute; reflexivity|].
  assert (D : pin_names ex_hd2 = [P_prog; P_link; P_link_extra; P_cmap; P_pmap; P_lmap; P_smap; P_set 0]) by (vm_compute; reflexivity).
  assert (K : map fst (k_dirs (closed 1 ex_k2) 12) = [P_ctx; P_link; P_set 0; P_smap; P_lmap; P_pmap; P_cmap; P_prog]) by (vm_compute; reflexivity).
  rewrite K, D. intros q X. cbn [In] in *. intuition (subst; auto 12).
Qed.

(** ** C29 *)

(** At every instant of bf_chain_update on an attached chain, the hook is served by the
    old or by the new program (for netfilter at one of the two priorities of the chain, in
    both families), if the failures that the function does not undo (UpdSpec's [vital]) do
    not occur.  The process does not die: what happens then is C28. *)
Theorem C29_hook_served_partial : forall F p m1 m2 c c' k k' i hd hk o, history no_update k -> spared F ->
  ent_find (nc_name c') (k_ents k) = Some i -> holds_chain k i c hd -> usual c -> usual c' -> few_sets c -> few_sets c' -> tidy k i ->
  c_hook (nc_chain c') = c_hook (nc_chain c) -> hd_link hd = Some (hk, o) ->
  stops F p (chain_update m1 m2 c') k k' -> on_duty k' hk o (nc_chain c) (nc_chain c').
Proof.
  intros F p m1 m2 c c' k k' i hd hk o H SP EI HC (B & S & _) (B' & S' & _) FEW FEW' TD HK HL ST. destruct (history_inv _ H) as [[S0 _ _ _] _].
  exact (wps_stops _ _ _ _ _ _ _ ST (chain_update_ok F p (duty hd c c') m1 m2 c' k i c hd S0 SP EI HC B S B' S' TD HK (few_names_built _ B FEW) (few_names_built _ B' FEW') (fun _ _ _ _ _ _ D => D)) hk o HL).
Qed.
Print Assumptions C29_hook_served_partial.
(** The same for bf_chain_update_set. *)
Theorem C29_hook_served_set_partial : forall F p m1 m2 m3 m4 m5 n add del c k k' i hd hk o, history no_update k -> spared F ->
  ent_find n (k_ents k) = Some i -> holds_chain k i c hd -> usual c -> few_sets c -> sets_storable [add; del] -> tidy k i -> hd_link hd = Some (hk, o) ->
  stops F p (chain_update_set m1 m2 m3 m4 m5 n add del) k k' ->
  on_duty k' hk o (nc_chain c) (nc_chain c) \/ exists c', edited c c' add del /\ on_duty k' hk o (nc_chain c) (nc_chain c').
Proof.
  intros F p m1 m2 m3 m4 m5 n add del c k k' i hd hk o H SP EI HC (B & S & _) FEW SS TD HL ST. destruct (history_inv _ H) as [[S0 _ _ _] _].
  refine (wps_stops _ _ _ _ _ _ _ ST (chain_update_set_ok F p (fun k' => on_duty k' hk o (nc_chain c) (nc_chain c) \/ exists c', edited c c' add del /\ on_duty k' hk o (nc_chain c) (nc_chain c'))
     m1 m2 m3 m4 m5 n add del k i c hd S0 SP EI HC B S SS TD FEW _)).
  intros X M Z k1 _ _ [D|(c' & E & D)]; [left; exact (D c hk o HL)|right; exists c'; split; [exact E|exact (D hk o HL)]].
Qed.
Print Assumptions C29_hook_served_set_partial.
(** When it returns: the new program is attached, with the old hook and options (for
    netfilter with the two priorities exchanged); or, if it failed, nothing changed. *)
Theorem C29_outcome_partial : forall F p m1 m2 c c' k r k' i hd, history no_update k -> spared F ->
  ent_find (nc_name c') (k_ents k) = Some i -> holds_chain k i c hd -> usual c -> usual c' -> few_sets c -> few_sets c' -> tidy k i ->
  c_hook (nc_chain c') = c_hook (nc_chain c) -> ends F p (chain_update m1 m2 c') k r k' ->
  match r with
  | Ok _ => ent_find (nc_name c') (k_ents k') = Some i /\ tidy k' i /\ exists hd', holds_chain k' i c' hd' /\
      hd_link hd' = match hd_link hd with Some (hk, o) => Some (hk, if is_nf hk then other_opts o else o) | None => None end
  | Er e => unchanged k k'
  end.
Proof.
  intros F p m1 m2 c c' k r k' i hd H SP EI HC (B & S & _) (B' & S' & _) FEW FEW' TD HK EN. destruct (history_inv _ H) as [[S0 _ _ _] _].
  pose proof (wps_ends _ _ _ _ _ _ _ _ EN (chain_update_ok F p (fun _ => True) m1 m2 c' k i c hd S0 SP EI HC B S B' S' TD HK (few_names_built _ B FEW) (few_names_built _ B' FEW') (fun _ _ _ _ _ _ _ => Logic.I))) as U.
  destruct r as [u|e].
  - destruct (up_evo _ _ _ _ _ _ _ _ U) as (D & M & EV). destruct (up_holds _ _ _ _ _ _ _ _ U) as (hd' & HC' & HL').
    split; [rewrite (ev_ents _ _ _ _ _ _ _ EV); exact EI|]. split; [exact (up_tidy _ _ _ _ _ _ _ _ U)|]. exists hd'. split; [exact HC'|].
    rewrite HL'. unfold new_opts. destruct (hd_link hd) as [[hk o]|]; [|reflexivity]. rewrite <- other_swap. unfold is_nf. destruct (hook_flavor hk); reflexivity.
  - eapply same_unchanged; [exact S0|exact (sane_ent _ S0 _ _ EI)|apply U].
Qed.
Print Assumptions C29_outcome_partial.

(** The property is false: the new program is already switched to and the old pins are
    gone when the new ones are made.  If pinning the link fails, the call fails, and the
    link goes away with the last descriptor: the hook is left without a program. *)
Definition ex_nopin (c : call) : bool := match c with C_pin _ P_link _ => true | _ => false end.
Definition ex_unhooked : kst := snd (spoil ex_nopin EPERM 1 (chain_update ex_mem ex_mem ex_nchain2) (closed 1 ex_k2)).
Lemma ex_dirs1 j : j <> 12 -> k_dirs ex_k1 j = [].
Proof.
  intros NE. pose proof (in_sane _ (inv_boot _ ex_boot)) as S0.
  assert (L : ends no_fault 1 (chain_load ex_mem ex_nchain) ex_k0 (Ok tt) ex_k1).
  { assert (Y : fst (solo 1 (chain_load ex_mem ex_nchain) ex_k0) = Ok tt) by (vm_compute; reflexivity). rewrite <- Y. unfold ex_k1. apply solo_ends. }
  pose proof (wps_ends _ _ _ _ _ _ _ _ L (chain_load_ok no_fault 1 (fun _ => True) ex_mem ex_nchain ex_k0 S0 ex_nchain_built ex_nchain_storable (fun _ _ _ => Logic.I) (fun _ _ _ => Logic.I) (fun _ _ _ => Logic.I))) as ((i & D & hd & _ & _ & EV & _) & _).
  assert (i = 12). { pose proof (ev_ents _ _ _ _ _ _ _ EV) as X. vm_compute in X. injection X as <-. reflexivity. } subst i.
  assert (NX : forall D', Some (12, D) <> Some (j, D')) by (intros D' X; injection X as X _; congruence).
  destruct (N.lt_ge_cases j (k_next ex_k0)) as [Z|Z]; [rewrite (ev_dirs _ _ _ _ _ _ _ EV j Z NX); apply ex_boot|exact (ev_fresh _ _ _ _ _ _ _ EV j Z NX)].
Qed.
Lemma closed_dirs p k j : k_dirs (closed p k) j = k_dirs k j. Proof. reflexivity. Qed.
Lemma ex_dirs2 j : j <> 12 -> k_dirs ex_k2 j = [].
Proof.
  intros NE. destruct (history_inv _ (ex_h1 no_update ex_usual)) as [[S0 _ _ _] FD].
  assert (C : confined (closed 1 ex_k1) ex_edge ex_k2).
  { eapply only_confined; [exact S0|apply none_no_fds; exact FD|apply on_chain_attach|unfold ex_k2; apply (run_stops no_fault)]. }
  rewrite (cf_dirs _ _ _ C); [rewrite closed_dirs; exact (ex_dirs1 j NE)|]. intros X. assert (Y : ent_find ex_edge (k_ents (closed 1 ex_k1)) = Some 12) by (vm_compute; reflexivity). congruence.
Qed.
Lemma ex_dirs_upd {A} F (m : prog A) k' : allc (only ex_edge) m -> stops F 1 m (closed 1 ex_k2) k' -> forall j, j <> 12 -> k_dirs k' j = [].
Proof.
  intros AL ST j NE. destruct (history_inv _ ex_h2p) as [[S0 _ _ _] FD].
  assert (C : confined (closed 1 ex_k2) ex_edge k') by (eapply only_confined; [exact S0|apply none_no_fds; exact FD|exact AL|exact ST]).
  rewrite (cf_dirs _ _ _ C); [rewrite closed_dirs; exact (ex_dirs2 j NE)|]. intros X. assert (Y : ent_find ex_edge (k_ents (closed 1 ex_k2)) = Some 12) by (vm_compute; reflexivity). congruence.
Qed.
Lemma ex_unhooked_stops : stops ex_nopin 1 (chain_update ex_mem ex_mem ex_nchain2) (closed 1 ex_k2) ex_unhooked.
Proof. eapply ends_stops. unfold ex_unhooked. apply spoil_ends. Qed.
Lemma ex_only : allc (only ex_edge) (chain_update ex_mem ex_mem ex_nchain2).
Proof. apply on_chain_update; vm_compute; reflexivity. Qed.
Lemma ex_dirs_un i : i <> 12 -> k_dirs ex_unhooked i = [].
Proof. exact (ex_dirs_upd ex_nopin (chain_update ex_mem ex_mem ex_nchain2) ex_unhooked ex_only ex_unhooked_stops i). Qed.
Lemma ex_dirs_12 : k_dirs ex_unhooked 12 = [(P_ctx, 40)]. Proof. vm_compute. reflexivity. Qed.
Lemma ex_fds_un : k_fds ex_unhooked = []. Proof. vm_compute. reflexivity. Qed.
Lemma ex_objs_un : match k_objs ex_unhooked 40 with Some (O_link _ _ _ _) => False | _ => True end. Proof. vm_compute. exact Logic.I. Qed.
Lemma ex_nothing_runs hk t img : ~ runs_at ex_unhooked hk t img.
Proof.
  intros (lo & po & ss & cm & U & L & _). pose proof ex_objs_un as Z. pose proof ex_dirs_12 as D1. pose proof ex_dirs_un as D2. pose proof ex_fds_un as FD.
  revert U L Z D1 D2 FD. generalize ex_unhooked. intros k U L Z D1 D2 FD. destruct U as [(i & q & P)|(f & x & X)].
  - unfold pin in P. destruct (N.eq_dec i 12) as [->|NE].
    + rewrite D1 in P. assert (lo = 40) by (cbn [pin_find] in P; destruct (pname_eqb q P_ctx); congruence). subst lo. rewrite L in Z. exact Z.
    + rewrite (D2 i NE) in P. discriminate P.
  - rewrite FD in X. discriminate X.
Qed.
Theorem C29_pin_refuted : ~ (forall F p m1 m2 c c' k k' i hd hk o, history no_update k ->
  ent_find (nc_name c') (k_ents k) = Some i -> holds_chain k i c hd -> usual c -> usual c' -> few_sets c -> few_sets c' -> tidy k i ->
  c_hook (nc_chain c') = c_hook (nc_chain c) -> hd_link hd = Some (hk, o) ->
  stops F p (chain_update m1 m2 c') k k' -> on_duty k' hk o (nc_chain c) (nc_chain c')).
Proof.
  intros H.
  assert (D : on_duty ex_unhooked H_XDP ex_opts (nc_chain ex_nchain) (nc_chain ex_nchain2)).
  { apply (H ex_nopin 1 ex_mem ex_mem ex_nchain ex_nchain2 (closed 1 ex_k2) ex_unhooked 12 ex_hd2).
    - exact ex_h2p.
    - vm_compute. reflexivity.
    - exact ex_held2.
    - exact ex_usual.
    - exact ex_nchain2_usual.
    - vm_compute. discriminate.
    - vm_compute. discriminate.
    - exact ex_tidy2.
    - vm_compute. reflexivity.
    - vm_compute. reflexivity.
    - exact ex_unhooked_stops. }
  destruct (D 2 (or_introl eq_refl)) as (t & img & _ & _ & R). exact (ex_nothing_runs _ _ _ R).
Qed.
Print Assumptions C29_pin_refuted.
Definition ex_k4 : kst := snd (solo 1 (chain_update ex_mem ex_mem ex_nchain2) (closed 1 ex_k2)).
Example C29_example : history no_update (closed 1 ex_k2) /\ holds_chain (closed 1 ex_k2) 12 ex_nchain ex_hd2 /\ tidy (closed 1 ex_k2) 12 /\
  usual ex_nchain /\ usual ex_nchain2 /\ hd_link ex_hd2 = Some (H_XDP, ex_opts) /\
  ends no_fault 1 (chain_update ex_mem ex_mem ex_nchain2) (closed 1 ex_k2) (Ok tt) ex_k4 /\ k_objs ex_k4 38 = Some (O_link H_XDP (T_if 5) 63 false) /\
  gen_program (nc_chain ex_nchain) <> gen_program (nc_chain ex_nchain2).
Proof.
  split; [exact ex_h2p|]. split; [exact ex_held2|]. split; [exact ex_tidy2|]. split; [exact ex_usual|]. split; [exact ex_nchain2_usual|].
  split; [vm_compute; reflexivity|]. split; [|split; [vm_compute; reflexivity|intros X; vm_compute in X; discriminate X]].
  assert (X : fst (solo 1 (chain_update ex_mem ex_mem ex_nchain2) (closed 1 ex_k2)) = Ok tt) by (vm_compute; reflexivity). rewrite <- X. unfold ex_k4. apply solo_ends.
Qed.

(** ** C56: an update works *)
Theorem C56_update_succeeds : forall p m1 m2 c c' k i hd, history no_update k -> at_rest k ->
  ent_find (nc_name c') (k_ents k) = Some i -> holds_chain k i c hd -> loadable c -> loadable c' -> few_sets c -> few_sets c' -> tidy k i ->
  c_hook (nc_chain c') = c_hook (nc_chain c) -> plenty m1 -> plenty m2 -> fst (solo p (chain_update m1 m2 c') k) = Ok tt.
Proof.
  intros p m1 m2 c c' k i hd H (FD & _) EI HC ((B & S & _) & _ & _ & SZ) L' FEW FEW' TD HK P1 P2. destruct (history_inv _ H) as [[S0 _ _ _] _].
  exact (update_works p m1 m2 c' k i c hd S0 FD EI HC B S FEW TD L' FEW' HK P1 P2 SZ).
Qed.
Print Assumptions C56_update_succeeds.

(** ** C30 *)

(** If bf_chain_update_set succeeds, the directory holds the chain with the edited set:
    its elements are (S + A) - R, and everything else is as it was; the pinned program is
    the one generated for that chain, its set maps have the new elements, and if the chain
    was attached, so it is.  If the edit leaves the same sets empty, the chain is the one
    that bf_chain_new makes of the new sets; in particular the right rules are disabled. *)
Theorem C30_set_updated_partial : forall F p m1 m2 m3 m4 m5 n add del c k k' i hd, history no_update k -> spared F ->
  ent_find n (k_ents k) = Some i -> holds_chain k i c hd -> usual c -> few_sets c -> sets_storable [add; del] -> tidy k i ->
  ends F p (chain_update_set m1 m2 m3 m4 m5 n add del) k (Ok tt) k' ->
  ent_find n (k_ents k') = Some i /\ tidy k' i /\ exists c' hd', edited c c' add del /\ holds_chain k' i c' hd' /\
    hd_link hd' = match hd_link hd with Some (hk, o) => Some (hk, if is_nf hk then other_opts o else o) | None => None end /\
    (same_empties c c' -> chain_built c' /\ up_to_date c').
Proof.
  intros F p m1 m2 m3 m4 m5 n add del c k k' i hd H SP EI HC (B & S & _) FEW SS TD EN. destruct (history_inv _ H) as [[S0 _ _ _] _].
  pose proof (wps_ends _ _ _ _ _ _ _ _ EN (chain_update_set_ok F p (fun _ => True) m1 m2 m3 m4 m5 n add del k i c hd S0 SP EI HC B S SS TD FEW (fun _ _ _ _ _ _ _ => Logic.I))) as (c' & ED & _ & CB & U).
  destruct (up_evo _ _ _ _ _ _ _ _ U) as (D & M & EV). destruct (up_holds _ _ _ _ _ _ _ _ U) as (hd' & HC' & HL').
  split; [rewrite (ev_ents _ _ _ _ _ _ _ EV); exact EI|]. split; [exact (up_tidy _ _ _ _ _ _ _ _ U)|]. exists c', hd'. split; [exact ED|]. split; [exact HC'|]. split.
  - rewrite HL'. unfold new_opts. destruct (hd_link hd) as [[hk o]|]; [|reflexivity]. rewrite <- other_swap. unfold is_nf. destruct (hook_flavor hk); reflexivity.
  - intros SE. split; [exact (CB SE)|exact (built_up_to_date _ (CB SE))].
Qed.
Print Assumptions C30_set_updated_partial.
Theorem C30_failed_partial : forall F p m1 m2 m3 m4 m5 n add del c k e k' i hd, history no_update k -> spared F ->
  ent_find n (k_ents k) = Some i -> holds_chain k i c hd -> usual c -> few_sets c -> sets_storable [add; del] -> tidy k i ->
  ends F p (chain_update_set m1 m2 m3 m4 m5 n add del) k (Er e) k' -> unchanged k k'.
Proof.
  intros F p m1 m2 m3 m4 m5 n add del c k e k' i hd H SP EI HC (B & S & _) FEW SS TD EN. destruct (history_inv _ H) as [[S0 _ _ _] _].
  pose proof (wps_ends _ _ _ _ _ _ _ _ EN (chain_update_set_ok F p (fun _ => True) m1 m2 m3 m4 m5 n add del k i c hd S0 SP EI HC B S SS TD FEW (fun _ _ _ _ _ _ _ => Logic.I))) as U.
  eapply same_unchanged; [exact S0|exact (sane_ent _ S0 _ _ EI)|exact U].
Qed.
Print Assumptions C30_failed_partial.

(** The property is false when an empty set gets its first element: the rule that uses it
    stays disabled, although the call succeeds. *)
Definition ex_blank (nm : string) : uset := match set_new (Some (lit nm)) [M_IP4_SADDR] with Ok u => u | Er _ => mkU None [] 0 false (HashModel.hash_init (fun _ => None)) end.
Definition ex_irules : list rule := [mkR 0 [mkM M_SET OP_IN false [0; 0; 0; 0]] 0 0 0 true false V_DROP 0 D_INGRESS].
Definition ex_ichain : nchain :=
  match nchain_new (lit "edge") 0 0 [ex_blank "blk"] ex_irules with Ok c => c | Er _ => mkNC [] [] (mkC H_XDP V_ACCEPT [] [] false false false) end.
Definition ex_i1 : kst := snd (solo 1 (chain_load ex_mem ex_ichain) ex_k0).
Definition ex_i2 : kst := snd (solo 1 (chain_update_set ex_mem ex_mem ex_mem ex_mem ex_mem ex_edge ex_set (ex_blank "blk")) (closed 1 ex_i1)).
Lemma ex_blank_reachable : set_reachable (ex_blank "blk").
Proof.
  destruct (set_new (Some (lit "blk")) [M_IP4_SADDR]) as [u|] eqn:E0; [|vm_compute in E0; discriminate E0].
  assert (ex_blank "blk" = u) as ->. { unfold ex_blank. now rewrite E0. } eapply SR_new; exact E0.
Qed.
Lemma ex_ichain_usual : usual ex_ichain.
Proof.
  split; [|split; [|vm_compute; reflexivity]].
  - destruct (nchain_new (lit "edge") 0 0 [ex_blank "blk"] ex_irules) as [c|] eqn:E; [|vm_compute in E; discriminate E].
    assert (ex_ichain = c) as ->. { unfold ex_ichain. now rewrite E. } eapply CB_new. exact E.
  - constructor.
    + vm_compute. intuition discriminate.
    + assert (nc_sets ex_ichain = [ex_blank "blk"]) as -> by (vm_compute; reflexivity).
      constructor; [split; [exact ex_blank_reachable|vm_compute; intuition discriminate]|constructor].
    + apply Forall_forall. intros r Hr. vm_compute in Hr. destruct Hr as [<-|[]]; unfold rule_in_range;
      (split; [vm_compute; reflexivity|split; [vm_compute; reflexivity|split; [vm_compute; reflexivity|split; [vm_compute; reflexivity|]]]]); repeat constructor; discriminate.
    + vm_compute. reflexivity.
Qed.
Lemma ex_ih : history no_update (closed 1 ex_i1).
Proof.
  eapply Hi_call with (p := 1) (a := A_chain_load ex_mem ex_ichain); [apply Hi_boot, ex_boot|exact ex_ichain_usual|].
  unfold run_api, ex_i1. apply forget_stops. apply run_stops.
Qed.
Lemma ex_ends_i1 : ends no_fault 1 (chain_load ex_mem ex_ichain) ex_k0 (Ok tt) ex_i1.
Proof. assert (Y : fst (solo 1 (chain_load ex_mem ex_ichain) ex_k0) = Ok tt) by (vm_compute; reflexivity). rewrite <- Y. unfold ex_i1. apply solo_ends. Qed.
Lemma ex_ends_i2 : ends no_fault 1 (chain_update_set ex_mem ex_mem ex_mem ex_mem ex_mem ex_edge ex_set (ex_blank "blk")) (closed 1 ex_i1) (Ok tt) ex_i2.
Proof.
  assert (Y : fst (solo 1 (chain_update_set ex_mem ex_mem ex_mem ex_mem ex_mem ex_edge ex_set (ex_blank "blk")) (closed 1 ex_i1)) = Ok tt) by (vm_compute; reflexivity).
  rewrite <- Y. unfold ex_i2. apply solo_ends.
Qed.
Lemma ex_two_sets : sets_storable [ex_set; ex_blank "blk"].
Proof. constructor; [split; [exact ex_set_reachable|vm_compute; intuition discriminate]|]. constructor; [split; [exact ex_blank_reachable|vm_compute; intuition discriminate]|constructor]. Qed.
Lemma tidy_closed p k i : tidy k i -> tidy (closed p k) i. Proof. exact (fun H => H). Qed.
Theorem C30_empty_set_refuted : ~ (forall F p m1 m2 m3 m4 m5 n add del c k k' i hd, history no_update k -> spared F ->
  ent_find n (k_ents k) = Some i -> holds_chain k i c hd -> usual c -> few_sets c -> sets_storable [add; del] -> tidy k i ->
  ends F p (chain_update_set m1 m2 m3 m4 m5 n add del) k (Ok tt) k' ->
  exists c' hd', edited c c' add del /\ holds_chain k' i c' hd' /\ up_to_date c').
Proof.
  intros H. destruct (load_done _ _ _ _ _ _ (in_sane _ (inv_boot _ ex_boot)) (proj1 ex_ichain_usual) (proj1 (proj2 ex_ichain_usual)) ex_ends_i1) as (i & hd & EI & HC & _ & TD).
  assert (E12 : ent_find (nc_name ex_ichain) (k_ents ex_i1) = Some 12) by (vm_compute; reflexivity). assert (i = 12) by congruence. subst i.
  assert (E13 : ent_find ex_edge (k_ents (closed 1 ex_i1)) = Some 12) by (vm_compute; reflexivity).
  destruct (H no_fault 1 ex_mem ex_mem ex_mem ex_mem ex_mem ex_edge ex_set (ex_blank "blk") ex_ichain (closed 1 ex_i1) ex_i2 12 hd) as (c' & hd' & ED & _ & UP).
  - exact ex_ih.
  - exact spared_none.
  - exact E13.
  - apply holds_closed. exact HC.
  - exact ex_ichain_usual.
  - vm_compute. discriminate.
  - exact ex_two_sets.
  - apply tidy_closed. exact TD.
  - exact ex_ends_i2.
  - clear H EI E12 E13 HC TD. assert (RS : c_rules (nc_chain ex_ichain) = [mkR 0 [mkM M_SET OP_IN false [0; 0; 0; 0]] 0 0 0 true true V_DROP 0 D_INGRESS]) by (vm_compute; reflexivity).
    unfold up_to_date in UP. rewrite (ed_rules _ _ _ _ ED), RS in UP. specialize (UP _ (or_introl eq_refl)). cbn [r_disabled] in UP. apply proj1 in UP. specialize (UP eq_refl).
    assert (NS : nc_sets ex_ichain = [ex_blank "blk"]) by (vm_compute; reflexivity).
    destruct (ed_set _ _ _ _ ED) as (j & u & u' & s & a & d & U1 & U2 & _ & _ & _ & _ & _ & UK & R1 & R2 & R3 & R4).
    rewrite NS in U1. destruct j as [|[|j]]; [|discriminate U1|discriminate U1]. injection U1 as <-.
    assert (KK : u_key u' = [M_IP4_SADDR]) by (rewrite UK; vm_compute; reflexivity).
    assert (AA : a = [[10; 0; 0; 1]; [9; 9; 9; 9]]) by (vm_compute in R2; injection R2 as <-; reflexivity).
    assert (SS : s = []) by (vm_compute in R1; injection R1 as <-; reflexivity). assert (DD : d = []) by (vm_compute in R3; injection R3 as <-; reflexivity). subst.
    pose proof (ed_len _ _ _ _ ED) as LN. rewrite NS in LN. destruct (nc_sets c') as [|x [|y l]] eqn:SX; [discriminate LN| |discriminate LN]. injection U2 as ->.
    pose proof (ed_view _ _ _ _ ED) as V. rewrite SX in V. cbn [map_res bind] in V. unfold bset_of in V. rewrite R4 in V. cbn [bind] in V. injection V as V.
    rewrite <- V in UP. clear -UP KK. destruct UP as [(m & b & [<-|[]] & _ & S & E)|(t & t' & (m & [<-|[]] & T) & (m' & [<-|[]] & T') & _ & _ & NE)].
    + vm_compute in S. injection S as <-. cbn [s_elems] in E. discriminate E.
    + assert (T2 : In t (u_key u')) by exact T. assert (T2' : In t' (u_key u')) by exact T'.
      rewrite KK in T2, T2'. destruct T2 as [<-|[]], T2' as [<-|[]]. apply NE. reflexivity.
Qed.
Print Assumptions C30_empty_set_refuted.

(** The attached chain: 11.0.0.1 goes in, 9.9.9.9 goes out. *)
Definition ex_mem5 : mem := mkMem (fun i j => Some (1000 + 10 * i + j)%nat) (fun _ => true).
Definition ex_adds : uset := match set_add_elem true (Some 1%nat) (fun _ => true) (ex_blank "blk") [11; 0; 0; 1] with Ok (u, _) => u | Er _ => ex_blank "blk" end.
Definition ex_dels : uset := match set_add_elem true (Some 1%nat) (fun _ => true) (ex_blank "blk") [9; 9; 9; 9] with Ok (u, _) => u | Er _ => ex_blank "blk" end.
Definition ex_k5 : kst := snd (solo 1 (chain_update_set ex_mem ex_mem ex_mem ex_mem ex_mem5 ex_edge ex_adds ex_dels) (closed 1 ex_k2)).
Lemma ex_ends5 : ends no_fault 1 (chain_update_set ex_mem ex_mem ex_mem ex_mem ex_mem5 ex_edge ex_adds ex_dels) (closed 1 ex_k2) (Ok tt) ex_k5.
Proof.
  assert (Y : fst (solo 1 (chain_update_set ex_mem ex_mem ex_mem ex_mem ex_mem5 ex_edge ex_adds ex_dels) (closed 1 ex_k2)) = Ok tt) by (vm_compute; reflexivity).
  rewrite <- Y. unfold ex_k5. apply solo_ends.
Qed.
Lemma ex_edit_sets : sets_storable [ex_adds; ex_dels].
Proof.
  destruct (set_add_elem true (Some 1%nat) (fun _ => true) (ex_blank "blk") [11; 0; 0; 1]) as [[u r]|] eqn:E; [|vm_compute in E; discriminate E].
  destruct (set_add_elem true (Some 1%nat) (fun _ => true) (ex_blank "blk") [9; 9; 9; 9]) as [[u2 r2]|] eqn:E2; [|vm_compute in E2; discriminate E2].
  constructor; [|constructor; [|constructor]].
  - split; [|vm_compute; intuition discriminate]. unfold ex_adds. rewrite E. eapply SR_add; [exact ex_blank_reachable|exact E].
  - split; [|vm_compute; intuition discriminate]. unfold ex_dels. rewrite E2. eapply SR_add; [exact ex_blank_reachable|exact E2].
Qed.
Example C30_example : history no_update (closed 1 ex_k2) /\ holds_chain (closed 1 ex_k2) 12 ex_nchain ex_hd2 /\ tidy (closed 1 ex_k2) 12 /\
  usual ex_nchain /\ sets_storable [ex_adds; ex_dels] /\
  ends no_fault 1 (chain_update_set ex_mem ex_mem ex_mem ex_mem ex_mem5 ex_edge ex_adds ex_dels) (closed 1 ex_k2) (Ok tt) ex_k5 /\
  match fst (solo 2 (chain_get ex_mem ex_edge) (closed 1 ex_k5)) with
  | Ok (c, _, o) => map set_read (nc_sets c) = [Ok [[10; 0; 0; 1]; [11; 0; 0; 1]]; Ok []] /\ o = Some ex_opts
  | Er _ => False
  end.
Proof.
  split; [exact ex_h2p|]. split; [exact ex_held2|]. split; [exact ex_tidy2|]. split; [exact ex_usual|]. split; [exact ex_edit_sets|]. split; [exact ex_ends5|].
  vm_compute. split; reflexivity.
Qed.

(** ** C31 *)

(** A set update keeps the counters: every rule's, the policy's and the errors'. *)
Theorem C31_set_update_keeps_partial : forall F p m1 m2 m3 m4 m5 n add del c k k' i hd, history no_update k -> spared F ->
  ent_find n (k_ents k) = Some i -> holds_chain k i c hd -> usual c -> few_sets c -> sets_storable [add; del] -> tidy k i ->
  ends F p (chain_update_set m1 m2 m3 m4 m5 n add del) k (Ok tt) k' ->
  exists v w, counts_at k i (n_rules (nc_chain c)) v /\ counts_at k' i (n_rules (nc_chain c)) w /\
    forall j, j < n_rules (nc_chain c) + 2 -> total (w j) = total (v j).
Proof.
  intros F p m1 m2 m3 m4 m5 n add del c k k' i hd H SP EI HC (B & S & _) FEW SS TD EN. destruct (history_inv _ H) as [[S0 _ _ _] _].
  pose proof (wps_ends _ _ _ _ _ _ _ _ EN (chain_update_set_ok F p (fun _ => True) m1 m2 m3 m4 m5 n add del k i c hd S0 SP EI HC B S SS TD FEW (fun _ _ _ _ _ _ _ => Logic.I))) as (c' & ED & _ & CB & U).
  destruct (up_counts _ _ _ _ _ _ _ _ U) as (w & W & v & V & NR & T). exists v, w. rewrite NR in W. auto.
Qed.
Print Assumptions C31_set_update_keeps_partial.
(** A plain update zeroes them. *)
Theorem C31_update_zeroes_partial : forall F p m1 m2 c c' k k' i hd, history no_update k -> spared F ->
  ent_find (nc_name c') (k_ents k) = Some i -> holds_chain k i c hd -> usual c -> usual c' -> few_sets c -> few_sets c' -> tidy k i ->
  c_hook (nc_chain c') = c_hook (nc_chain c) -> ends F p (chain_update m1 m2 c') k (Ok tt) k' ->
  exists w, counts_at k' i (n_rules (nc_chain c')) w /\ forall j, total (w j) = (0, 0).
Proof.
  intros F p m1 m2 c c' k k' i hd H SP EI HC (B & S & _) (B' & S' & _) FEW FEW' TD HK EN. destruct (history_inv _ H) as [[S0 _ _ _] _].
  pose proof (wps_ends _ _ _ _ _ _ _ _ EN (chain_update_ok F p (fun _ => True) m1 m2 c' k i c hd S0 SP EI HC B S B' S' TD HK (few_names_built _ B FEW) (few_names_built _ B' FEW') (fun _ _ _ _ _ _ _ => Logic.I))) as U.
  destruct (up_counts _ _ _ _ _ _ _ _ U) as (w & W & Z). exists w. split; [exact W|]. intros j. rewrite Z. apply total_zeros.
Qed.
Print Assumptions C31_update_zeroes_partial.
Definition ex_reading (k : kst) : option counters := match fst (solo 2 (chain_get ex_mem ex_edge) k) with Ok (_, cs, _) => Some cs | Er _ => None end.
Example C31_example : ex_reading ex_counted = Some (mkCnts [Some (7, 800); None] (1, 60) (0, 9)) /\
  ex_reading (snd (solo 1 (chain_update_set ex_mem ex_mem ex_mem ex_mem ex_mem5 ex_edge ex_adds ex_dels) ex_counted)) = Some (mkCnts [Some (7, 800); None] (1, 60) (0, 9)) /\
  ex_reading (snd (solo 1 (chain_update ex_mem ex_mem ex_nchain2) ex_counted)) = Some (mkCnts [Some (0, 0); None] (0, 0) (0, 0)).
Proof. vm_compute. auto. Qed.

(** ** C55: a chain is attached at the hook that its definition names *)

(** If the hook of the new definition is that of the old one (C29_outcome_partial says the
    rest).  [holds_chain] says that the pinned links are at the hook of the chain. *)
Theorem C55_same_hook_partial : forall F p m1 m2 c c' k k' i hd, history no_update k -> spared F ->
  ent_find (nc_name c') (k_ents k) = Some i -> holds_chain k i c hd -> usual c -> usual c' -> few_sets c -> few_sets c' -> tidy k i ->
  c_hook (nc_chain c') = c_hook (nc_chain c) -> hd_link hd <> None -> ends F p (chain_update m1 m2 c') k (Ok tt) k' ->
  exists o t po b, pin k' i P_link = Some o /\ k_objs k' o = Some (O_link (c_hook (nc_chain c')) t po b).
Proof.
  intros F p m1 m2 c c' k k' i hd H SP EI HC U U' FEW FEW' TD HK HL EN.
  pose proof (C29_outcome_partial F p m1 m2 c c' k (Ok tt) k' i hd H SP EI HC U U' FEW FEW' TD HK EN) as (_ & _ & hd' & (_ & CP) & HL').
  destruct (cp_body _ _ _ _ CP) as (img & po & ss & cm & v & _ & _ & _ & _ & _ & _ & _ & LK).
  destruct (hd_link hd) as [[hk oo]|]; [|destruct HL; reflexivity]. rewrite HL' in LK. destruct LK as (HH & (lo & t & _ & X & Y) & _). exists lo, t, po, false. subst hk. auto.
Qed.
Print Assumptions C55_same_hook_partial.
(** bf_chain_update does not compare the hooks: the description then names one hook and
    the link is at another. *)
Definition ex_tc (h : N) : nchain := match nchain_new (lit "edge") h 1 [] [] with Ok c => c | Er _ => mkNC [] [] (mkC H_XDP V_ACCEPT [] [] false false false) end.
Definition ex_t1 : kst := snd (solo 1 (chain_load ex_mem (ex_tc 1)) ex_k0).
Definition ex_t2 : kst := snd (solo 1 (chain_attach ex_mem ex_edge ex_opts) (closed 1 ex_t1)).
Definition ex_t3 : kst := snd (solo 1 (chain_update ex_mem ex_mem (ex_tc 9)) (closed 1 ex_t2)).
Lemma ex_tc_usual h : h = 1 \/ h = 9 -> usual (ex_tc h).
Proof.
  intros D. destruct (nchain_new (lit "edge") h 1 [] []) as [c|] eqn:E; [|destruct D as [-> | ->]; vm_compute in E; discriminate E].
  assert (X : ex_tc h = c) by (unfold ex_tc; now rewrite E). split; [rewrite X; eapply CB_new; exact E|].
  assert (nc_sets (ex_tc h) = [] /\ c_rules (nc_chain (ex_tc h)) = [] /\ nc_name (ex_tc h) = lit "edge") as (Y1 & Y2 & Y3) by (destruct D as [-> | ->]; vm_compute; auto).
  split; [constructor|rewrite Y3; vm_compute; reflexivity].
  - rewrite Y3. vm_compute. intuition discriminate.
  - rewrite Y1. constructor.
  - rewrite Y2. constructor.
  - unfold n_rules. rewrite Y2. vm_compute. reflexivity.
Qed.
Lemma ex_th1 : history no_update (closed 1 ex_t1).
Proof.
  eapply Hi_call with (p := 1) (a := A_chain_load ex_mem (ex_tc 1)); [apply Hi_boot, ex_boot|exact (ex_tc_usual 1 (or_introl eq_refl))|].
  unfold run_api, ex_t1. apply forget_stops. apply run_stops.
Qed.
Lemma ex_th2 : history no_update (closed 1 ex_t2).
Proof.
  eapply Hi_call with (p := 1) (a := A_chain_attach ex_mem ex_edge ex_opts); [exact ex_th1|reflexivity|].
  unfold run_api, ex_t2. apply forget_stops. apply run_stops.
Qed.
Definition ex_thd : hdesc := k_desc ex_t2 12.
Lemma ex_tctx : exists t, chain_pack (ex_tc 1) = Ok t /\ pin (closed 1 ex_t2) 12 P_ctx = Some 31 /\ k_objs (closed 1 ex_t2) 31 = Some (O_ctx (Some (t, ex_thd))).
Proof.
  destruct (chain_pack (ex_tc 1)) as [t|] eqn:PK; [|vm_compute in PK; discriminate PK]. exists t. split; [reflexivity|].
  split; [vm_compute; reflexivity|]. vm_compute in PK. injection PK as <-. vm_compute. reflexivity.
Qed.
Lemma ex_theld : holds_chain (closed 1 ex_t2) 12 (ex_tc 1) ex_thd.
Proof.
  destruct ex_tctx as (t & PK & P & O). destruct (ex_tc_usual 1 (or_introl eq_refl)) as (B & S & _).
  apply (holds_given _ ex_edge 12 _ 31 t); [exact ex_th2|vm_compute; reflexivity|exact P|exact O|exact PK|exact B|exact S|].
  destruct (chain_copy (fun i j => Some (10 * i + j)%nat) (fun _ => true) (ex_tc 1)) as [c'|] eqn:E; [eauto|vm_compute in E; discriminate E].
Qed.
Lemma ex_ttidy : tidy (closed 1 ex_t2) 12.
Proof.
  destruct ex_tctx as (t & PK & P & O). apply (tidy_given _ 12 31 t ex_thd); [exact P|exact O|].
  assert (D : pin_names ex_thd = [P_prog; P_link; P_link_extra; P_cmap; P_pmap]) by (vm_compute; reflexivity).
  assert (K : map fst (k_dirs (closed 1 ex_t2) 12) = [P_ctx; P_link; P_pmap; P_cmap; P_prog]) by (vm_compute; reflexivity).
  rewrite K, D. intros q X. cbn [In] in *. intuition (subst; auto 12).
Qed.
Theorem C55_hook_refuted : ~ (forall F p m1 m2 c c' k k' i hd, history no_update k -> spared F ->
  ent_find (nc_name c') (k_ents k) = Some i -> holds_chain k i c hd -> usual c -> usual c' -> few_sets c -> few_sets c' -> tidy k i ->
  hd_link hd <> None -> ends F p (chain_update m1 m2 c') k (Ok tt) k' ->
  exists o t po b, pin k' i P_link = Some o /\ k_objs k' o = Some (O_link (c_hook (nc_chain c')) t po b)).
Proof.
  intros H. assert (EN : ends no_fault 1 (chain_update ex_mem ex_mem (ex_tc 9)) (closed 1 ex_t2) (Ok tt) ex_t3).
  { assert (Y : fst (solo 1 (chain_update ex_mem ex_mem (ex_tc 9)) (closed 1 ex_t2)) = Ok tt) by (vm_compute; reflexivity). rewrite <- Y. unfold ex_t3. apply solo_ends. }
  assert (EI : ent_find (nc_name (ex_tc 9)) (k_ents (closed 1 ex_t2)) = Some 12) by (vm_compute; reflexivity).
  assert (L : hd_link ex_thd <> None) by (vm_compute; discriminate).
  destruct (H no_fault 1 ex_mem ex_mem (ex_tc 1) (ex_tc 9) _ ex_t3 _ _ ex_th2 spared_none EI ex_theld (ex_tc_usual 1 (or_introl eq_refl)) (ex_tc_usual 9 (or_intror eq_refl))) as (o & t & po & b & P & O).
  - vm_compute. discriminate.
  - vm_compute. discriminate.
  - exact ex_ttidy.
  - exact L.
  - exact EN.
  - clear -P O. assert (X : pin ex_t3 12 P_link = Some 29) by (vm_compute; reflexivity). rewrite X in P. injection P as <-.
    assert (Y : k_objs ex_t3 29 = Some (O_link H_TC_INGRESS (T_if 5) 45 false)) by (vm_compute; reflexivity). rewrite Y in O.
    assert (Z : c_hook (nc_chain (ex_tc 9)) = H_TC_EGRESS) by (vm_compute; reflexivity). rewrite Z in O. discriminate O.
Qed.
Print Assumptions C55_hook_refuted.
