(** C28, C32, C33, C34, C50-C53: what the control plane leaves behind. *)
From Coq Require Import String NArith ZArith List Bool Lia.
From Verif Require Import Bytes Types World BpfModel GenModel StrModel SetModel MapModel PackModel PackSpec HookModel KernModel LockModel CtlModel SysSpec SysFacts SeqFacts CtlSpec HistSpec HistFacts CtlFacts CountFacts UpdSpec UpdSetFacts HistInv IsolFacts LockSeqFacts LoadFacts PropsPack PropsConc.
Import ListNotations.
Local Open Scope N_scope.

(** ** Things to try it on: a chain that replaces [ex_nchain], a machine with the chain
    loaded, one with it attached to interface 5. *)
Definition ex_nchain2 : nchain :=
  match nchain_new (lit "edge") 0 0 [ex_set; ex_set2] ex_rules with Ok c => c | Er _ => mkNC [] [] (mkC H_XDP V_ACCEPT [] [] false false false) end.
Lemma ex_nchain2_built : chain_built ex_nchain2.
Proof.
  destruct (nchain_new (lit "edge") 0 0 [ex_set; ex_set2] ex_rules) as [c|] eqn:E; [|vm_compute in E; discriminate E].
  assert (ex_nchain2 = c) as ->. { unfold ex_nchain2. now rewrite E. } eapply CB_new. exact E.
Qed.
Definition ex_opts : hookopts := mkHO (Some 5%Z) None None None.
Definition ex_k1 : kst := snd (solo 1 (chain_load ex_mem ex_nchain) ex_k0).
Definition ex_k2 : kst := snd (solo 1 (chain_attach ex_mem ex_edge ex_opts) (closed 1 ex_k1)).
Lemma ex_boot : fresh_boot ex_k0.
Proof.
  split; [|auto]. constructor; cbn; try discriminate; auto. constructor.
Qed.
Lemma ex_usual : usual ex_nchain.
Proof. split; [exact ex_nchain_built|]. split; [exact ex_nchain_storable|reflexivity]. Qed.
Lemma run_stops {A} F p (m : prog A) k : stops F p m k (snd (solo p m k)).
Proof. revert k. induction m as [a|c f IH]; intros k; cbn [solo snd]; [apply Sp_here|]. apply Sp_next with (d := E_none); [exact Logic.I|apply IH]. Qed.
Lemma forget_stops {A} F p (m : prog A) k k' : stops F p m k k' -> stops F p (forget m) k k'.
Proof. induction 1; [apply Sp_here|]. unfold forget. cbn [pbind]. eapply Sp_next; [eassumption|]. exact IHstops. Qed.
Lemma ex_h1 (P : api -> Prop) : P (A_chain_load ex_mem ex_nchain) -> history P (closed 1 ex_k1).
Proof.
  intros H. eapply Hi_call with (p := 1); [apply Hi_boot, ex_boot|exact H|].
  unfold run_api, ex_k1. apply forget_stops. apply run_stops.
Qed.
Lemma ex_h2 (P : api -> Prop) : P (A_chain_load ex_mem ex_nchain) -> P (A_chain_attach ex_mem ex_edge ex_opts) -> history P (closed 1 ex_k2).
Proof.
  intros H H2. eapply Hi_call with (p := 1); [apply ex_h1, H|exact H2|].
  unfold run_api, ex_k2. apply forget_stops. apply run_stops.
Qed.

Lemma holds_closed p k i c hd : holds_chain k i c hd -> holds_chain (closed p k) i c hd.
Proof. intros H. exact H. Qed.

(** ** C28 *)

(** After any history of calls (updates excepted), each stopped anywhere, with any
    failures: every directory that a later process can open holds no chain description, or
    a complete chain of that name. *)
Theorem C28_every_directory_consistent_partial : forall k n i, history no_update k ->
  ent_find n (k_ents k) = Some i ->
  pin k i P_ctx = None \/ exists c hd, holds_chain k i c hd /\ chain_built c /\ storable c /\ nc_name c = n.
Proof. intros k n i H. exact (in_named _ (proj1 (history_inv k H)) n i). Qed.
Print Assumptions C28_every_directory_consistent_partial.

(** What bf_chain_get then reports, by any process, with any failures: a chain that is
    completely there, with its options and counters. *)
Theorem C28_restored_is_complete_partial : forall k F p mm n c cs opts k',
  history no_update k -> ends F p (chain_get mm n) k (Ok (c, cs, opts)) k' ->
  exists i c0 hd v, ent_find n (k_ents k) = Some i /\ holds_chain k i c0 hd /\ same_chain c0 c /\ nc_name c = n /\
    opts = desc_opts hd /\ counts_at k i (n_rules (nc_chain c0)) v /\ cs = reading (nc_chain c0) v.
Proof.
  intros k F p mm n c cs opts k' H EN. pose proof (proj1 (history_inv k H)) as INV. pose proof (in_sane _ INV) as S0. pose proof (in_cons _ INV) as CONS.
  pose proof (wps_ends _ _ _ _ _ _ _ _ EN (chain_get_ok F p (fun _ => True) mm n k S0 (CONS n) (fun _ _ _ => Logic.I))) as (_ & i & c0 & hd & v & A1 & A2 & _ & _ & A3 & A4 & A5 & A6).
  exists i, c0, hd, v. split; [exact A1|]. split; [exact A2|]. split; [exact A3|]. split.
  - destruct A3 as [A3 _]. rewrite <- A3. exact (named_holds _ _ _ _ _ (in_named _ INV _ _ A1) A2).
  - repeat split; auto; apply A2.
Qed.
Print Assumptions C28_restored_is_complete_partial.

(** A crash in the middle of bf_chain_set: the old chain is gone, the new one not yet
    described; bf_chain_get finds nothing. *)
Definition ex_set_crash (n : nat) : kst := closed 1 (cut n 1 (chain_set ex_mem ex_mem ex_nchain (Some ex_opts)) (closed 1 ex_k2)).
Example C28_example : history no_update (ex_set_crash 80) /\
  pin (ex_set_crash 20) 12 P_ctx = Some 40 /\ ent_find ex_edge (k_ents (ex_set_crash 80)) <> None /\
  fst (solo 2 (chain_get ex_mem ex_edge) (ex_set_crash 80)) = Er ENOENT /\
  match fst (solo 2 (chain_get ex_mem ex_edge) (closed 1 ex_k2)) with
  | Ok (c, cs, o) => nc_chain c = nc_chain ex_nchain /\ cs = mkCnts [Some (0, 0); None] (0, 0) (0, 0) /\ o = Some ex_opts
  | Er _ => False
  end.
Proof.
  split; [|vm_compute; repeat split; discriminate].
  eapply Hi_call with (p := 1) (a := A_chain_set ex_mem ex_mem ex_nchain (Some ex_opts)); [apply ex_h2; [exact ex_usual|reflexivity]|exact ex_usual|].
  cbn [run_api]. apply forget_stops, cut_stops.
Qed.

(** The property is false for updates: a process that dies in bf_chain_update leaves the
    old chain's description over the new chain's program.  Another process then reports
    a chain whose program is not the one that filters. *)
Definition ex_torn : kst := closed 1 (cut 60 1 (chain_update ex_mem ex_mem ex_nchain2) (closed 1 ex_k2)).
Lemma ex_nchain2_usual : usual ex_nchain2.
Proof.
  split; [exact ex_nchain2_built|]. split; [|reflexivity]. constructor.
  - vm_compute. intuition discriminate.
  - assert (nc_sets ex_nchain2 = [ex_set; ex_set2]) as -> by (vm_compute; reflexivity).
    constructor; [split; [exact ex_set_reachable|vm_compute; intuition discriminate]|].
    constructor; [split; [exact ex_set2_reachable|vm_compute; exact Logic.I]|constructor].
  - apply Forall_forall. intros r Hr. vm_compute in Hr. destruct Hr as [<-|[<-|[]]]; unfold rule_in_range;
      (split; [vm_compute; reflexivity|split; [vm_compute; reflexivity|split; [vm_compute; reflexivity|split; [vm_compute; reflexivity|]]]]); repeat constructor; discriminate.
  - vm_compute. reflexivity.
Qed.
Lemma ex_torn_history : history usual_call ex_torn.
Proof.
  eapply Hi_call with (p := 1) (a := A_chain_update ex_mem ex_mem ex_nchain2); [apply ex_h2; [exact ex_usual|reflexivity]|exact ex_nchain2_usual|].
  unfold run_api, ex_torn. apply forget_stops. apply cut_stops.
Qed.
Theorem C28_update_refuted : ~ (forall k F p mm n c cs opts k',
  history usual_call k -> ends F p (chain_get mm n) k (Ok (c, cs, opts)) k' ->
  exists i c0 hd, ent_find n (k_ents k) = Some i /\ holds_chain k i c0 hd /\ same_chain c0 c).
Proof.
  intros H. destruct (solo 2 (chain_get ex_mem ex_edge) ex_torn) as [[[[c cs] o]|e] k'] eqn:E; [|vm_compute in E; discriminate E].
  assert (EN : ends no_fault 2 (chain_get ex_mem ex_edge) ex_torn (Ok (c, cs, o)) k').
  { pose proof (solo_ends no_fault 2 (chain_get ex_mem ex_edge) ex_torn) as X. rewrite E in X. exact X. }
  destruct (H _ _ _ _ _ _ _ _ _ ex_torn_history EN) as (i & c0 & hd & EI & (_ & CP) & (_ & _ & SC)).
  destruct (cp_body _ _ _ _ CP) as (img & po & ss & cm & v & G & P & O & _).
  assert (C : nc_chain c = nc_chain ex_nchain).
  { assert (X : match fst (solo 2 (chain_get ex_mem ex_edge) ex_torn) with Ok (c, _, _) => nc_chain c = nc_chain ex_nchain | Er _ => False end) by (vm_compute; reflexivity).
    rewrite E in X. exact X. }
  rewrite SC, C in G.
  assert (i = 12) as -> by (vm_compute in EI; injection EI as <-; reflexivity).
  vm_compute in P. injection P as <-. vm_compute in G. injection G as <-. vm_compute in O. discriminate O.
Qed.
Print Assumptions C28_update_refuted.

(** ** C32 *)

(** bf_chain_get reports for every rule with counters, for the policy and for the errors
    the sum over the CPUs of the slot that the program counts in (PropsChain's C03: the
    rule's index, the number of rules, the number of rules plus one). *)
Theorem C32_counters_read : forall k F p mm n c cs opts k', sane k -> all_consistent k ->
  ends F p (chain_get mm n) k (Ok (c, cs, opts)) k' ->
  exists i v, ent_find n (k_ents k) = Some i /\ counts_at k i (n_rules (nc_chain c)) v /\
    cs_rules cs = map (fun r => if r_counters r then Some (total (v (r_index r))) else None) (c_rules (nc_chain c)) /\
    cs_policy cs = total (v (n_rules (nc_chain c))) /\ cs_errors cs = total (v (n_rules (nc_chain c) + 1)).
Proof.
  intros k F p mm n c cs opts k' S0 CONS EN.
  pose proof (wps_ends _ _ _ _ _ _ _ _ EN (chain_get_ok F p (fun _ => True) mm n k S0 (CONS n) (fun _ _ _ => Logic.I))) as (_ & i & c0 & hd & v & A1 & A2 & _ & _ & A3 & A4 & A5 & A6).
  destruct A3 as (_ & _ & A3). exists i, v. rewrite <- A3, A6. auto.
Qed.
Print Assumptions C32_counters_read.

(** The function that looks up one counter: rule indices, -2 for the policy, -1 for the
    errors; every other index is refused without touching the map. *)
Theorem C32_lookup : forall F p g z o v k r k', cmap_is k p (g_handle g) o (n_rules (nc_chain (g_chain g)) + 2) v ->
  ends F p (cgen_get_counter g z) k r k' ->
  k' = k /\ match r with
            | Ok x => (z = (-2)%Z /\ x = total (v (n_rules (nc_chain (g_chain g))))) \/
                      (z = (-1)%Z /\ x = total (v (n_rules (nc_chain (g_chain g)) + 1))) \/
                      ((0 <= z < Z.of_N (n_rules (nc_chain (g_chain g))))%Z /\ x = total (v (Z.to_N z)))
            | Er e => faulty F \/ (e = EINVAL /\ (z < -2 \/ Z.of_N (n_rules (nc_chain (g_chain g))) <= z)%Z)
            end.
Proof.
  intros F p g z o v k r k' CM EN.
  pose proof (wps_ends _ _ _ _ _ _ _ _ EN (cgen_counter_ok F p (fun _ => True) g z o v k Logic.I CM)) as (-> & H).
  split; [reflexivity|]. assert (SL := slot_of g z). cbv zeta in SL. set (n := n_rules (nc_chain (g_chain g))) in *.
  destruct (Z.eqb_spec z (-2)) as [->|]; [|destruct (Z.eqb_spec z (-1)) as [->|]; [|destruct (Z.ltb_spec z 0); [|destruct (Z.leb_spec (Z.of_N n) z)]]]; cbn [orb] in SL; rewrite SL in H.
  - destruct r as [x|e]; [destruct H as (i & E & ->); injection E as <-; auto|destruct H as [H|(H & _)]; [auto|discriminate H]].
  - destruct r as [x|e]; [destruct H as (i & E & ->); injection E as <-; auto|destruct H as [H|(H & _)]; [auto|discriminate H]].
  - destruct r as [x|e]; [destruct H as (i & E & _); discriminate E|destruct H as [H|(_ & ->)]; [auto|right; split; [reflexivity|lia]]].
  - destruct r as [x|e]; [destruct H as (i & E & _); discriminate E|destruct H as [H|(_ & ->)]; [auto|right; split; [reflexivity|lia]]].
  - destruct r as [x|e]; [destruct H as (i & E & ->); injection E as <-; right; right; split; [lia|reflexivity]|destruct H as [H|(H & _)]; [auto|discriminate H]].
Qed.
Print Assumptions C32_lookup.

(** A machine whose chain has counted something, on two CPUs. *)
Definition ex_counted : kst :=
  with_obj (closed 1 ex_k2) 16 (O_counters 4 (fun i => if i =? 0 then [(3, 300); (4, 500)] else if i =? 2 then [(1, 60); (0, 0)] else [(0, 0); (0, 9)])).
Example C32_example : match fst (solo 2 (chain_get ex_mem ex_edge) ex_counted) with
  | Ok (_, cs, _) => cs = mkCnts [Some (7, 800); None] (1, 60) (0, 9)
  | Er _ => False
  end.
Proof. vm_compute. reflexivity. Qed.

(** ** C34 *)

(** A failed bf_chain_load leaves nothing behind, whatever failed. *)
Theorem C34_failed_load : forall F p mm c k e k', sane k -> usual c ->
  ends F p (chain_load mm c) k (Er e) k' -> unchanged k k'.
Proof. intros F p mm c k e k' S0 (B & S & _) EN. exact (proj1 (load_failed F p mm c k e k' S0 B S EN)). Qed.
Print Assumptions C34_failed_load.

(** A failed bf_chain_attach leaves nothing behind; if an earlier process died in
    the directory, what it left may be gone too. *)
Theorem C34_failed_attach : forall F p mm n o k e k', sane k -> all_consistent k ->
  ends F p (chain_attach mm n o) k (Er e) k' -> nothing_new n k k'.
Proof. exact attach_failed. Qed.
Print Assumptions C34_failed_attach.
Theorem C34_failed_attach_exact : forall F p mm n o k e k', sane k -> all_consistent k ->
  (forall i, ent_find n (k_ents k) = Some i -> tidy k i) ->
  ends F p (chain_attach mm n o) k (Er e) k' -> unchanged k k'.
Proof. exact attach_failed_tidy. Qed.
Print Assumptions C34_failed_attach_exact.

(** After a failed load the name can be used: the next load succeeds. *)
Theorem C34_name_usable : forall F p q mm mm' c c' k e k', history no_update k -> at_rest k -> usual c ->
  ent_find (nc_name c') (k_ents k) = None -> loadable c' -> plenty mm' ->
  ends F p (chain_load mm c) k (Er e) k' -> fst (solo q (chain_load mm' c') k') = Ok tt.
Proof.
  intros F p q mm mm' c c' k e k' H (FD & NS) U NE ((B' & S' & N') & G & ND & SZ) PL EN.
  pose proof (in_sane _ (proj1 (history_inv _ H))) as S0.
  assert (S1 : sane k') by (eapply stops_sane; [eapply ends_stops; exact EN|exact S0]).
  destruct U as (B & S & _). pose proof (proj1 (load_failed F p mm c k e k' S0 B S EN)) as UC.
  apply load_works; auto.
  - apply rest_clash. eapply unchanged_fds; eassumption.
  - intros s X. rewrite (uc_ents _ _ UC). auto.
  - rewrite (uc_ents _ _ UC). exact NE.
Qed.
Print Assumptions C34_name_usable.

(** The program is refused by the verifier: the load fails and nothing is left; then the
    same load succeeds. *)
Definition ex_verifier (c : call) : bool := match c with C_prog_load _ _ _ => true | _ => false end.
Definition ex_refused : res unit * kst := spoil ex_verifier EPERM 1 (chain_load ex_mem ex_nchain) ex_k0.
Lemma ex_loadable : loadable ex_nchain.
Proof.
  split; [exact ex_usual|]. split; [|split].
  - destruct (gen_program (nc_chain ex_nchain)) as [img|e] eqn:E; [exists img; reflexivity|vm_compute in E; discriminate E].
  - vm_compute. repeat constructor; intros []; discriminate.
  - repeat constructor; intros l X; vm_compute in X; injection X as <-; vm_compute; reflexivity.
Qed.
Lemma ex_plenty : plenty ex_mem.
Proof. intros i. split; [intros j; eexists; reflexivity|]. split; [|reflexivity]. intros a b H. cbn in H. injection H as H. lia. Qed.
Example C34_example : fst ex_refused = Er EPERM /\ ends ex_verifier 1 (chain_load ex_mem ex_nchain) ex_k0 (Er EPERM) (snd ex_refused) /\
  k_ents (snd ex_refused) = [] /\ at_rest ex_k0 /\ usual ex_nchain /\ loadable ex_nchain /\ plenty ex_mem.
Proof.
  assert (X : fst ex_refused = Er EPERM) by (vm_compute; reflexivity). split; [exact X|]. split.
  - rewrite <- X. unfold ex_refused. apply spoil_ends.
  - split; [vm_compute; reflexivity|]. split; [split; [reflexivity|intros; reflexivity]|]. split; [exact ex_usual|]. split; [exact ex_loadable|exact ex_plenty].
Qed.

(** ** C33 *)

(** If bf_chain_set fails, either nothing changed (the previous chain, if any, is as it
    was), or there was a chain and now there is none: never a part of one. *)
Theorem C33_failed_set_partial : forall F p m1 m2 c o k e k', history no_update k -> usual c ->
  ends F p (chain_set m1 m2 c o) k (Er e) k' ->
  nothing_new (nc_name c) k k' \/
  exists i c0 hd, ent_find (nc_name c) (k_ents k) = Some i /\ holds_chain k i c0 hd /\
    forall j, ent_find (nc_name c) (k_ents k') = Some j -> pin k' j P_ctx = None.
Proof.
  intros F p m1 m2 c o k e k' H (B & S & _) EN. pose proof (proj1 (history_inv _ H)) as INV. pose proof (in_sane _ INV) as S0. pose proof (in_cons _ INV) as CONS.
  exact (set_failed F p m1 m2 c o k e k' S0 CONS B S EN).
Qed.
Print Assumptions C33_failed_set_partial.

(** The property itself is false: bf_chain_set removes the old chain before it builds
    the new one.  If the kernel refuses the new program, the old chain is gone. *)
Theorem C33_set_refuted : ~ (forall F p m1 m2 c o k e k' i c0 hd, history no_update k -> usual c ->
  ends F p (chain_set m1 m2 c o) k (Er e) k' ->
  ent_find (nc_name c) (k_ents k) = Some i -> holds_chain k i c0 hd ->
  exists j, ent_find (nc_name c) (k_ents k') = Some j /\ pin k' j P_ctx <> None).
Proof.
  intros H. set (k' := snd (spoil ex_verifier EPERM 1 (chain_set ex_mem ex_mem ex_nchain2 (Some ex_opts)) (closed 1 ex_k1))).
  assert (X : fst (spoil ex_verifier EPERM 1 (chain_set ex_mem ex_mem ex_nchain2 (Some ex_opts)) (closed 1 ex_k1)) = Er EPERM) by (vm_compute; reflexivity).
  assert (EN : ends ex_verifier 1 (chain_set ex_mem ex_mem ex_nchain2 (Some ex_opts)) (closed 1 ex_k1) (Er EPERM) k').
  { rewrite <- X. unfold k'. apply spoil_ends. }
  assert (HI : history no_update (closed 1 ex_k1)) by (apply ex_h1; exact ex_usual).
  assert (LD : exists hd, holds_chain (closed 1 ex_k1) 12 ex_nchain hd).
  { pose proof (in_sane _ (inv_boot _ ex_boot)) as S0.
    assert (L : ends no_fault 1 (chain_load ex_mem ex_nchain) ex_k0 (Ok tt) ex_k1).
    { assert (Y : fst (solo 1 (chain_load ex_mem ex_nchain) ex_k0) = Ok tt) by (vm_compute; reflexivity). rewrite <- Y. unfold ex_k1. apply solo_ends. }
    destruct (load_done _ _ _ _ _ _ S0 ex_nchain_built ex_nchain_storable L) as (i & hd & EI & HC & _).
    assert (i = 12) as -> by (vm_compute in EI; injection EI as <-; reflexivity). exists hd. apply holds_closed. exact HC. }
  destruct LD as (hd & HC).
  assert (EI : ent_find (nc_name ex_nchain2) (k_ents (closed 1 ex_k1)) = Some 12) by (vm_compute; reflexivity).
  destruct (H _ _ _ _ _ _ _ _ _ _ _ _ HI ex_nchain2_usual EN EI HC) as (j & EJ & _). vm_compute in EJ. discriminate EJ.
Qed.
Print Assumptions C33_set_refuted.

(** ** C50: success means attached *)
Theorem C50_set_attaches_partial : forall F p m1 m2 c o k k', history no_update k -> usual c ->
  ends F p (chain_set m1 m2 c o) k (Ok tt) k' ->
  hook_flavor (c_hook (nc_chain c)) <> F_CGROUP_SKB -> hook_flavor (c_hook (nc_chain c)) <> F_SOCK_ADDR ->
  exists i hd, ent_find (nc_name c) (k_ents k') = Some i /\ holds_chain k' i c hd /\ desc_opts hd = o.
Proof.
  intros F p m1 m2 c o k k' H (B & S & _) EN N1 N2. pose proof (proj1 (history_inv _ H)) as INV. pose proof (in_sane _ INV) as S0. pose proof (in_cons _ INV) as CONS.
  destruct (set_done F p m1 m2 c o k k' S0 CONS B S EN) as (i & hd & EI & HC & AS). exists i, hd. split; [exact EI|]. split; [exact HC|].
  unfold as_asked in AS. unfold desc_opts. destruct o as [o|]; [|rewrite AS; reflexivity].
  destruct AS as [AS|(_ & X & _)]; [rewrite AS; reflexivity|]. unfold AttachFacts.is_cgroup in X. destruct (hook_flavor (c_hook (nc_chain c))); tauto || congruence.
Qed.
Print Assumptions C50_set_attaches_partial.
Theorem C50_attach_attaches : forall F p mm n o k k', history no_update k ->
  ends F p (chain_attach mm n o) k (Ok tt) k' ->
  exists i c hd, ent_find n (k_ents k') = Some i /\ holds_chain k' i c hd /\ hd_link hd = Some (c_hook (nc_chain c), o) /\
    (exists hd0, holds_chain k i c hd0 /\ hd_link hd0 = None).
Proof.
  intros F p mm n o k k' H EN. pose proof (proj1 (history_inv _ H)) as INV. pose proof (in_sane _ INV) as S0. pose proof (in_cons _ INV) as CONS.
  destruct (attach_done F p mm n o k k' S0 CONS EN) as (i & c & hd & _ & EI & OLD & HC & HL & _). exists i, c, hd. auto.
Qed.
Print Assumptions C50_attach_attaches.
Theorem C50_load_loads : forall F p mm c k k', history no_update k -> usual c -> ends F p (chain_load mm c) k (Ok tt) k' ->
  exists i hd, ent_find (nc_name c) (k_ents k') = Some i /\ holds_chain k' i c hd /\ hd_link hd = None /\ tidy k' i.
Proof.
  intros F p mm c k k' H (B & S & _) EN. pose proof (proj1 (history_inv _ H)) as INV. pose proof (in_sane _ INV) as S0. pose proof (in_cons _ INV) as CONS. exact (load_done F p mm c k k' S0 B S EN).
Qed.
Print Assumptions C50_load_loads.

(** False for cgroups: if the cgroup cannot be opened, bf_link_new returns the positive
    errno, which its caller takes for success. *)
Definition ex_cgchain : nchain :=
  match nchain_new (lit "cg") 5 1 [] [] with Ok c => c | Er _ => mkNC [] [] (mkC H_XDP V_ACCEPT [] [] false false false) end.
Lemma ex_cg_usual : usual ex_cgchain.
Proof.
  destruct (nchain_new (lit "cg") 5 1 [] []) as [c|] eqn:E; [|vm_compute in E; discriminate E].
  assert (X : ex_cgchain = c) by (unfold ex_cgchain; now rewrite E). split; [rewrite X; eapply CB_new; exact E|]. split; [|vm_compute; reflexivity].
  constructor.
  - vm_compute. intuition discriminate.
  - assert (nc_sets ex_cgchain = []) as -> by (vm_compute; reflexivity). constructor.
  - assert (c_rules (nc_chain ex_cgchain) = []) as -> by (vm_compute; reflexivity). constructor.
  - vm_compute. reflexivity.
Qed.
Definition ex_cgopts : hookopts := mkHO None (Some (lit "/sys/fs/cgroup/gone")) None None.
Definition ex_nocgroup (c : call) : bool := match c with C_open_cgroup _ => true | _ => false end.
Theorem C50_cgroup_refuted : ~ (forall F p m1 m2 c o k k', history no_update k -> usual c ->
  ends F p (chain_set m1 m2 c o) k (Ok tt) k' ->
  exists i hd, ent_find (nc_name c) (k_ents k') = Some i /\ holds_chain k' i c hd /\ desc_opts hd = o).
Proof.
  intros H. set (k' := snd (spoil ex_nocgroup ENOENT 1 (chain_set ex_mem ex_mem ex_cgchain (Some ex_cgopts)) ex_k0)).
  assert (X : fst (spoil ex_nocgroup ENOENT 1 (chain_set ex_mem ex_mem ex_cgchain (Some ex_cgopts)) ex_k0) = Ok tt) by (vm_compute; reflexivity).
  assert (EN : ends ex_nocgroup 1 (chain_set ex_mem ex_mem ex_cgchain (Some ex_cgopts)) ex_k0 (Ok tt) k').
  { rewrite <- X. unfold k'. apply spoil_ends. }
  destruct (H _ _ _ _ _ _ _ _ (Hi_boot _ _ ex_boot) ex_cg_usual EN) as (i & hd & EI & ((o & t & P & O & _) & _) & DO).
  vm_compute in EI. injection EI as <-. vm_compute in P. injection P as <-. vm_compute in O. injection O as _ <-. discriminate DO.
Qed.
Print Assumptions C50_cgroup_refuted.
