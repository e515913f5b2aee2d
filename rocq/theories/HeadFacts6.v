(** Entry of the program, the flavors' prologues, and the state in which the first
    rule starts (proofs only). *)
From Coq Require Import NArith ZArith List Bool Lia Arith.
From Verif Require Import Bytes Types World BpfModel GenModel PktSpec ViewSpec Wf ViewModel Frag BytesFacts NetFacts
  StepFacts SwichFacts MatcherFacts MatcherFacts2 MatcherFacts4 RuleFacts2 HeadFacts HeadFacts2 HeadFacts3 HeadFacts4 HeadFacts5.
Import ListNotations.
Local Open Scope N_scope.

Definition entry_code (c : chain) : code :=
  [I (Stx SDW R10 R1 (ctx_off o_arg)); MOV64I R7 0; MOV64I R8 0] ++
      (if c_log c then [I (LdMap R2 MLog); I Pad; I (Stx SDW R10 R2 (ctx_off o_logmap))]
       else []) ++
      (if c_nexthdr c then [I (Stx SDW R10 R7 (ctx_off o_eh))] else []).

Definition rate_code (c : chain) : code :=
  if c_ratelimit c then
         [I (St SW R10 (scr_off 0) 0); I (LdMap R1 MState); I Pad;
          MOV64R R2 R10; ADD64I R2 (scr_off 0); I (Call HMapLookup);
          I (Stx SDW R10 R0 (ctx_off o_statemap))]
       else [].

(** program.c:818-840 *)
Lemma stage_entry e c w : good e (entry_code c) (start w) (fun s =>
  rg s R10 = VStk 0 /\ rg s R1 = VK KCtx /\ rg s R7 = VN 0 /\ rg s R8 = VN 0 /\ base c 0 (stk s) /\ wd s = w).
Proof.
  unfold entry_code.
  set (k1 := wr_stk (fun _ => MU) (ctx_off o_arg) (val_bytes (VK KCtx) 8)).
  assert (A1 : stk_load k1 (ctx_off o_arg) 8 = VK KCtx) by (apply load_store_ptr; reflexivity).
  eapply good_app with (P := fun s => rg s R10 = VStk 0 /\ rg s R1 = VK KCtx /\ rg s R7 = VN 0 /\ rg s R8 = VN 0 /\ 
    wd s = w /\ stk_load (stk s) (ctx_off o_arg) 8 = VK KCtx).
  { exists (setr (setr (sets (start w) k1) R7 (VN 0)) R8 (VN 0)). split.
    - intros l. cbn [app]. rewrite fr_stx10 by reflexivity. rewrite !fr_mov64i. reflexivity.
    - repeat split. }
  intros s (B1 & B2 & B3 & B4 & B5 & B6).
  eapply good_app with (P := fun s => rg s R10 = VStk 0 /\ rg s R1 = VK KCtx /\ rg s R7 = VN 0 /\ rg s R8 = VN 0 /\ 
    wd s = w /\ stk_load (stk s) (ctx_off o_arg) 8 = VK KCtx /\ (c_log c = true -> stk_load (stk s) (ctx_off o_logmap) 8 = VMap MLog)).
  { destruct (c_log c).
    - exists (sets (setr s R2 (VMap MLog)) (wr_stk (stk s) (ctx_off o_logmap) (val_bytes (VMap MLog) 8))). split.
      + intros l. cbn [app]. rewrite fr_ldmap. rewrite fr_stx10; [reflexivity|exact B1|reflexivity].
      + split; [exact B1|]. split; [exact B2|]. split; [exact B3|]. split; [exact B4|]. split; [exact B5|]. split.
        * cbn [stk sets]. rewrite (sb_ld _ _ _ _ _ _ (same_val (stk s) (ctx_off o_logmap) (VMap MLog) 8)) by offs. exact B6.
        * intros _. apply load_store_ptr. reflexivity.
    - apply good_nil. repeat (split; [assumption|]). discriminate. }
  clear s B1 B2 B3 B4 B5 B6. intros s (B1 & B2 & B3 & B4 & B5 & B6 & B7).
  destruct (c_nexthdr c) eqn:NH.
  - exists (sets s (wr_stk (stk s) (ctx_off o_eh) (val_bytes (VN 0) 8))). split.
    + intros l. cbn [app]. rewrite fr_stx10; [rewrite B3; reflexivity|exact B1|reflexivity].
    + split; [exact B1|]. split; [exact B2|]. split; [exact B3|]. split; [exact B4|]. split; [|exact B5].
      cbn [stk sets]. pose proof (same_val (stk s) (ctx_off o_eh) (VN 0) 8) as SB1.
      constructor.
      * rewrite (sb_ld _ _ _ _ _ _ SB1) by offs. exact B6.
      * intros L. rewrite (sb_ld _ _ _ _ _ _ SB1) by offs. auto.
      * intros _. exists [0;0;0;0;0;0;0]. apply (rd_wr_same (stk s) (ctx_off o_eh) (val_bytes (VN 0) 8)).
  - apply good_nil. repeat (split; [assumption|]). split; [|exact B5].
    constructor; auto. congruence.
Qed.

Lemma not_sock_addr h : hook_flavor h <> F_SOCK_ADDR -> is_sock_addr h = false.
Proof. destruct h; cbn; intros H; try reflexivity; contradiction H; reflexivity. Qed.

Section H.
  Variables (e : env) (c : chain) (w : world) (k : Z).
  Hypothesis Bn : n_rules c < 268435456.
  Hypothesis We : wf_env c e.

  Notation pk := (packet_of e (c_hook c)).
  Notation ifx := (p_if pk).
  Notation len := (p_len pk).
  Notation hs := (hst c ifx len).
  Notation FAIL a s := (halts e a s (imm64 k) (w_count w (n_rules c + 1) len)).

  (** Storing the packet size, then the interface index. *)
  Lemma metas_store k0 x y : base c 0 k0 -> x < two64 ->
    let k1 := wr_stk k0 (ctx_off o_pktsize) (val_bytes (VN x) 8) in
    let k2 := wr_stk k1 (ctx_off o_ifindex) (val_bytes (VN y) 4) in
    base c 0 k2 /\ metas y x k2.
  Proof.
    intros B Hx k1 k2.
    pose proof (same_val k0 (ctx_off o_pktsize) (VN x) 8) as S1. fold k1 in S1.
    pose proof (same_val k1 (ctx_off o_ifindex) (VN y) 4) as S2. fold k2 in S2. split.
    - eapply base_sb; [exact S2| | |eapply base_sb; [exact S1| | |exact B]]; offs.
    - constructor.
      + apply (rd_wr_same k1 (ctx_off o_ifindex) (val_bytes (VN y) 4)).
      + rewrite (sb_ld _ _ _ _ _ _ S2) by offs. apply load_store_num. exact Hx.
  Qed.

  (** Storing the interface index, then the packet size. *)
  Lemma metas_store' k0 x y : base c 0 k0 -> x < two64 ->
    let k1 := wr_stk k0 (ctx_off o_ifindex) (val_bytes (VN y) 4) in
    base c 0 k1 /\ forall k2, (forall z, (-176 <= z < -172)%Z -> k2 z = k1 z) ->
    metas y x (wr_stk k2 (ctx_off o_pktsize) (val_bytes (VN x) 8)).
  Proof.
    intros B Hx k1.
    pose proof (same_val k0 (ctx_off o_ifindex) (VN y) 4) as S1. fold k1 in S1. split.
    - eapply base_sb; [exact S1| | |exact B]; offs.
    - intros k2 Hk2. constructor.
      + rewrite (sb_rd _ _ _ _ _ _ (same_val k2 (ctx_off o_pktsize) (VN x) 8)) by offs.
        rewrite (rd_stk_ext k2 k1) by (intros z Hz; apply Hk2; revert Hz; offs).
        apply (rd_wr_same k0 (ctx_off o_ifindex) (val_bytes (VN y) 4)).
      + apply load_store_num. exact Hx.
  Qed.

  Lemma family_pick s r x : rg s r = VN x ->
    good e (family_swich r) s (fun s' => s' = setr s R7 (VN (swap16 (if x =? 2 then 0x0800 else if x =? 10 then 0x86DD else 0)))).
  Proof.
    intros E. unfold family_swich. eapply good_swich; [exact E| | |reflexivity|].
    - repeat constructor.
    - unfold small; reflexivity.
    - unfold swich_pick. cbn [find fst].
      destruct (x =? 2); [eexists; split; [|reflexivity]; intros l; reflexivity|].
      destruct (x =? 10); [eexists; split; [|reflexivity]; intros l; reflexivity|].
      eexists; split; [|reflexivity]; intros l; reflexivity.
  Qed.

  (** xdp.c:33-72, tc.c:27-70, nf.c:45-121, cgroup_skb.c:32-98 *)
  Lemma stage_flavor s p : hook_flavor (c_hook c) <> F_SOCK_ADDR -> gen_prologue c = Ok p -> get_verdict (hook_flavor (c_hook c)) V_ACCEPT = Ok k ->
    rg s R10 = VStk 0 -> rg s R1 = VK KCtx -> rg s R7 = VN 0 -> rg s R8 = VN 0 -> base c 0 (stk s) -> wd s = w ->
    if e_dynptr e =? 0 then
      match parse (code_walk e (c_nexthdr c)) view_hash (hook_flavor (c_hook c)) pk with
      | Some v => good e p s (fun s' => exists m, viewst e c v w m s')
      | None => FAIL p s
      end
    else FAIL p s.
  Proof.
    intros NSA Hp Hk E10 E1 E7 E8 HB HW. unfold gen_prologue in Hp. rewrite Hk in Hp. cbn [bind] in Hp.
    pose proof (we_flavor _ _ We) as Ef.
    pose proof (we_len _ _ We) as Bl.
    assert (Bl64 : e_len e + 14 < two64) by (unfold two32, two64 in *; lia).
    assert (GOAL : forall kf pre, p = pre ++ make_dynptr c kf k ++ rest_code c k ->
      good e pre s (fun s' => hs 0 w s' /\ dyn_call e kf (rg s' R1) /\ rg s' R8 = VN 0 /\
        (has_link (hook_flavor (c_hook c)) = false ->
        rg s' R7 = VN (swap16 (if e_family e =? 2 then 0x0800 else if e_family e =? 10 then 0x86DD else 0)) /\
        stk_load (stk s') (ctx_off o_l3off) 4 = VN 0)) ->
      if e_dynptr e =? 0 then
      match parse (code_walk e (c_nexthdr c)) view_hash (hook_flavor (c_hook c)) pk with
      | Some v => good e p s (fun s' => exists m, viewst e c v w m s')
      | None => FAIL p s
      end
      else FAIL p s).
    { intros kf pre -> G.
      pose proof (fun s' => stage_rest e c w k Bn We kf s') as R.
      destruct (e_dynptr e =? 0).
      - destruct (parse (code_walk e (c_nexthdr c)) view_hash (hook_flavor (c_hook c)) pk) as [v|].
        + eapply good_app; [exact G|]. intros s' (A1 & A2 & A3 & A4). apply R; auto.
        + eapply good_halts; [exact G|]. intros s' (A1 & A2 & A3 & A4). apply R; auto.
      - eapply good_halts; [exact G|]. intros s' (A1 & A2 & A3 & A4). apply R; auto. }
    unfold rest_code in GOAL. unfold dyn_call in GOAL. rewrite Ef in GOAL.
    unfold packet_of in GOAL |- *. cbn [p_len p_if] in GOAL |- *. rewrite (not_sock_addr _ NSA) in *.
    destruct (hook_flavor (c_hook c)) eqn:EF; [| | | |contradiction NSA; reflexivity]; apply Ok_inj in Hp; subst p; cbn [has_link] in GOAL |- *.
    - (* TC *)
      eapply (GOAL KDynSkb); [reflexivity|].
      destruct (metas_store (stk s) (e_len e) (e_ifindex e) HB ltac:(unfold two64, two32 in *; lia)) as [M1 M2].
      eexists. split.
      + intros l. cbn [app].
        rewrite (fr_ldxk e _ s SW R3 R1 SkLen KCtx (VN (e_len e))) by (auto; unfold kload; rewrite Ef; reflexivity).
        rewrite fr_stx10; [|exact E10|reflexivity].
        rewrite (fr_ldxk e _ _ SW R2 R1 SkIfindex KCtx (VN (e_ifindex e))) by (auto; unfold kload; rewrite Ef; reflexivity).
        rewrite fr_stx10; [|exact E10|reflexivity]. reflexivity.
      + split; [constructor; [exact E10|exact M1|exact M2|exact HW]|]. split; [split; [reflexivity|exact E1]|]. split; [exact E8|]. discriminate.
    - (* NF *)
      eapply (GOAL KDynSkb ([I (LdxK SDW R2 R1 NfState);
           I (LdxK SDW R3 R2 (if nf_ingress (c_hook c) then StIn else StOut));
           I (LdxK SW R4 R3 DevIfindex); I (Stx SW R10 R4 (ctx_off o_ifindex));
           I (LdxK SB R3 R2 StPf)] ++
          family_swich R3 ++
          [I (St SW R10 (ctx_off o_l3off) 0);
           I (LdxK SDW R1 R1 NfSkb); I (LdxK SW R2 R1 KskLen); ADD64I R2 14;
           I (Stx SDW R10 R2 (ctx_off o_pktsize))])); [rewrite <- !app_assoc; reflexivity|].
      set (ifi := if nf_ingress (c_hook c) then e_ifindex e else e_ifindex_out e) in *.
      destruct (metas_store' (stk s) (e_len e + 14) ifi HB Bl64) as [M1 M2].
      set (k1 := wr_stk (stk s) (ctx_off o_ifindex) (val_bytes (VN ifi) 4)) in *.
      set (s1 := setr (sets (setr (setr (setr s R2 (VK KNfState)) R3 (VK (if nf_ingress (c_hook c) then KDevIn else KDevOut))) R4 (VN ifi)) k1) R3 (VN (e_family e))).
      eapply good_app with (P := fun t => t = s1).
      { exists s1. split; [|reflexivity]. intros l. cbn [app].
        rewrite (fr_ldxk e _ s SDW R2 R1 NfState KCtx (VK KNfState)) by (auto; unfold kload; rewrite Ef; reflexivity).
        rewrite (fr_ldxk e _ _ SDW R3 R2 _ KNfState (VK (if nf_ingress (c_hook c) then KDevIn else KDevOut)))
          by (auto; unfold kload; rewrite Ef; destruct (nf_ingress (c_hook c)); reflexivity).
        rewrite (fr_ldxk e _ _ SW R4 R3 DevIfindex (if nf_ingress (c_hook c) then KDevIn else KDevOut) (VN ifi))
          by (auto; unfold kload; rewrite Ef; unfold ifi; destruct (nf_ingress (c_hook c)); reflexivity).
        rewrite fr_stx10; [|exact E10|reflexivity].
        rewrite (fr_ldxk e _ _ SB R3 R2 StPf KNfState (VN (e_family e))) by (auto; unfold kload; rewrite Ef; reflexivity).
        reflexivity. }
      intros s' ->. eapply good_app; [apply (family_pick s1 R3 (e_family e)); reflexivity|].
      intros s' ->.
      set (et := if e_family e =? 2 then 2048 else if e_family e =? 10 then 34525 else 0).
      set (s2 := setr s1 R7 (VN (swap16 et))).
      pose proof (same_val k1 (ctx_off o_l3off) (VN 0) 4) as S2.
      set (k2 := wr_stk k1 (ctx_off o_l3off) (val_bytes (VN 0) 4)) in *.
      pose proof (same_val k2 (ctx_off o_pktsize) (VN (e_len e + 14)) 8) as S3.
      set (k3 := wr_stk k2 (ctx_off o_pktsize) (val_bytes (VN (e_len e + 14)) 8)) in *.
      eexists. split.
      + intros l. cbn [app]. rewrite fr_st10; [|exact E10|reflexivity].
        change (sets s2 (wr_stk (stk s2) (ctx_off o_l3off) (val_bytes (VN (imm64 0)) (szn SW)))) with (sets s2 k2).
        rewrite (fr_ldxk e _ _ SDW R1 R1 NfSkb KCtx (VK KSkb)) by (auto; unfold kload; rewrite Ef; reflexivity).
        rewrite (fr_ldxk e _ _ SW R2 R1 KskLen KSkb (VN (e_len e))) by (auto; unfold kload; rewrite Ef; reflexivity).
        unfold ADD64I. rewrite (fr_alu64 e _ _ AAdd R2 (Im 14) (e_len e) 14) by (try discriminate; reflexivity).
        cbn [alu64]. rewrite N.mod_small by exact Bl64.
        rewrite fr_stx10; [|exact E10|reflexivity]. reflexivity.
      + split; [constructor; [exact E10| | |exact HW]|].
        * change (base c 0 k3). eapply base_sb; [exact S3| | |eapply base_sb; [exact S2| | |exact M1]]; unfold clear; offs.
        * change (metas ifi (e_len e + 14) k3). apply M2. intros z Hz. apply S2. offs.
        * split; [split; reflexivity|]. split; [exact E8|]. intros _. split; [reflexivity|].
          change (stk_load k3 (ctx_off o_l3off) 4 = VN 0). rewrite (sb_ld _ _ _ _ _ _ S3) by offs.
          apply load_store_num. reflexivity.
    - (* XDP *)
      eapply (GOAL KDynXdp); [reflexivity|].
      destruct (metas_store (stk s) (e_len e) (e_ifindex e) HB ltac:(unfold two64, two32 in *; lia)) as [M1 M2].
      eexists. split.
      + intros l. cbn [app].
        rewrite (fr_ldxk e _ s SW R2 R1 XdpData KCtx (VN xdp_base)) by (auto; unfold kload; rewrite Ef; reflexivity).
        rewrite (fr_ldxk e _ _ SW R3 R1 XdpDataEnd KCtx (VN (xdp_base + e_len e))) by (auto; unfold kload; rewrite Ef; reflexivity).
        rewrite (fr_alu64 e _ _ ASub R3 (Rg R2) (xdp_base + e_len e) xdp_base) by (try discriminate; reflexivity).
        assert (X : alu64 ASub (xdp_base + e_len e) xdp_base = e_len e).
        { cbn [alu64]. change (xdp_base mod two64) with xdp_base.
          replace (xdp_base + e_len e + (two64 - xdp_base)) with (e_len e + 1 * two64) by (unfold xdp_base, two64; lia).
          rewrite N.mod_add by discriminate. apply N.mod_small. unfold two32, two64 in *; lia. }
        rewrite X. rewrite fr_stx10; [|exact E10|reflexivity].
        rewrite (fr_ldxk e _ _ SW R2 R1 XdpIfindex KCtx (VN (e_ifindex e))) by (auto; unfold kload; rewrite Ef; reflexivity).
        rewrite fr_stx10; [|exact E10|reflexivity]. reflexivity.
      + split; [constructor; [exact E10|exact M1|exact M2|exact HW]|]. split; [split; [reflexivity|exact E1]|]. split; [exact E8|]. discriminate.
    - (* CGROUP_SKB *)
      eapply (GOAL KDynSkb ([I (LdxK SW R3 R1 SkLen); ADD64I R3 14;
           I (Stx SDW R10 R3 (ctx_off o_pktsize));
           I (LdxK SW R2 R1 SkIfindex); I (Stx SW R10 R2 (ctx_off o_ifindex));
           I (LdxK SW R2 R1 SkFamily)] ++
          family_swich R2 ++
          [I (St SW R10 (ctx_off o_l3off) 0)])); [rewrite <- !app_assoc; reflexivity|].
      destruct (metas_store (stk s) (e_len e + 14) (e_ifindex e) HB Bl64) as [M1 M2].
      set (k1 := wr_stk (wr_stk (stk s) (ctx_off o_pktsize) (val_bytes (VN (e_len e + 14)) 8)) (ctx_off o_ifindex) (val_bytes (VN (e_ifindex e)) 4)) in *.
      eapply good_app with (P := fun t => stk t = k1 /\ rg t R10 = VStk 0 /\ rg t R1 = VK KCtx /\ rg t R8 = VN 0 /\ wd t = w /\ rg t R2 = VN (e_family e)).
      { eexists. split.
        - intros l. cbn [app].
          rewrite (fr_ldxk e _ s SW R3 R1 SkLen KCtx (VN (e_len e))) by (auto; unfold kload; rewrite Ef; reflexivity).
          unfold ADD64I. rewrite (fr_alu64 e _ _ AAdd R3 (Im 14) (e_len e) 14) by (try discriminate; reflexivity).
          cbn [alu64]. rewrite N.mod_small by exact Bl64.
          rewrite fr_stx10; [|exact E10|reflexivity].
          rewrite (fr_ldxk e _ _ SW R2 R1 SkIfindex KCtx (VN (e_ifindex e))) by (auto; unfold kload; rewrite Ef; reflexivity).
          rewrite fr_stx10; [|exact E10|reflexivity].
          rewrite (fr_ldxk e _ _ SW R2 R1 SkFamily KCtx (VN (e_family e))) by (auto; unfold kload; rewrite Ef; reflexivity).
          reflexivity.
        - split; [reflexivity|]. split; [exact E10|]. split; [exact E1|]. split; [exact E8|]. split; [exact HW|]. reflexivity. }
      intros s1 (A1 & A2 & A3 & A4 & A5 & A6).
      eapply good_app; [apply (family_pick s1 R2 (e_family e) A6)|].
      intros s' ->.
      set (et := if e_family e =? 2 then 2048 else if e_family e =? 10 then 34525 else 0).
      pose proof (same_val (stk s1) (ctx_off o_l3off) (VN 0) 4) as S2. rewrite A1 in S2.
      set (k2 := wr_stk k1 (ctx_off o_l3off) (val_bytes (VN 0) 4)) in *.
      exists (sets (setr s1 R7 (VN (swap16 et))) k2). split.
      + intros l. cbn [app]. rewrite fr_st10; [|exact A2|reflexivity]. cbn [stk setr]. rewrite A1. reflexivity.
      + split; [constructor; [exact A2| | |exact A5]|].
        * change (base c 0 k2). eapply base_sb; [exact S2| | |exact M1]; unfold clear; offs.
        * change (metas (e_ifindex e) (e_len e + 14) k2). eapply metas_sb; [exact S2| | |exact M2]; unfold clear; offs.
        * split; [split; [reflexivity|exact A3]|]. split; [exact A4|]. intros _. split; [reflexivity|].
          change (stk_load k2 (ctx_off o_l3off) 4 = VN 0). apply load_store_num. reflexivity.
  Qed.

  (** program.c:845-865 *)
  Lemma stage_rate s v m : viewok v pk -> viewst e c v w m s -> good e (rate_code c) s (fun s' => viewst e c v w m s' /\
    (c_ratelimit c = true -> stk_load (stk s') (ctx_off o_statemap) 8 = VSt 0)).
  Proof.
    intros VO V. unfold rate_code. destruct (c_ratelimit c); [|apply good_nil; split; [exact V|discriminate]].
    pose proof (vs_h _ _ _ _ _ _ V) as H. pose proof (h_r10 _ _ _ _ _ _ H) as E10.
    pose proof (same_val (stk s) (scr_off 0) (VN 0) 4) as S1.
    set (k1 := wr_stk (stk s) (scr_off 0) (val_bytes (VN 0) 4)) in *.
    set (s1 := setr (setr (setr (sets s k1) R1 (VMap MState)) R2 (rg s R10)) R2 (VStk (scr_off 0))).
    assert (C : do_call e HMapLookup s1 = Some (clobber s1 (VSt 0))).
    { unfold do_call. change (rg s1 R1) with (VMap MState). change (rg s1 R2) with (VStk (scr_off 0)). cbv iota beta.
      unfold map_lookup. change (stk s1) with k1.
      replace (rd_stk k1 (scr_off 0) 4) with (map MB (le_enc 4 0)) by (symmetry; apply (rd_wr_same (stk s) (scr_off 0) (val_bytes (VN 0) 4))).
      rewrite all_num_map. reflexivity. }
    pose proof (same_val k1 (ctx_off o_statemap) (VSt 0) 8) as S2.
    set (k2 := wr_stk k1 (ctx_off o_statemap) (val_bytes (VSt 0) 8)) in *.
    exists (sets (clobber s1 (VSt 0)) k2). split.
    - intros l. cbn [app]. rewrite fr_st10; [|exact E10|reflexivity]. rewrite fr_ldmap, fr_mov64r.
      erewrite fr_add_stk by (rewrite rg_same, rg_other by reflexivity; exact E10). rewrite Z.add_0_l.
      erewrite fr_call by exact C. rewrite fr_stx10; [reflexivity|exact E10|reflexivity].
    - assert (K : forall z, (z < -216 \/ -208 <= z < -64)%Z -> k2 z = stk s z).
      { intros z Hz. rewrite S2 by offs. apply S1. unfold scr_off; offs. }
      destruct V as [V1 V2 V3 V4 V5 V6 V7]. split; [constructor; auto|].
      + hsts.
        eapply (hst_sets _ _ _ _ _ (clobber s1 (VSt 0))); [|exact S2|lia|unfold clear; offs].
        unfold s1. hsts. eapply hst_sets; [exact H|exact S1|lia|unfold clear, scr_off; offs].
      + intros N3. destruct (V6 N3) as (p & A & B).
        assert (L : (length (v_h3 v) <= 40)%nat).
        { destruct (vo_l3 _ _ VO) as [Q|[Q|Q]]; [rewrite (vo_n3 _ _ VO Q)|rewrite (vo_n6 _ _ VO Q)|congruence]; lia. }
        exists p. split.
        * destruct A as [A|[A1 A2]]; [left; exact A|right; split; auto]. rewrite <- A2. apply rd_stk_ext. intros z Hz. apply K.
          revert Hz L. offs.
        * rewrite <- B. apply stk_load_ext. intros z Hz. apply K. revert Hz. offs.
      + intros N3. destruct (V7 N3) as (p & A & B).
        assert (L : (length (v_h4 v) <= 20)%nat).
        { destruct (vo_l4 _ _ VO N3) as [Q _]. rewrite Q. unfold l4_size. destruct (_ =? 6); [cbn; lia|]. destruct (_ || _); cbn; lia. }
        exists p. split.
        * destruct A as [A|[A1 A2]]; [left; exact A|right; split; auto]. rewrite <- A2. apply rd_stk_ext. intros z Hz. apply K.
          revert Hz L. offs.
        * rewrite <- B. apply stk_load_ext. intros z Hz. apply K. revert Hz. offs.
      + intros _. apply load_store_ptr. reflexivity.
  Qed.
End H.
