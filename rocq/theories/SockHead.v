(** The prologue of the cgroup socket hooks (proofs only). *)
From Coq Require Import NArith ZArith List Bool Lia Arith.
From Verif Require Import Bytes Types World BpfModel GenModel PktSpec ViewSpec Wf ViewModel Frag BytesFacts NetFacts
  StepFacts SwichFacts MatcherFacts MatcherFacts2 MatcherFacts4 RuleFacts2 HeadFacts HeadFacts2 HeadFacts3 HeadFacts4 HeadFacts5 HeadFacts6.
Import ListNotations.
Local Open Scope N_scope.

Section H.
  Variables (e : env) (c : chain) (w : world).
  Hypothesis We : wf_env c e.
  Hypothesis SA : hook_flavor (c_hook c) = F_SOCK_ADDR.

  Notation v := (sock_view (c_hook c) (e_pkt e)).

  Let is_sa : is_sock_addr (c_hook c) = true.
  Proof. unfold is_sock_addr. rewrite SA. reflexivity. Qed.

  (** What both halves of the prologue keep. *)
  Record sst (s : st) : Prop := mkSst {
    ss_r10 : rg s R10 = VStk 0;
    ss_r6 : rg s R6 = VK KCtx;
    ss_r7 : rg s R7 = VN (swap16 (v_l3 v));
    ss_r8 : rg s R8 = VN (v_l4 v);
    ss_len : stk_load (stk s) (ctx_off o_pktsize) 8 = VN 0;
    ss_log : c_log c = true -> stk_load (stk s) (ctx_off o_logmap) 8 = VMap MLog;
    ss_w : wd s = w
  }.

  (** cgroup_sock_addr.c:39-80 *)
  Lemma stage_sock s p : gen_prologue c = Ok p ->
    rg s R10 = VStk 0 -> rg s R1 = VK KCtx -> base c 0 (stk s) -> wd s = w -> good e p s sst.
  Proof.
    intros Hp E10 E1 HB HW. unfold gen_prologue in Hp. rewrite SA in Hp. cbn [get_verdict bind] in Hp.
    apply Ok_inj in Hp. subst p.
    pose proof (we_flavor _ _ We) as Ef. rewrite SA in Ef.
    assert (LD : forall k w' o, sock_access (c_hook c) o 4 = true ->
      mload e k w' (VK KCtx) (Z.of_nat o) 4 = Some (VN (le_dec (sub (e_pkt e) o 4)))).
    { intros k w' o HA. unfold mload. rewrite Ef, (we_hook _ _ We), Nat2Z.id, HA.
      replace (0 <=? Z.of_nat o)%Z with true by (symmetry; apply Z.leb_le; lia). reflexivity. }
    set (k1 := wr_stk (stk s) (ctx_off o_pktsize) (val_bytes (VN 0) 8)).
    pose proof (same_val (stk s) (ctx_off o_pktsize) (VN 0) 8) as S1. fold k1 in S1.
    set (fam := le_dec (sub (e_pkt e) 28 4)).
    set (s1 := setr (sets (setr s R6 (VK KCtx)) k1) R2 (VN fam)).
    eapply good_app with (P := fun t => t = s1).
    { exists s1. split; [|reflexivity]. intros l. cbn [app]. rewrite fr_mov64r, E1.
      rewrite fr_st10; [|exact E10|reflexivity].
      rewrite (fr_ldx e _ _ SW R2 R6 (Z.of_nat sa_family) (VN fam)); [reflexivity|]. apply LD. reflexivity. }
    intros t ->. eapply good_app; [apply (family_pick e s1 R2 fam); reflexivity|].
    intros t ->. set (s2 := setr s1 R7 _).
    exists (setr s2 R8 (VN (sock_proto (e_pkt e)))). split.
    - intros l. cbn [app].
      rewrite (fr_ldx e _ _ SW R8 R6 (Z.of_nat sa_protocol) (VN (sock_proto (e_pkt e)))); [reflexivity|]. apply LD. reflexivity.
    - constructor; [exact E10|reflexivity|reflexivity|reflexivity| | |exact HW].
      + change (stk_load k1 (ctx_off o_pktsize) 8 = VN 0). apply load_store_num. reflexivity.
      + intros L. change (stk_load k1 (ctx_off o_logmap) 8 = VMap MLog).
        rewrite (sb_ld _ _ _ _ _ _ S1) by offs. apply HB. exact L.
  Qed.

  (** program.c:845-865 *)
  Lemma stage_sock_rate s : sst s -> good e (rate_code c) s (fun s' => sready e c v (stk s') /\ inv v (stk s') s' /\ wd s' = w).
  Proof.
    intros [E10 E6 E7 E8 EL EG EW].
    assert (FIN : forall s', rg s' R10 = VStk 0 -> rg s' R6 = VK KCtx -> rg s' R7 = VN (swap16 (v_l3 v)) ->
      rg s' R8 = VN (v_l4 v) -> stk_load (stk s') (ctx_off o_pktsize) 8 = VN 0 ->
      (c_log c = true -> stk_load (stk s') (ctx_off o_logmap) 8 = VMap MLog) ->
      (c_ratelimit c = true -> stk_load (stk s') (ctx_off o_statemap) 8 = VSt 0) -> wd s' = w ->
      sready e c v (stk s') /\ inv v (stk s') s' /\ wd s' = w).
    { intros s' A1 A2 A3 A4 A5 A6 A7 A8. split; [|split; [|exact A8]].
      - constructor; auto; try (apply We; exact is_sa). rewrite <- SA. apply We.
      - constructor; auto. intros z _. reflexivity. }
    unfold rate_code. destruct (c_ratelimit c); [|apply good_nil; apply FIN; auto; discriminate].
    pose proof (same_val (stk s) (scr_off 0) (VN 0) 4) as S1.
    set (k1 := wr_stk (stk s) (scr_off 0) (val_bytes (VN 0) 4)) in *.
    set (s1 := setr (setr (setr (sets s k1) R1 (VMap MState)) R2 (rg s R10)) R2 (VStk (scr_off 0))).
    assert (C : do_call e HMapLookup s1 = Some (clobber s1 (VSt 0))).
    { unfold do_call. change (rg s1 R1) with (VMap MState). change (rg s1 R2) with (VStk (scr_off 0)). cbv iota beta.
      unfold map_lookup. change (stk s1) with k1.
      replace (rd_stk k1 (scr_off 0) 4) with (map MB (le_enc 4 0)) by (symmetry; apply (rd_wr_same (stk s) (scr_off 0) (val_bytes (VN 0) 4))).
      rewrite all_num_map. reflexivity. }
    pose proof (same_val k1 (ctx_off o_statemap) (VSt 0) 8) as S2.
    set (k2 := wr_stk k1 (ctx_off o_statemap) (val_bytes (VSt 0) 8)) in *.
    exists (sets (clobber s1 (VSt 0)) k2). split.
    - intros l. cbn [app]. rewrite fr_st10; [|exact E10|reflexivity]. rewrite fr_ldmap, fr_mov64r.
      erewrite fr_add_stk by (rewrite rg_same, rg_other by reflexivity; exact E10). rewrite Z.add_0_l.
      erewrite fr_call by exact C. rewrite fr_stx10; [reflexivity|exact E10|reflexivity].
    - apply FIN; auto.
  Qed.
End H.
