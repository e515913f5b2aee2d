(** Rules: logs, counters, verdicts, and whole rules (proofs only). *)
From Coq Require Import NArith ZArith List Bool Lia Arith.
From Verif Require Import Bytes Types World BpfModel GenModel PktSpec ViewSpec Wf ViewModel Frag BytesFacts NetFacts StepFacts
  SwichFacts SetFacts MatcherFacts MatcherFacts2 MatcherFacts3 MatcherFacts4 MatcherFacts5 MatcherFacts6 RuleFacts
  SockFacts RuleFacts2 SockLog.
Import ListNotations.
Local Open Scope N_scope.

Lemma imm64_mod16 x : x < two31 -> imm64 (i32 x) mod 16 = x mod 16.
Proof. intros H. rewrite imm64_i32 by exact H. reflexivity. Qed.

Section R.
  Variables (e : env) (c : chain) (v : view) (k0 : stack).
  Hypothesis Hr : rdy e c v k0.

  Notation does := (does e v k0).

  Lemma does_count idx s : inv v k0 s -> idx < n_rules c + 2 -> idx < two32 ->
    does (gen_count idx) s (w_count (wd s) idx (v_len v)).
  Proof.
    intros Hi Hx Hx2. unfold gen_count.
    set (s1 := setr (setr (setr (setr s R1 (rg s R10)) R1 (VStk (ctx_off o_arg))) R2 (VMap MCnt)) R3 (VN (imm32 (i32 idx) mod two32))).
    assert (C : do_call e StubCounters s1 = Some (clobber (setw s1 (w_count (wd s1) idx (v_len v))) (VN 0))).
    { unfold do_call, stub_counters. change (rg s1 R1) with (VStk (ctx_off o_arg)).
      change (rg s1 R2) with (VMap MCnt). change (rg s1 R3) with (VN (imm32 (i32 idx) mod two32)).
      cbv iota beta zeta. rewrite imm32_i32, !N.mod_mod by discriminate. rewrite (N.mod_small idx) by exact Hx2.
      rewrite (rdy_ncnt _ _ _ _ Hr). rewrite (proj2 (N.ltb_lt _ _)) by exact Hx.
      change (ctx_off o_arg + o_pktsize)%Z with (ctx_off o_pktsize).
      change (stk s1) with (stk s).
      rewrite (slot_load c v k0 s (ctx_off o_pktsize) 8%nat _ Hi ltac:(offs) (rdy_len _ _ _ _ Hr)). reflexivity. }
    eexists. split; [|split].
    - intros l. cbn [app]. rewrite fr_mov64r.
      erewrite fr_add_stk by (rewrite rg_same; exact (i_r10 _ _ _ Hi)). rewrite Z.add_0_l.
      rewrite fr_ldmap, fr_mov32i. fold s1. erewrite fr_call by exact C. reflexivity.
    - unfold s1; invs.
    - reflexivity.
  Qed.

  Lemma does_packet_log r s : v_sock v = None ->
    inv v k0 s -> c_log c = true -> r_index r < two32 -> r_log r < 256 ->
    does (gen_packet_log r) s (log_packet (e_or e) v r (wd s)).
  Proof.
    intros Ns Hi Hl Bi Bl. unfold gen_packet_log.
    set (P := N.lor (swap16 (v_l3 v) * 65536) (v_l4 v)).
    pose proof (rdy_l3 _ _ _ _ Hr) as B3. pose proof (rdy_l4 _ _ _ _ Hr) as B4.
    pose proof (swap16_lt (v_l3 v)) as BS.
    assert (RUN : exists s1, (forall l, frun e (
        [MOV64R R1 R10; ADD64I R1 (ctx_off o_arg); MOV64I R2 (i32 (r_index r));
   MOV64I R3 (i32 (r_log r)); MOV64I R4 (Z.of_N (verdict_id (r_verdict r)));
   MOV64R R5 R7; LSH64I R5 16; I (Alu true AOr R5 (Rg R8))] ++ l) 0 s = frun e l 0 s1) /\
        inv v k0 s1 /\ wd s1 = wd s /\ stk s1 = stk s /\
        rg s1 R1 = VStk (ctx_off o_arg) /\ rg s1 R2 = VN (imm64 (i32 (r_index r))) /\
        rg s1 R3 = VN (imm64 (i32 (r_log r))) /\ rg s1 R4 = VN (verdict_id (r_verdict r)) /\ rg s1 R5 = VN P).
    { eexists. split; [|split; [|split; [|split; [|split; [|split; [|split; [|split]]]]]]].
      - intros l. cbn [app]. rewrite fr_mov64r.
        erewrite fr_add_stk by (rewrite rg_same; exact (i_r10 _ _ _ Hi)). rewrite Z.add_0_l.
        rewrite !fr_mov64i, fr_mov64r. rewrite !rg_other by reflexivity. rewrite (i_r7 _ _ _ Hi).
        unfold LSH64I. erewrite (fr_alu64 e _ _ ALsh); [|discriminate|apply rg_same|reflexivity].
        erewrite (fr_alu64 e _ _ AOr); [|discriminate|apply rg_same|
          cbn [opval]; rewrite !rg_other by reflexivity; exact (i_r8 _ _ _ Hi)].
        reflexivity.
      - invs.
      - reflexivity.
      - reflexivity.
      - reflexivity.
      - reflexivity.
      - reflexivity.
      - cbn [rg setr reg_eqb]. destruct (r_verdict r); reflexivity.
      - cbn [rg setr reg_eqb]. unfold P. cbn [alu64]. change (imm64 16 mod 64) with 16.
        rewrite (shiftl16 c) by exact BS. reflexivity. }
    destruct RUN as (s1 & K1 & I1 & W1 & S1 & E1 & E2 & E3 & E4 & E5).
    assert (C : do_call e StubLog s1 =
      Some (clobber (setw s1 (log_packet (e_or e) v r (wd s1))) (VN (if o_ring (e_or e) (w_rings (wd s1)) then 0 else 1)))).
    { unfold do_call, stub_log. rewrite E1, E2, E3, E4, E5. cbv iota beta.
      change (ctx_off o_arg + o_logmap)%Z with (ctx_off o_logmap).
      change (ctx_off o_arg + o_pktsize)%Z with (ctx_off o_pktsize). 
      rewrite (slot_load c v k0 s1 (ctx_off o_logmap) 8%nat _ I1 ltac:(offs) (rdy_log _ _ _ _ Hr Hl)). cbv zeta.
      unfold log_packet. rewrite Ns. destruct (o_ring (e_or e) (w_rings (wd s1))); [|reflexivity].
      rewrite (slot_load c v k0 s1 (ctx_off o_pktsize) 8%nat _ I1 ltac:(offs) (rdy_len _ _ _ _ Hr)).
      rewrite imm64_mod32, (N.mod_small (r_index r)) by exact Bi.
      unfold P. rewrite (protos_l3 c), (protos_l4 c), swap16_invol by assumption.
      rewrite imm64_mod16 by (unfold two31; lia).
      replace (verdict_id (r_verdict r) mod two32) with (verdict_id (r_verdict r)) by (destruct (r_verdict r); reflexivity).
      reflexivity. }
    eexists. split; [|split].
    - intros l. match goal with |- frun e (?x ++ l) 0 s = _ =>
        change (x ++ l) with ([MOV64R R1 R10; ADD64I R1 (ctx_off o_arg); MOV64I R2 (i32 (r_index r));
          MOV64I R3 (i32 (r_log r)); MOV64I R4 (Z.of_N (verdict_id (r_verdict r)));
          MOV64R R5 R7; LSH64I R5 16; I (Alu true AOr R5 (Rg R8))] ++ (I (Call StubLog) :: l)) end.
      rewrite K1. erewrite fr_call by exact C. reflexivity.
    - invs.
    - cbn [wd clobber setr setw]. rewrite W1. reflexivity.
  Qed.

  Lemma does_log r s : inv v k0 s -> c_log c = true -> r_index r < two32 -> r_log r < 256 ->
    does (gen_log (c_hook c) r) s (log_packet (e_or e) v r (wd s)).
  Proof.
    intros Hi Hl Bi Bl. destruct Hr as [Hp|Hp].
    - assert (E : gen_log (c_hook c) r = gen_packet_log r).
      { pose proof (rd_nsa _ _ _ _ Hp) as N. destruct (c_hook c); try reflexivity; exfalso; apply N; reflexivity. }
      rewrite E. apply does_packet_log; auto. apply (rd_nosock _ _ _ _ Hp).
    - eapply does_sock_log; eauto.
  Qed.

  Lemma small_log h r : (length (gen_log h r) <= 40)%nat.
  Proof. destruct h; cbn; lia. Qed.

  Lemma does_rule_log r s : inv v k0 s -> r_index r < n_rules c -> n_rules c < 268435456 -> r_log r < 256 ->
    r_log_rate r < two64 ->
    (r_log r <> 0 -> c_log c = true) -> (r_log r <> 0 -> r_log_rate r <> 0 -> c_ratelimit c = true) ->
    does (gen_rule_log (c_hook c) r) s (do_log (e_or e) v r (wd s)).
  Proof.
    intros Hi Bi Bn Bl Br Hl Hrt. unfold gen_rule_log, do_log.
    destruct (N.eqb_spec (r_log r) 0) as [_|NL]; [apply does_nil; auto|].
    destruct (N.eqb_spec (r_log_rate r) 0) as [_|NR].
    { apply does_log; auto. unfold two32. lia. }
    specialize (Hl NL). specialize (Hrt NL NR).
    set (s1 := setr s R9 (VSt 0)).
    set (idx := r_index r) in *.
    set (s2 := if idx =? 0 then s1 else setr s1 R9 (VSt (0 + i32 (idx * 8)))).
    assert (I1 : inv v k0 s1) by (unfold s1; invs).
    assert (I2 : inv v k0 s2) by (unfold s2; destruct (idx =? 0); invs).
    assert (E9 : rg s2 R9 = VSt (8 * Z.of_N idx)).
    { unfold s2. destruct (N.eqb_spec idx 0) as [->|Hz]; [reflexivity|]. rewrite rg_same. f_equal.
      unfold i32. rewrite N.mod_small by (unfold two32; lia).
      rewrite (proj2 (N.ltb_lt _ _)) by (unfold two31; lia). lia. }
    assert (W2 : wd s2 = wd s) by (unfold s2; destruct (idx =? 0); reflexivity).
    set (now := o_clock (e_or e) (w_clks (wd s))).
    set (s3 := clobber (setw s2 (w_clocked (wd s2))) (VN now)).
    assert (I3 : inv v k0 s3) by (unfold s3; invs).
    assert (A8 : (Nat.eqb 8 8 && (0 <=? 8 * Z.of_N idx + 0)%Z && ((8 * Z.of_N idx + 0) mod 8 =? 0)%Z &&
                  (Z.to_N ((8 * Z.of_N idx + 0) / 8)%Z <? e_nstate e)) = true).
    { rewrite Z.add_0_r. rewrite (Z.mul_comm 8). rewrite Z.mod_mul, Z.div_mul by lia. rewrite N2Z.id.
      rewrite (rdy_nstate _ _ _ _ Hr). rewrite (proj2 (Z.leb_le _ _)) by lia.
      rewrite (proj2 (N.ltb_lt _ _)) by exact Bi. reflexivity. }
    assert (A9 : Z.to_N ((8 * Z.of_N idx + 0) / 8) = idx).
    { rewrite Z.add_0_r, (Z.mul_comm 8), Z.div_mul by lia. apply N2Z.id. }
    set (s4 := setr s3 R1 (VN (w_ts (wd s) idx))).
    set (s5 := setr s4 R2 (VN now)).
    set (df := since now (w_ts (wd s) idx)).
    set (s6 := setr s5 R2 (VN df)).
    set (s7 := setr s6 R1 (VN (r_log_rate r mod two64))).
    assert (I7 : inv v k0 s7) by (unfold s7, s6, s5, s4; invs).
    assert (PRE : forall l, frun e ([I (Ldx SDW R9 R10 (ctx_off o_statemap))] ++ l) 0 s = frun e l 0 s1).
    { intros l. cbn [app]. apply (keeps_ctx e v k0 s R9 o_statemap _ Hi ltac:(offs) ltac:(offs) (rdy_state _ _ _ _ Hr Hrt)). }
    assert (MID : forall l, frun e (((if idx =? 0 then [] else [ADD64I R9 (i32 (idx * 8))]) ++
       [I (Call HKtime); I (Ldx SDW R1 R9 0); MOV64R R2 R0;
        I (Alu true ASub R2 (Rg R1)); I (LdImm64 R1 (r_log_rate r)); I Pad]) ++ l) 0 s1 = frun e l 0 s7).
    { intros l. rewrite <- app_assoc.
      assert (X : forall l, frun e ((if idx =? 0 then [] else [ADD64I R9 (i32 (idx * 8))]) ++ l) 0 s1 = frun e l 0 s2).
      { intros l'. unfold s2. destruct (idx =? 0); [reflexivity|]. cbn [app]. apply fr_add_st. reflexivity. }
      rewrite X. cbn [app].
      assert (C1 : do_call e HKtime s2 = Some s3).
      { unfold do_call. unfold s3, now. rewrite W2. reflexivity. }
      erewrite fr_call by exact C1.
      assert (L1 : mload e (stk s3) (wd s3) (rg s3 R9) 0 (szn SDW) = Some (VN (w_ts (wd s) idx))).
      { change (rg s3 R9) with (rg s2 R9). rewrite E9. cbn [mload szn]. cbv zeta. rewrite A8, A9.
        unfold s3. cbn [wd clobber setr setw]. rewrite W2. reflexivity. }
      erewrite fr_ldx by exact L1. fold s4. rewrite fr_mov64r.
      change (rg s4 R0) with (VN now). fold s5.
      erewrite (fr_alu64 e _ _ ASub); [|discriminate|apply rg_same|reflexivity].
      rewrite fr_ldimm. reflexivity. }
    assert (R9p : forall l b, small b -> frun e (jover (Jmp true JEQ R9 (Im 0)) b ++ l) 0 s1 = frun e (b ++ l) 0 s1).
    { intros l b Sb. rewrite frun_jover with (b := false); auto. }
    assert (RJ : forall l b, small b -> frun e (jover (Jmp true JLT R2 (Rg R1)) b ++ l) 0 s7 =
        if df <? r_log_rate r then frun e l 0 s7 else frun e (b ++ l) 0 s7).
    { intros l b Sb. rewrite frun_jover with (b := df <? r_log_rate r); auto.
      erewrite do_jmp_num64; [|reflexivity|reflexivity]. cbn [jtest]. rewrite N.mod_small by exact Br. reflexivity. }
    set (body2 := [I (Stx SDW R9 R0 0)] ++ gen_log (c_hook c) r).
    assert (L2 : (length body2 <= 41)%nat).
    { unfold body2. rewrite app_length. pose proof (small_log (c_hook c) r). cbn [length]. lia. }
    assert (SB2 : small body2) by (unfold small; lia).
    assert (FULL : forall l, frun e (([I (Ldx SDW R9 R10 (ctx_off o_statemap))] ++
      jover (Jmp true JEQ R9 (Im 0))
      ((if idx =? 0 then [] else [ADD64I R9 (i32 (idx * 8))]) ++
       [I (Call HKtime); I (Ldx SDW R1 R9 0); MOV64R R2 R0;
        I (Alu true ASub R2 (Rg R1)); I (LdImm64 R1 (r_log_rate r)); I Pad] ++
       jover (Jmp true JLT R2 (Rg R1)) body2)) ++ l) 0 s =
       if df <? r_log_rate r then frun e l 0 s7 else frun e (body2 ++ l) 0 s7).
    { intros l. rewrite <- app_assoc, PRE, R9p.
      2:{ unfold small. unfold jover. destruct (idx =? 0); cbn [app length]; lia. }
      rewrite (app_assoc (if idx =? 0 then _ else _)). rewrite <- app_assoc, MID. apply RJ. exact SB2. }
    change (o_clock (e_or e) (w_clks (wd s))) with now. cbv zeta. fold idx. fold df.
    assert (W7 : wd s7 = w_clocked (wd s)).
    { unfold s7, s6, s5, s4, s3. cbn [wd clobber setr setw]. rewrite W2. reflexivity. }
    destruct (df <? r_log_rate r).
    - exists s7. split; [intros l; apply FULL|auto].
    - set (s8 := setw s7 (w_stamp (wd s7) idx now)).
      assert (I8 : inv v k0 s8) by (unfold s8; invs).
      assert (ST : mstore e s7 (rg s7 R9) 0 (szn SDW) (rg s7 R0) = Some s8).
      { change (rg s7 R9) with (rg s2 R9). rewrite E9. change (rg s7 R0) with (VN now). cbn [mstore szn]. cbv zeta.
        rewrite A8, A9. reflexivity. }
      destruct (does_log r s8 I8 Hl ltac:(fold idx; unfold two32; lia) Bl) as (s9 & K9 & I9 & W9).
      exists s9. split; [|split]; auto.
      + intros l. rewrite FULL. unfold body2. rewrite <- app_assoc. cbn [app]. erewrite fr_stx by exact ST. apply K9.
      + rewrite W9. unfold s8. cbn [wd setw]. rewrite W7. reflexivity.
  Qed.

  (** ** Verdicts *)
  Lemma verdict_code_ok f vd k : get_verdict f vd = Ok k -> kernel_code f vd = Some (imm64 k).
  Proof. destruct f, vd; cbn; intros H; try discriminate; apply Ok_inj in H; subst k; reflexivity. Qed.

  Lemma run_verdict r a s : inv v k0 s -> r_rd_ifindex r < two32 ->
    gen_rule_verdict (hook_flavor (c_hook c)) r = Ok a ->
    match decision_of r with
    | None => a = []
    | Some d => exists k w' s', finish (hook_flavor (c_hook c)) (e_or e) d (wd s) = Some (k, w') /\
        frun e a 0 s = FHalt k s' /\ wd s' = w'
    end.
  Proof.
    intros Hi Bi H. unfold gen_rule_verdict in H. unfold decision_of.
    assert (DV : forall vd, (k <- get_verdict (hook_flavor (c_hook c)) vd; Ok [MOV64I R0 k; I Exit])%res = Ok a ->
      exists k w' s', finish (hook_flavor (c_hook c)) (e_or e) (DVerdict vd) (wd s) = Some (k, w') /\
        frun e a 0 s = FHalt k s' /\ wd s' = w').
    { intros vd H'. destruct (get_verdict (hook_flavor (c_hook c)) vd) as [k|] eqn:Eg; [|discriminate]. cbn [bind] in H'.
      apply Ok_inj in H'; subst a. apply verdict_code_ok in Eg.
      exists (imm64 k), (wd s), (setr s R0 (VN (imm64 k))). cbn [finish]. rewrite Eg.
      split; [reflexivity|]. split; reflexivity. }
    destruct (r_verdict r); try (apply DV; exact H).
    - apply Ok_inj in H; congruence.
    - unfold gen_redirect in H. cbn [finish].
      assert (RD : forall z fl, imm64 z = fl ->
        a = [MOV64I R1 (i32 (r_rd_ifindex r)); MOV64I R2 z; I (Call HRedirect); I Exit] ->
        exists k w' s', Some (o_redir (e_or e) (r_rd_ifindex r) fl, w_redirect (wd s) (r_rd_ifindex r) fl) = Some (k, w') /\
          frun e a 0 s = FHalt k s' /\ wd s' = w').
      { intros z fl <- ->.
        eexists _, _, _. split; [reflexivity|]. rewrite !fr_mov64i.
        erewrite fr_call by reflexivity. erewrite fr_exit by reflexivity.
        change (rg (setr (setr s R1 (VN (imm64 (i32 (r_rd_ifindex r))))) R2 (VN (imm64 z))) R1) with (VN (imm64 (i32 (r_rd_ifindex r)))).
        cbn [wd setw setr clobber]. rewrite imm64_mod32, N.mod_small by exact Bi. split; reflexivity. }
      destruct (hook_flavor (c_hook c)) eqn:Ef; try discriminate.
      + destruct (r_rd_dir r); apply Ok_inj in H; eapply RD; eauto; reflexivity.
      + destruct (r_rd_dir r); [discriminate|]. apply Ok_inj in H. eapply RD; eauto; reflexivity.
  Qed.

  Hypothesis Wc : wf_chain c.

  (** What running the code of a rule amounts to. *)
  Definition rule_spec (r : rule) (s : st) (f : fres) : Prop :=
    let '(b, w1) := rule_matches Generated prob_threshold (e_or e) (c_sets c) v r (wd s) in
    if b then
      let w2 := effects (e_or e) v r w1 in
      match decision_of r with
      | Some d => exists k w3 s', finish (hook_flavor (c_hook c)) (e_or e) d w2 = Some (k, w3) /\ f = FHalt k s' /\ wd s' = w3
      | None => exists s', f = FNext s' /\ inv v k0 s' /\ wd s' = w2
      end
    else exists s', f = FRule s' /\ inv v k0 s' /\ wd s' = w1.

  Lemma run_rule r l s : wf_rule c r -> (forall m, In m (r_matchers r) -> key_fits c m) ->
    r_disabled r = false -> gen_rule c r = Ok l -> inv v k0 s -> rule_spec r s (frun e l 0 s).
  Proof.
    intros Wr Hq Hd H Hi. unfold gen_rule in H. rewrite Hd in H.
    destruct (gen_guards c (r_matchers r) (false, false)) as [g|] eqn:Eg; [|discriminate]. cbn [bind] in H.
    destruct (gen_matchers c (r_matchers r)) as [ms|] eqn:Em; [|discriminate]. cbn [bind] in H.
    destruct (if mark_is_set r then gen_set_mark (hook_flavor (c_hook c)) (mark_get r) else Ok []) as [mk|] eqn:Ek; [|discriminate].
    cbn [bind] in H.
    destruct (gen_rule_verdict (hook_flavor (c_hook c)) r) as [vd|] eqn:Ev; [|discriminate]. cbn [bind] in H.
    apply Ok_inj in H; subst l.
    unfold rule_spec, rule_matches.
    destruct (gen_guards_flat c _ _ _ Eg) as [ck' Eg'].
    assert (Yg : yields e v k0 g s (guards (c_sets c) v (r_matchers r)) (wd s)).
    { rewrite guards_flat. eapply (yields_check_protos e c v k0 Hr (flat_map (types_of (c_sets c)) (r_matchers r))); eauto.
      - exact (wr_compat _ _ Wr Hd).
      - intros lay Hl. destruct lay; discriminate. }
    destruct Yg as (s1 & F1 & I1 & W1).
    assert (NE1 : frun e g 0 s <> FErr) by (rewrite F1; destruct (guards _ _ _); discriminate).
    rewrite (frun_app e g _ 0 s NE1), F1.
    destruct (guards (c_sets c) v (r_matchers r)) eqn:EG; [|cbn [fbind]; exists s1; auto].
    cbn [fbind].
    assert (TH : forall m t, In m (r_matchers r) -> In t (types_of (c_sets c) m) -> there v t).
    { intros m t Hm Ht. rewrite guards_flat in EG. rewrite forallb_forall in EG.
      destruct (mtype_eq_dec t M_SET) as [->|NS]; [exact Logic.I|]. apply guard1_there; auto. apply EG.
      apply in_flat_map. eauto. }
    pose proof (yields_matchers e c v k0 Hr (wc_sets _ Wc) (wc_nsets _ Wc) (r_matchers r) ms s1 I1
      (wr_matchers _ _ Wr) Hq TH (wr_fnh _ _ Wr Hd) (wr_hook _ _ Wr Hd) Em) as Ym.
    rewrite W1 in Ym.
    destruct (match_all Generated prob_threshold (e_or e) (c_sets c) v (r_matchers r) (wd s)) as [b w1].
    cbn [fst snd] in Ym. destruct Ym as (s2 & F2 & I2 & W2).
    assert (NE2 : frun e ms 0 s1 <> FErr) by (rewrite F2; destruct b; discriminate).
    rewrite (frun_app e ms _ 0 s1 NE2), F2.
    destruct b; [|cbn [fbind]; exists s2; auto]. cbn [fbind].
    assert (DM : does mk s2 (if mark_is_set r then w_set_mark w1 (mark_get r) else w1)).
    { destruct (mark_is_set r); [rewrite <- W2; eapply does_mark; eauto|].
      apply Ok_inj in Ek; subst mk. rewrite <- W2. apply does_nil; auto. }
    destruct DM as (s3 & K3 & I3 & W3). rewrite K3.
    destruct (does_rule_log r s3 I3 (wr_index _ _ Wr) (wc_nrules _ Wc) (wr_log _ _ Wr) (wr_rate _ _ Wr)
       (wr_flog _ _ Wr Hd) (wr_frate _ _ Wr Hd)) as (s4 & K4 & I4 & W4). rewrite K4.
    assert (DC : does (if r_counters r then gen_count (r_index r) else []) s4
       (if r_counters r then w_count (wd s4) (r_index r) (v_len v) else wd s4)).
    { pose proof (wr_index _ _ Wr). pose proof (wc_nrules _ Wc).
      destruct (r_counters r); [apply does_count; auto; [lia|unfold two32; lia]|apply does_nil; auto]. }
    destruct DC as (s5 & K5 & I5 & W5). rewrite K5.
    assert (WW : wd s5 = effects (e_or e) v r w1).
    { unfold effects. rewrite W5, W4, W3. reflexivity. }
    pose proof (run_verdict r vd s5 I5 (wr_if _ _ Wr) Ev) as RV.
    rewrite <- WW. destruct (decision_of r); [exact RV|]. subst vd. exists s5. auto.
  Qed.
End R.
