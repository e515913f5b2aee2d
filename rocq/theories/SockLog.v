(** The log of the cgroup socket hooks (proofs only). *)
From Coq Require Import NArith ZArith List Bool Lia Arith.
From Verif Require Import Bytes Types World BpfModel GenModel PktSpec ViewSpec Wf ViewModel Frag BytesFacts NetFacts
  StepFacts SwichFacts SetFacts MatcherFacts MatcherFacts2 MatcherFacts3 MatcherFacts4 MatcherFacts5 MatcherFacts6
  RuleFacts SockFacts RuleFacts2.
Import ListNotations.
Local Open Scope N_scope.

Lemma rd_pad k a n x : rd_stk k a n = map MB x -> length x = n -> (n <= 16)%nat ->
  (forall z, (a + Z.of_nat n <= z < a + 16)%Z -> k z = MB 0) -> rd_stk k a 16 = map MB (pad16 x).
Proof.
  intros H L Hn Hz. replace 16%nat with (n + (16 - n))%nat by lia. rewrite rd_stk_app, H.
  unfold pad16. rewrite map_app, L. f_equal.
  assert (G : forall m b, (forall z, (b <= z < b + Z.of_nat m)%Z -> k z = MB 0) -> rd_stk k b m = map MB (repeat 0 m)).
  { clear. induction m as [|m IH]; intros b Hb; [reflexivity|].
    change (S m) with (1 + m)%nat. rewrite rd_stk_app. cbn [repeat Nat.add map].
    rewrite IH by (intros z Hz; apply Hb; lia).
    assert (E : k b = MB 0) by (apply Hb; lia).
    unfold rd_stk. cbn [zseq map app]. rewrite E. reflexivity. }
  apply G. intros z Hzz. apply Hz. lia.
Qed.

Lemma rd_zero k a n : (forall z, (a <= z < a + Z.of_nat n)%Z -> k z = MB 0) -> rd_stk k a n = map MB (repeat 0 n).
Proof.
  revert a. induction n as [|n IH]; intros b Hb; [reflexivity|].
  change (S n) with (1 + n)%nat. rewrite rd_stk_app. cbn [repeat Nat.add map].
  rewrite IH by (intros z Hz; apply Hb; lia).
  assert (E : k b = MB 0) by (apply Hb; lia).
  unfold rd_stk. cbn [zseq map app]. rewrite E. reflexivity.
Qed.

Lemma rd_wr_n k a x n : length x = n -> rd_stk (wr_stk k a (map MB x)) a n = map MB x.
Proof. intros <-. rewrite <- (map_length MB x). apply rd_wr_same. Qed.

Lemma scr_eq i : scr_off i = (i - 64)%Z.
Proof. unfold scr_off, ctx_off, o_scratch, RT_SIZE. lia. Qed.

Section L.
  Variables (e : env) (c : chain) (v : view) (k0 : stack).
  Hypothesis Hr : sready e c v k0.
  Let d := e_pkt e.
  Let h := c_hook c.

  Lemma fr_scr s u r x off l : inv v k0 s -> rg s r = VN x -> (-64 <= off)%Z -> (off + Z.of_nat (szn u) <= 0)%Z ->
    frun e (I (Stx u R10 r off) :: l) 0 s = frun e l 0 (sets s (wr_stk (stk s) off (val_bytes (VN x) (szn u)))).
  Proof.
    intros Hi Hx H1 H2. apply fr_stx. rewrite (i_r10 _ _ _ Hi), Hx. cbn [mstore]. rewrite Z.add_0_l. unfold stk_ok.
    rewrite (proj2 (Z.leb_le _ _)), (proj2 (Z.leb_le _ _)) by lia. reflexivity.
  Qed.

  Lemma fr_scr0 s off l : inv v k0 s -> (-64 <= off)%Z -> (off + 8 <= 0)%Z ->
    frun e (I (St SDW R10 off 0) :: l) 0 s = frun e l 0 (sets s (wr_stk (stk s) off (val_bytes (VN 0) 8))).
  Proof.
    intros Hi H1 H2. apply fr_st. rewrite (i_r10 _ _ _ Hi). cbn [mstore]. rewrite Z.add_0_l. unfold stk_ok. cbn [szn].
    rewrite (proj2 (Z.leb_le _ _)), (proj2 (Z.leb_le _ _)) by lia. reflexivity.
  Qed.

  Lemma nth_repeat_lt {A} (x y : A) n : forall i, (i < n)%nat -> nth i (repeat x n) y = x.
  Proof. induction n as [|n IH]; intros [|i] Hi; cbn; auto; try lia. apply IH. lia. Qed.

  Lemma wr_zero k a z : wr_stk k a (val_bytes (VN 0) 8) z = if ((a <=? z) && (z <? a + 8))%Z then MB 0 else k z.
  Proof.
    destruct (Z.leb_spec a z); destruct (Z.ltb_spec z (a + 8)); cbn [andb].
    2,3,4: apply wr_stk_out; rewrite val_bytes_length; lia.
    unfold wr_stk. rewrite val_bytes_length.
    rewrite (proj2 (Z.leb_le _ _)), (proj2 (Z.ltb_lt _ _)) by lia. cbn [andb].
    change (val_bytes (VN 0) 8) with (repeat (MB 0) 8). apply nth_repeat_lt. lia.
  Qed.

  (** The record is zeroed first. *)
  Lemma does_zero s : inv v k0 s ->
    exists s', keeps e v k0 (map (fun i => I (St SDW R10 (scr_off i) 0)) [0; 8; 16; 24; 32]%Z) s s' /\
      inv v k0 s' /\ wd s' = wd s /\
      (forall z, (-64 <= z < -24)%Z -> stk s' z = MB 0).
  Proof.
    intros Hi. eexists. sp.
    - intros l. cbn [map app]. rewrite !scr_eq.
      do 5 (rewrite fr_scr0; [|solve [repeat (first [exact Hi | apply inv_scratch; [lia|]])]|lia|lia]).
      reflexivity.
    - repeat (first [exact Hi | apply inv_scratch; [lia|]]).
    - reflexivity.
    - intros z Hz. cbn [stk sets]. rewrite !wr_zero.
      repeat match goal with |- context [(?a <=? z)%Z] => destruct (Z.leb_spec a z); cbn [andb]
             | |- context [(z <? ?a)%Z] => destruct (Z.ltb_spec z a); cbn [andb] end; try reflexivity; lia.
  Qed.

  Lemma does_sa_copy o dst n s : (n = 4 \/ n = 16)%nat -> (o mod 4 = 0)%nat -> readable h o n -> (o + n <= 72)%nat ->
    (-64 <= dst)%Z -> (dst + Z.of_nat n <= 0)%Z -> inv v k0 s ->
    exists s', keeps e v k0 (sa_copy o dst n) s s' /\ inv v k0 s' /\ wd s' = wd s /\
      rd_stk (stk s') dst n = map MB (sub d o n) /\
      (forall z, (z < dst \/ dst + Z.of_nat n <= z)%Z -> stk s' z = stk s z).
  Proof.
    intros Hn Hm Ra Hl H1 H2 Hi.
    pose proof (sock_len e c v k0 Hr) as L. pose proof (sd_bytes _ _ _ _ Hr) as B. fold d in L, B.
    unfold sa_copy.
    destruct (sa_load o n) as [a|] eqn:Ha.
    2:{ exfalso. unfold sa_load in Ha. destruct Hn as [ -> | -> ]; [discriminate|destruct (Nat.eqb _ _) in Ha; discriminate]. }
    destruct (keeps_sload e c v k0 Hr o n s a Hn Hm Ra Hl Hi Ha) as (s1 & K1 & I1 & W1 & S1 & V1 & V2).
    fold d in V1, V2.
    destruct Hn as [ -> | -> ]; cbn [sa_store].
    - specialize (V1 eq_refl).
      exists (sets s1 (wr_stk (stk s1) dst (val_bytes (VN (le_dec (sub d o 4))) 4))). sp.
      + eapply keeps_app; [exact K1|]. intros l. cbn [app]. apply fr_scr; auto.
      + apply inv_scratch; auto.
      + exact W1.
      + cbn [stk sets]. rewrite val_bytes_dec by (try apply bytes_sub; auto; apply sub_length; lia).
        apply rd_wr_n. apply sub_length. lia.
      + intros z Hz. cbn [stk sets]. rewrite wr_stk_out by (rewrite val_bytes_length; lia). rewrite S1. reflexivity.
    - destruct (V2 eq_refl) as [E1 E2].
      set (k1 := wr_stk (stk s1) dst (val_bytes (VN (le_dec (sub d o 8))) 8)).
      set (k2 := wr_stk k1 (dst + 8) (val_bytes (VN (le_dec (sub d (o + 8) 8))) 8)).
      assert (Q1 : rd_stk k1 dst 8 = map MB (sub d o 8)).
      { unfold k1. rewrite val_bytes_dec by (try apply bytes_sub; auto; apply sub_length; lia).
        apply rd_wr_n. apply sub_length. lia. }
      assert (Q2 : rd_stk k2 (dst + 8) 8 = map MB (sub d (o + 8) 8)).
      { unfold k2. rewrite val_bytes_dec by (try apply bytes_sub; auto; apply sub_length; lia).
        apply rd_wr_n. apply sub_length. lia. }
      exists (sets s1 k2). sp.
      + eapply keeps_app; [exact K1|]. intros l. cbn [app].
        rewrite (fr_scr s1 SDW R1 (le_dec (sub d o 8))) by (auto; cbn [szn]; lia). cbn [szn]. fold k1.
        rewrite (fr_scr (sets s1 k1) SDW R2 (le_dec (sub d (o + 8) 8))); [reflexivity| |exact E2|lia|cbn [szn]; lia].
        unfold k1. apply inv_scratch; auto.
      + unfold k2. change (sets s1 (wr_stk k1 (dst + 8) (val_bytes (VN (le_dec (sub d (o + 8) 8))) 8)))
          with (sets (sets s1 k1) (wr_stk (stk (sets s1 k1)) (dst + 8) (val_bytes (VN (le_dec (sub d (o + 8) 8))) 8))).
        apply inv_scratch; [lia|]. unfold k1. apply inv_scratch; auto.
      + exact W1.
      + cbn [stk sets]. change 16%nat with (8 + 8)%nat. rewrite rd_stk_app, sub_app, map_app. f_equal; [|exact Q2].
        rewrite <- Q1. unfold k2. apply rd_wr_out. left. lia.
      + intros z Hz. cbn [stk sets]. unfold k2. rewrite wr_stk_out by (rewrite val_bytes_length; lia).
        unfold k1. rewrite wr_stk_out by (rewrite val_bytes_length; lia). rewrite S1. reflexivity.
  Qed.

  (** The call of the stub, with the record in the scratch area. *)
  Lemma does_stub r fields src dst port s : inv v k0 s -> c_log c = true -> r_index r < two32 ->
    rd_stk (stk s) (scr_off 0) 16 = map MB src -> rd_stk (stk s) (scr_off 16) 16 = map MB dst ->
    rd_stk (stk s) (scr_off 32) 2 = map MB port ->
    v_sock v = Some (mkSk (if N.testbit (imm64 fields) 0 then Some src else None) dst (le_dec port)) ->
    does e v k0
      [MOV64R R1 R10; ADD64I R1 (ctx_off o_arg); MOV64I R2 (i32 (r_index r));
       MOV64I R3 (Z.of_N (verdict_id (r_verdict r)));
       MOV64R R4 R7; LSH64I R4 16; I (Alu true AOr R4 (Rg R8));
       MOV64I R5 fields; I (Call StubSockLog)] s (log_packet (e_or e) v r (wd s)).
  Proof.
    intros Hi Hl Bi Q1 Q2 Q3 Vs.
    set (P := N.lor (swap16 (v_l3 v) * 65536) (v_l4 v)).
    pose proof (rdy_l3 _ _ _ _ (Rdy_sock _ _ _ _ Hr)) as B3. pose proof (rdy_l4 _ _ _ _ (Rdy_sock _ _ _ _ Hr)) as B4.
    pose proof (swap16_lt (v_l3 v)) as BS.
    assert (RUN : exists s1, (forall l, frun e (
        [MOV64R R1 R10; ADD64I R1 (ctx_off o_arg); MOV64I R2 (i32 (r_index r));
         MOV64I R3 (Z.of_N (verdict_id (r_verdict r)));
         MOV64R R4 R7; LSH64I R4 16; I (Alu true AOr R4 (Rg R8)); MOV64I R5 fields] ++ l) 0 s = frun e l 0 s1) /\
        inv v k0 s1 /\ wd s1 = wd s /\ stk s1 = stk s /\
        rg s1 R1 = VStk (ctx_off o_arg) /\ rg s1 R2 = VN (imm64 (i32 (r_index r))) /\
        rg s1 R3 = VN (verdict_id (r_verdict r)) /\ rg s1 R4 = VN P /\ rg s1 R5 = VN (imm64 fields)).
    { eexists. split; [|split; [|split; [|split; [|split; [|split; [|split; [|split]]]]]]].
      - intros l. cbn [app]. rewrite fr_mov64r.
        erewrite fr_add_stk by (rewrite rg_same; exact (i_r10 _ _ _ Hi)). rewrite Z.add_0_l.
        rewrite !fr_mov64i, fr_mov64r. rewrite !rg_other by reflexivity. rewrite (i_r7 _ _ _ Hi).
        unfold LSH64I. erewrite (fr_alu64 e _ _ ALsh); [|discriminate|apply rg_same|reflexivity].
        erewrite (fr_alu64 e _ _ AOr); [|discriminate|apply rg_same|
          cbn [opval]; rewrite !rg_other by reflexivity; exact (i_r8 _ _ _ Hi)].
        rewrite fr_mov64i. reflexivity.
      - invs.
      - reflexivity.
      - reflexivity.
      - reflexivity.
      - reflexivity.
      - cbn [rg setr reg_eqb]. destruct (r_verdict r); reflexivity.
      - cbn [rg setr reg_eqb]. unfold P. cbn [alu64]. change (imm64 16 mod 64) with 16.
        rewrite (shiftl16 c) by exact BS. reflexivity.
      - reflexivity. }
    destruct RUN as (s1 & K1 & I1 & W1 & S1 & E1 & E2 & E3 & E4 & E5).
    assert (C : do_call e StubSockLog s1 =
      Some (clobber (setw s1 (log_packet (e_or e) v r (wd s1))) (VN (if o_ring (e_or e) (w_rings (wd s1)) then 0 else 1)))).
    { unfold do_call, stub_sock_log. rewrite E1, E2, E3, E4, E5. cbv iota beta.
      change (ctx_off o_arg + o_logmap)%Z with (ctx_off o_logmap).
      change (ctx_off o_arg + o_scratch)%Z with (scr_off 0).
      change (scr_off 0 + 16)%Z with (scr_off 16). change (scr_off 0 + 32)%Z with (scr_off 32).
      rewrite (slot_load c v k0 s1 (ctx_off o_logmap) 8%nat _ I1 ltac:(offs) (sd_log _ _ _ _ Hr Hl)). cbv zeta.
      unfold log_packet. destruct (o_ring (e_or e) (w_rings (wd s1))); [|reflexivity].
      rewrite S1, Q1, Q2, Q3, !all_num_map.
      rewrite imm64_mod32, (N.mod_small (r_index r)) by exact Bi.
      unfold P. rewrite (protos_l3 c), (protos_l4 c), swap16_invol by assumption.
      replace (verdict_id (r_verdict r) mod two32) with (verdict_id (r_verdict r)) by (destruct (r_verdict r); reflexivity).
      rewrite Vs. replace (v_len v) with 0 by (rewrite (sd_view _ _ _ _ Hr); reflexivity).
      reflexivity. }
    eexists. split; [|split].
    - intros l. match goal with |- frun e (?x ++ l) 0 s = _ =>
        change (x ++ l) with ([MOV64R R1 R10; ADD64I R1 (ctx_off o_arg); MOV64I R2 (i32 (r_index r));
          MOV64I R3 (Z.of_N (verdict_id (r_verdict r)));
          MOV64R R4 R7; LSH64I R4 16; I (Alu true AOr R4 (Rg R8)); MOV64I R5 fields] ++ (I (Call StubSockLog) :: l)) end.
      rewrite K1. erewrite fr_call by exact C. reflexivity.
    - invs.
    - cbn [wd clobber setr setw]. rewrite W1. reflexivity.
  Qed.

  Lemma does_sa_log r saddr daddr n s : inv v k0 s -> c_log c = true -> r_index r < two32 ->
    (n = 4 \/ n = 16)%nat -> (daddr mod 4 = 0)%nat -> readable h daddr n -> (daddr + n <= 72)%nat ->
    (forall o, saddr = Some o -> (o mod 4 = 0)%nat /\ readable h o n /\ (o + n <= 72)%nat) ->
    sock_info h d = mkSk (option_map (fun o => pad16 (sub d o n)) saddr) (pad16 (sub d daddr n)) (be_dec (sub d 24 2)) ->
    does e v k0 (sa_log saddr daddr n r) s (log_packet (e_or e) v r (wd s)).
  Proof.
    intros Hi Hl Bi Hn Hm Ra Hd Hs Hinfo.
    pose proof (sock_len e c v k0 Hr) as L. pose proof (sd_bytes _ _ _ _ Hr) as B. fold d in L, B.
    assert (Nle : (n <= 16)%nat) by lia.
    destruct (does_zero s Hi) as (s1 & K1 & I1 & W1 & Z1).
    (* the source *)
    assert (C : exists s2 src, keeps e v k0 (match saddr with Some o => sa_copy o (scr_off 0) n | None => [] end) s1 s2 /\
      inv v k0 s2 /\ wd s2 = wd s1 /\ rd_stk (stk s2) (scr_off 0) 16 = map MB src /\
      (forall o, saddr = Some o -> src = pad16 (sub d o n)) /\
      (forall z, (-48 <= z < -24)%Z -> stk s2 z = MB 0)).
    { destruct saddr as [o|].
      - destruct (Hs o eq_refl) as (Om & Or & Ol).
        destruct (does_sa_copy o (scr_off 0) n s1 Hn Om Or Ol) as (s2 & K2 & I2 & W2 & D2 & O2);
          rewrite ?scr_eq in *; auto; try lia.
        exists s2, (pad16 (sub d o n)). sp; auto.
        + eapply rd_pad; [exact D2|apply sub_length; lia|exact Nle|].
          intros z Hz. rewrite O2 by lia. apply Z1. lia.
        + intros o' E. injection E as <-. reflexivity.
        + intros z Hz. rewrite O2 by lia. apply Z1. lia.
      - exists s1, (repeat 0 16). sp; auto.
        + intros l. reflexivity.
        + apply rd_zero. rewrite scr_eq. intros z Hz. apply Z1. lia.
        + discriminate.
        + intros z Hz. apply Z1. lia. }
    destruct C as (s2 & src & K2 & I2 & W2 & D2 & Src & Z2).
    destruct (does_sa_copy daddr (scr_off 16) n s2 Hn Hm Ra Hd) as (s3 & K3 & I3 & W3 & D3 & O3);
      rewrite ?scr_eq in *; auto; try lia.
    assert (Q1 : rd_stk (stk s3) (0 - 64) 16 = map MB src).
    { rewrite <- D2. apply rd_stk_ext. intros z Hz. apply O3. lia. }
    assert (Q2 : rd_stk (stk s3) (16 - 64) 16 = map MB (pad16 (sub d daddr n))).
    { eapply rd_pad; [exact D3|apply sub_length; lia|exact Nle|].
      intros z Hz. rewrite O3 by lia. apply Z2. lia. }
    (* the port *)
    set (p := be_dec (sub d 24 2)).
    assert (Bp : p < 65536) by (unfold p; rewrite <- swap16_sub2 by (auto; lia); apply swap16_lt).
    set (s4 := setr (setr s3 R1 (VN (le_dec (sub d 24 2)))) R1 (VN p)).
    assert (I4 : inv v k0 s4) by (unfold s4; invs).
    set (s5 := sets s4 (wr_stk (stk s4) (32 - 64) (val_bytes (VN p) 2))).
    assert (I5 : inv v k0 s5) by (unfold s5; apply inv_scratch; [lia|exact I4]).
    assert (K5 : keeps e v k0 [I (Ldx SW R1 R6 (Z.of_nat sa_user_port)); I (Bswap16 R1); I (Stx SH R10 R1 (32 - 64))] s3 s5).
    { intros l. cbn [app].
      assert (A : sock_access h sa_user_port (szn SW) = true).
      { apply (readable_port h sa_user_port SW); cbn; auto. }
      rewrite (fr_sload e c v k0 Hr s3 SW R1 sa_user_port) by assumption. fold d. cbn [szn].
      change (le_dec (sub d sa_user_port 4)) with (le_dec (sub d 24 4)).
      pose proof (port_value e c v k0 Hr) as PV. fold d in PV. rewrite PV.
      erewrite fr_bswap by apply rg_same. rewrite swap16_sub2 by (auto; lia). fold p.
      rewrite (fr_scr _ SH R1 p); [|invs|apply rg_same|lia|cbn [szn]; lia].
      reflexivity. }
    assert (T : (0 - 64 + 16 <= 32 - 64)%Z /\ (16 - 64 + 16 <= 32 - 64)%Z) by lia.
    assert (Q1' : rd_stk (stk s5) (0 - 64) 16 = map MB src).
    { rewrite <- Q1. unfold s5. cbn [stk sets]. apply rd_wr_out. left. lia. }
    assert (Q2' : rd_stk (stk s5) (16 - 64) 16 = map MB (pad16 (sub d daddr n))).
    { rewrite <- Q2. unfold s5. cbn [stk sets]. apply rd_wr_out. left. lia. }
    assert (Q3' : rd_stk (stk s5) (32 - 64) 2 = map MB (le_enc 2 p)).
    { unfold s5. cbn [stk sets]. change 2%nat with (length (val_bytes (VN p) 2)) at 2. apply rd_wr_same. }
    destruct (does_stub r (match saddr with Some _ => 1%Z | None => 0%Z end) src (pad16 (sub d daddr n)) (le_enc 2 p) s5)
      as (s6 & K6 & I6 & W6); rewrite ?scr_eq; auto.
    { rewrite (sd_view _ _ _ _ Hr). cbn [sock_view v_sock]. fold h d. rewrite Hinfo. f_equal.
      rewrite le_dec_enc. change (256 ^ N.of_nat 2) with 65536. rewrite N.mod_small by exact Bp. fold p.
      f_equal. destruct saddr as [o|]; [|reflexivity]. cbn [option_map]. rewrite (Src o eq_refl). reflexivity. }
    exists s6. sp; auto.
    - unfold sa_log. rewrite !scr_eq.
      eapply keeps_app; [exact K1|]. eapply keeps_app; [exact K2|]. eapply keeps_app; [exact K3|].
      intros l. rewrite <- (K6 l), <- (K5 _). reflexivity.
    - rewrite W6. f_equal. unfold s5, s4. cbn [wd sets setr]. congruence.
  Qed.

  Lemma does_sock_log r s : inv v k0 s -> c_log c = true -> r_index r < two32 ->
    does e v k0 (gen_log h r) s (log_packet (e_or e) v r (wd s)).
  Proof.
    intros Hi Hl Bi. pose proof (sd_chain _ _ _ _ Hr) as Hf. fold h in Hf.
    assert (X : forall saddr daddr n,
      gen_log h r = sa_log saddr daddr n r ->
      (n = 4 \/ n = 16)%nat -> (daddr mod 4 = 0)%nat -> readable h daddr n -> (daddr + n <= 72)%nat ->
      (forall o, saddr = Some o -> (o mod 4 = 0)%nat /\ readable h o n /\ (o + n <= 72)%nat) ->
      sock_info h d = mkSk (option_map (fun o => pad16 (sub d o n)) saddr) (pad16 (sub d daddr n)) (be_dec (sub d 24 2)) ->
      does e v k0 (gen_log h r) s (log_packet (e_or e) v r (wd s))).
    { intros saddr daddr n -> . intros. eapply does_sa_log; eauto. }
    destruct h eqn:Eh; try discriminate.
    - apply (X None sa_user_ip4 4%nat); auto; try reflexivity; try (cbv; lia); try discriminate.
      apply readable_dst4; reflexivity.
    - apply (X None sa_user_ip6 16%nat); auto; try reflexivity; try (cbv; lia); try discriminate.
      apply readable_dst6; reflexivity.
    - apply (X (Some sa_src_ip4) sa_user_ip4 4%nat); auto; try reflexivity; try (cbv; lia).
      + apply readable_dst4; reflexivity.
      + intros o E. injection E as <-. split; [reflexivity|]. split; [apply readable_src4|cbv; lia].
    - apply (X (Some sa_src_ip6) sa_user_ip6 16%nat); auto; try reflexivity; try (cbv; lia).
      + apply readable_dst6; reflexivity.
      + intros o E. injection E as <-. split; [reflexivity|]. split; [apply readable_src6|cbv; lia].
  Qed.
End L.
