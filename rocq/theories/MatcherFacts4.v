(** meta.sport/dport, flow probability, mark and flow hash (proofs only). *)
From Coq Require Import NArith ZArith List Bool Lia Arith.
From Verif Require Import Bytes Types World BpfModel GenModel PktSpec Frag BytesFacts NetFacts StepFacts
  SwichFacts MatcherFacts MatcherFacts2 MatcherFacts3.
Import ListNotations.
Local Open Scope N_scope.

Ltac offs := unfold ctx_off, RT_SIZE, o_arg, o_dynptr, o_logmap, o_statemap, o_pktsize, o_eh, o_l2size,
  o_l3size, o_l4size, o_l3off, o_l4off, o_ifindex, o_l2hdr, o_l3hdr, o_l4hdr, o_l2, o_l3, o_l4, o_scratch in *;
  cbn [szn] in *; lia.

Definition is_port (v : view) : bool := has_tcp v || has_udp v.

Lemma yields_metaport e c v k0 s m l : ready e c v k0 -> inv v k0 s ->
  (m_type m = M_SPORT \/ m_type m = M_DPORT) ->
  gen_meta_port m = Ok l -> bytes (m_pay m) ->
  (m_op m = OP_EQ /\ length (m_pay m) = 2%nat \/ m_op m = OP_RANGE /\ length (m_pay m) = 4%nat) ->
  yields e v k0 l s
   (if is_port v && negb (be_dec (fld v (m_type m)) =? 0) then xorb (m_neg m)
    (match m_op m with
     | OP_RANGE => in_range (be_dec (fld v (m_type m))) (le_dec (sub (m_pay m) 0 2)) (le_dec (sub (m_pay m) 2 2))
     | _ => bytes_eqb (fld v (m_type m)) (m_pay m) end) else false) (wd s).
Proof.
  intros Hr Hi Hty H Hb Hop. unfold gen_meta_port in H. cbv zeta in H.
  set (o := match m_type m with M_SPORT => 0%Z | _ => 2%Z end) in *.
  set (on := match m_type m with M_SPORT => 0%nat | _ => 2%nat end).
  assert (Eo : o = Z.of_nat on) by (unfold o, on; destruct Hty as [->| ->]; reflexivity).
  assert (Ho : (on + 2 <= 4)%nat) by (unfold on; destruct Hty as [->| ->]; lia).
  assert (Ef : fld v (m_type m) = sub (v_h4 v) on 2) by (unfold on; destruct Hty as [->| ->]; reflexivity).
  clearbody o on. subst o.
  set (opts := [(IPPROTO_TCP, [Ldx SH R1 R6 (Z.of_nat on)]); (IPPROTO_UDP, [Ldx SH R1 R6 (Z.of_nat on)])]) in *.
  set (sw := swich R8 opts (Some [Alu true AMov R1 (Im 0)])) in *.
  set (s1 := setr s R6 (stk_load k0 (ctx_off o_l4hdr) 8)).
  assert (I1 : inv v k0 s1) by (unfold s1; invs).
  assert (L1 : forall r, frun e (I (Ldx SDW R6 R10 (ctx_off o_l4hdr)) :: r) 0 s = frun e r 0 s1).
  { intros. apply (keeps_ctx e v k0 s R6 o_l4hdr); auto; offs. }
  (* the switch *)
  set (x := if is_port v then le_dec (sub (v_h4 v) on 2) else 0).
  assert (Lh : is_port v = true -> (4 <= length (v_h4 v))%nat /\ v_l4 v <> 0).
  { unfold is_port, has_tcp, has_udp. intros Hp. apply orb_true_iff in Hp as [Hp|Hp]; apply N.eqb_eq in Hp.
    - rewrite (rd_nt _ _ _ _ Hr) by exact Hp. split; [lia|rewrite Hp; discriminate].
    - rewrite (rd_nu _ _ _ _ Hr) by (left; exact Hp). split; [lia|rewrite Hp; discriminate]. }
  assert (SW : forall rest, frun e (sw ++ rest) 0 s1 = frun e rest 0 (setr s1 R1 (VN x))).
  { intros rest. unfold sw.
    assert (B : frun e (map I (swich_pick (v_l4 v) opts [Alu true AMov R1 (Im 0)])) 0 s1 = FNext (setr s1 R1 (VN x))).
    { assert (LD : is_port v = true -> frun e [I (Ldx SH R1 R6 (Z.of_nat on))] 0 s1 = FNext (setr s1 R1 (VN x))).
      { intros Hp. destruct (Lh Hp) as [Hl4 Hn4].
        erewrite fr_ldx; [reflexivity|]. change (rg s1 R6) with (stk_load k0 (ctx_off o_l4hdr) 8).
        unfold x. rewrite Hp. apply (rd_h4 _ _ _ _ Hr Hn4); [apply (i_stk _ _ _ I1)|cbn [szn]; lia]. }
      unfold swich_pick, opts. cbn [find fst].
      change IPPROTO_TCP with 6 in *. change IPPROTO_UDP with 17 in *.
      unfold is_port, has_tcp, has_udp in LD, x.
      destruct (v_l4 v =? 6); [exact (LD eq_refl)|].
      destruct (v_l4 v =? 17); [exact (LD eq_refl)|]. reflexivity. }
    rewrite frun_swich with (x := v_l4 v).
    - rewrite B. reflexivity.
    - exact (i_r8 _ _ _ I1).
    - repeat constructor.
    - reflexivity.
    - rewrite B. discriminate. }
  assert (PRE : forall rest w', (is_port v = true -> yields e v k0 rest (setr s1 R1 (VN x)) w' (wd s)) ->
     yields e v k0 (([I (Ldx SDW R6 R10 (ctx_off o_l4hdr))] ++ sw ++ [J (Jmp true JEQ R1 (Im 0) 0)]) ++ rest) s
       (if is_port v && negb (be_dec (fld v (m_type m)) =? 0) then w' else false) (wd s)).
  { intros rest w' Y. rewrite <- !app_assoc. cbn [app]. eapply yields_cons; [exact L1|].
    unfold yields. rewrite SW.
    assert (J0 : do_jmp (setr s1 R1 (VN x)) true JEQ R1 (Im 0) = Some (x =? 0)).
    { erewrite do_jmp_num64; [reflexivity|apply rg_same|reflexivity]. }
    erewrite fr_J by exact J0.
    destruct (is_port v) eqn:Hp.
    - destruct (Lh eq_refl) as [Hl4 _]. cbn [andb].
      assert (Ex : be_dec (fld v (m_type m)) = swap16 x) by (unfold x; rewrite Ef; symmetry; apply swap16_sub2; [apply (rd_b4 _ _ _ _ Hr)|lia]).
      assert (Bx : x < 65536) by (unfold x; apply le2_bound; [apply (rd_b4 _ _ _ _ Hr)|lia]).
      assert (Z : (be_dec (fld v (m_type m)) =? 0) = (x =? 0)).
      { rewrite Ex. change 0 with (swap16 0) at 1. apply swap16_eqb; [exact Bx|reflexivity]. }
      rewrite Z. destruct (x =? 0); cbn [negb].
      + eexists. split; [reflexivity|]. split; [unfold s1; invs|reflexivity].
      + exact (Y eq_refl).
    - change x with 0. cbn. eexists. split; [reflexivity|]. split; [unfold s1; invs|reflexivity]. }
  destruct Hop as [[Hop Hl]|[Hop Hl]]; rewrite Hop in *.
  - destruct (cmp_value m (m_pay m) 2 R1) as [b|] eqn:Hc; [|discriminate]. cbn [bind] in H.
    apply Ok_inj in H; subst l. apply PRE. intros Hp. destruct (Lh Hp) as [Hl4 _].
    change (wd s) with (wd (setr s1 R1 (VN x))).
    eapply yields_eq; [eapply yields_cmp_value; eauto|].
    + invs.
    + apply rg_same.
    + lia.
    + f_equal. rewrite firstn_all2 by lia. unfold x. rewrite Hp, Ef. apply le_dec_eqb; auto.
      * apply bytes_sub. apply (rd_b4 _ _ _ _ Hr).
      * rewrite sub_length; lia.
  - apply Ok_inj in H; subst l. apply PRE. intros Hp. destruct (Lh Hp) as [Hl4 _].
    cbn [app]. eapply yields_cons; [intros; eapply fr_bswap; apply rg_same|].
    unfold x. rewrite Hp, swap16_sub2, Ef by (try apply (rd_b4 _ _ _ _ Hr); lia).
    assert (T : forall o, (o + 2 <= length (m_pay m))%nat -> le_dec (sub (m_pay m) o 2) < two32).
    { intros. eapply N.lt_trans; [apply le2_bound; auto|reflexivity]. }
    match goal with |- yields _ _ _ _ ?s2 _ _ => change (wd s) with (wd s2) end.
    apply yields_range; try apply rg_same; try (apply T; lia).
    + invs.
    + eapply N.lt_trans; [|exact (eq_refl : 65536 < two32)].
      rewrite <- swap16_sub2 by (try apply (rd_b4 _ _ _ _ Hr); lia). apply swap16_lt.
Qed.

(** ** Flow probability *)
Lemma mbytes_reads e k0 p h k w : reads e k0 p h -> agree k k0 -> forall n off,
  (off + n <= length h)%nat -> mbytes e k w p (Z.of_nat off) n = Some (sub h off n).
Proof.
  intros Hr Ha. induction n; intros off H; cbn [mbytes].
  - reflexivity.
  - rewrite Hr by (auto; lia). rewrite sub_1 by lia. cbn [le_dec].
    replace (Z.of_nat off + 1)%Z with (Z.of_nat (S off)) by lia. rewrite IHn by lia.
    f_equal. rewrite N.mul_0_r, N.add_0_r.
    change (S n) with (1 + n)%nat. rewrite sub_app, sub_1 by lia. rewrite Nat.add_1_r. reflexivity.
Qed.

Lemma lxor_lt a b n : a < 2 ^ n -> b < 2 ^ n -> N.lxor a b < 2 ^ n.
Proof.
  intros Ha Hb. destruct (N.eq_dec (N.lxor a b) 0) as [->|Hz]; [lia|].
  apply N.log2_lt_pow2; [lia|].
  eapply N.le_lt_trans; [apply N.log2_lxor|].
  destruct (N.eq_dec a 0) as [->|Na]; destruct (N.eq_dec b 0) as [->|Nb].
  - exfalso. apply Hz. reflexivity.
  - rewrite N.max_r by (cbn; lia). apply N.log2_lt_pow2; lia.
  - rewrite N.max_l by (cbn; lia). apply N.log2_lt_pow2; lia.
  - apply N.max_lub_lt; apply N.log2_lt_pow2; lia.
Qed.

Lemma flow_hash_lt a b h3 h4 : flow_hash a b h3 h4 < two32.
Proof.
  unfold flow_hash, avalanche. cbv zeta.
  match goal with |- N.lxor (?x mod two32) _ < _ => set (y := x); pose proof (N.mod_upper_bound y two32 ltac:(discriminate)) as B end.
  change two32 with (2 ^ 32) at 3. apply lxor_lt; [exact B|].
  rewrite N.shiftr_div_pow2. eapply N.le_lt_trans; [|exact B].
  apply N.div_le_upper_bound; [discriminate|]. change (2 ^ 16) with 65536.
  generalize (y mod two32). intros. lia.
Qed.

Lemma flow_hash_h4 a b h3 h4 : (4 <= length h4)%nat ->
  flow_hash a b h3 (sub h4 0 4) = flow_hash a b h3 h4.
Proof.
  intros H. unfold flow_hash, w16. rewrite !sub_sub by lia. cbn [Nat.add]. reflexivity.
Qed.

Lemma yields_flow_prob e c v k0 s m l t : ready e c v k0 -> inv v k0 s ->
  gen_flow_probability m = Ok l -> prob_threshold (m_pay m) = Some t ->
  yields e v k0 l s
    (if present v M_FLOW_PROBABILITY then xorb (m_neg m) (v_fhash v <=? t) else false) (wd s).
Proof.
  intros Hr Hi H Ht. unfold gen_flow_probability in H. rewrite Ht in H. apply Ok_inj in H; subst l.
  pose proof (trunc_bound _ _ Ht) as Bt.
  pose proof (i_r7 _ _ _ Hi) as H7. pose proof (i_r8 _ _ _ Hi) as H8.
  cbn [present]. unfold has_ip4, has_ip6, has_tcp, has_udp.
  assert (J3 : forall p, p < 65536 -> do_jmp s true JEQ R7 (Im (i32 (swap16 p))) = Some (v_l3 v =? p)).
  { intros p Bp. erewrite do_jmp_num64; [|exact H7|reflexivity]. cbn [jtest].
    rewrite imm64_i32 by (eapply N.lt_trans; [apply swap16_lt|reflexivity]).
    rewrite swap16_eqb; auto. apply (rd_l3 _ _ _ _ Hr). }
  assert (J4 : forall p, p < 256 -> do_jmp s true JEQ R8 (Im (i32 p)) = Some (v_l4 v =? p)).
  { intros p Bp. erewrite do_jmp_num64; [|exact H8|reflexivity]. cbn [jtest].
    rewrite imm64_i32 by (unfold two31; lia). reflexivity. }
  unfold yields.
  change 2%Z with (Z.of_nat 2). change 1%Z with (Z.of_nat 1).
  erewrite fr_I by (apply J3; reflexivity). erewrite fr_I by (apply J3; reflexivity).
  change 0x0800 with ETH_P_IP. change 0x86DD with ETH_P_IPV6.
  set (tl := I (Jmp true JEQ R8 (Im (i32 IPPROTO_TCP)) (Z.of_nat 2)) :: _).
  assert (T : exists s', frun e tl 0 s =
     (if (v_l3 v =? ETH_P_IP) || (v_l3 v =? ETH_P_IPV6) then
       if (v_l4 v =? 6) || (v_l4 v =? 17) then
        (if xorb (m_neg m) (v_fhash v <=? t) then FNext s' else FRule s')
        else FRule s' else frun e tl 0 s) /\ inv v k0 s' /\ wd s' = wd s).
  { destruct ((v_l3 v =? ETH_P_IP) || (v_l3 v =? ETH_P_IPV6)) eqn:P3; [|exists s; auto].
    unfold tl. erewrite fr_I by (apply J4; reflexivity). erewrite fr_I by (apply J4; reflexivity).
    change IPPROTO_TCP with 6. change IPPROTO_UDP with 17.
    set (tl2 := MOV64R R1 R10 :: _).
    assert (T2 : (v_l4 v =? 6) || (v_l4 v =? 17) = true -> exists s', frun e tl2 0 s =
        (if xorb (m_neg m) (v_fhash v <=? t) then FNext s' else FRule s') /\ inv v k0 s' /\ wd s' = wd s).
    { intros P4. unfold tl2.
      assert (PF : present v M_FLOW_PROBABILITY = true).
      { cbn [present]. unfold has_ip4, has_ip6, has_tcp, has_udp. rewrite P4.
        change 0x0800 with ETH_P_IP. change 0x86DD with ETH_P_IPV6. rewrite P3. reflexivity. }
      pose proof (rd_fhash _ _ _ _ Hr PF) as EF.
      rewrite fr_mov64r, (i_r10 _ _ _ Hi).
      erewrite fr_add_stk by apply rg_same.
      rewrite fr_mov64r, fr_mov64r.
      set (s3 := setr _ R3 _).
      assert (I3 : inv v k0 s3) by (unfold s3; invs).
      assert (E1 : rg s3 R1 = VStk (0 + - RT_SIZE)) by reflexivity.
      assert (E2 : rg s3 R2 = VN (swap16 (v_l3 v))).
      { unfold s3. repeat rewrite rg_other by reflexivity. rewrite rg_same.
        repeat rewrite rg_other by reflexivity. exact H7. }
      assert (E3 : rg s3 R3 = VN (v_l4 v)).
      { unfold s3. rewrite rg_same. repeat rewrite rg_other by reflexivity. exact H8. }
      assert (CALL : do_call e StubFlowHash s3 = Some (clobber s3 (VN (v_fhash v)))).
      { cbn [do_call]. unfold stub_flow_hash. rewrite E1, E2, E3. cbv zeta.
        rewrite (N.mod_small (swap16 _)) by apply swap16_lt.
        rewrite (N.mod_small (v_l4 v)) by apply (rd_l4 _ _ _ _ Hr).
        assert (S3 : forall a, (a + 8 <= -64)%Z -> (-512 <= a)%Z -> stk_load (stk s3) a 8 = stk_load k0 a 8).
        { intros a Ha Hb'. apply stk_load_ext. intros z Hz. apply (i_stk _ _ _ I3). lia. }
        change (0 + - RT_SIZE + o_l3hdr)%Z with (ctx_off o_l3hdr).
        change (0 + - RT_SIZE + o_l4hdr)%Z with (ctx_off o_l4hdr).
        rewrite !S3 by offs.
        rewrite !swap16_eqb by (try apply (rd_l3 _ _ _ _ Hr); reflexivity).
        assert (N3 : v_l3 v <> 0).
        { apply orb_true_iff in P3 as [P|P]; apply N.eqb_eq in P; rewrite P; discriminate. }
        assert (N4 : v_l4 v <> 0).
        { apply orb_true_iff in P4 as [P|P]; apply N.eqb_eq in P; rewrite P; discriminate. }
        assert (L4 : (4 <= length (v_h4 v))%nat).
        { apply orb_true_iff in P4 as [P|P]; apply N.eqb_eq in P.
          - rewrite (rd_nt _ _ _ _ Hr) by exact P. lia.
          - rewrite (rd_nu _ _ _ _ Hr) by (left; exact P). lia. }
        change IPPROTO_TCP with 6. change IPPROTO_UDP with 17. rewrite P4.
        pose proof (mbytes_reads e k0 _ (v_h4 v) (stk s3) (wd s3) (rd_h4 _ _ _ _ Hr N4) (i_stk _ _ _ I3) 4 0 L4) as M4.
        change (Z.of_nat 0) with 0%Z in M4. rewrite M4.
        assert (M3 : mbytes e (stk s3) (wd s3) (stk_load k0 (ctx_off o_l3hdr) 8) 0
                 (if v_l3 v =? ETH_P_IP then 20 else if v_l3 v =? ETH_P_IPV6 then 40 else 0) = Some (v_h3 v)).
        { pose proof (mbytes_reads e k0 _ (v_h3 v) (stk s3) (wd s3) (rd_h3 _ _ _ _ Hr N3) (i_stk _ _ _ I3)) as M0.
          assert (M : forall n off, off = 0%nat -> (n <= length (v_h3 v))%nat ->
             mbytes e (stk s3) (wd s3) (stk_load k0 (ctx_off o_l3hdr) 8) 0 n = Some (sub (v_h3 v) 0 n)).
          { intros n off _ Hn. apply (M0 n 0%nat). exact Hn. }
          destruct (N.eqb_spec (v_l3 v) ETH_P_IP) as [P|P].
          - pose proof (rd_n3 _ _ _ _ Hr P) as L. rewrite (M 20%nat 0%nat) by (rewrite ?L; lia).
            rewrite <- L, sub_all. reflexivity.
          - cbn [orb] in P3. rewrite P3. apply N.eqb_eq in P3.
            pose proof (rd_n6 _ _ _ _ Hr P3) as L. rewrite (M 40%nat 0%nat) by (rewrite ?L; lia).
            rewrite <- L, sub_all. reflexivity. }
        rewrite M3. rewrite flow_hash_h4 by auto. rewrite <- EF. reflexivity. }
      erewrite fr_call by exact CALL.
      assert (BF : v_fhash v < two32) by (rewrite EF; apply flow_hash_lt).
      erewrite fr_J; [|eapply do_jmp_num32; [reflexivity|reflexivity]].
      rewrite imm32_i32, N.mod_mod by discriminate. rewrite !N.mod_small by auto.
      exists (clobber s3 (VN (v_fhash v))). split; [|split; [invs|reflexivity]].
      cbn [frun]. destruct (m_neg m); cbn [xorb jtest]; rewrite ?N.ltb_antisym; destruct (_ <=? _); reflexivity. }
    destruct (v_l4 v =? 6) eqn:P6; [|destruct (v_l4 v =? 17) eqn:P17]; cbn [orb] in T2 |- *.
    - destruct (T2 eq_refl) as (s' & F & Q). exists s'. split; [exact F|exact Q].
    - destruct (T2 eq_refl) as (s' & F & Q). exists s'. split; [exact F|exact Q].
    - exists s. rewrite fr_JA. auto. }
  destruct T as (s' & F & I' & W').
  destruct (v_l3 v =? ETH_P_IP) eqn:P3; [|destruct (v_l3 v =? ETH_P_IPV6) eqn:P36]; cbn [orb andb] in F |- *.
  - exists s'. split; [|auto]. cbn [frun]. fold tl. rewrite F.
    destruct ((v_l4 v =? 6) || (v_l4 v =? 17)); reflexivity.
  - exists s'. split; [|auto]. cbn [frun]. fold tl. rewrite F.
    destruct ((v_l4 v =? 6) || (v_l4 v =? 17)); reflexivity.
  - exists s. rewrite fr_JA. auto.
Qed.

(** ** Mark and flow hash *)
Lemma yields_mark_skb e c v k0 s m b : ready e c v k0 -> inv v k0 s -> m_op m = OP_EQ ->
  is_skb_flavor (hook_flavor (c_hook c)) = true ->
  cmp_value m (m_pay m) 4 R1 = Ok b -> bytes (m_pay m) -> length (m_pay m) = 4%nat ->
  yields e v k0 ([I (Ldx SDW R1 R10 (ctx_off o_arg)); I (LdxK SW R1 R1 SkMark)] ++ b) s
    (xorb (m_neg m) (w_mark (wd s) =? le_dec (m_pay m))) (wd s).
Proof.
  intros Hr Hi Hop Hf Hc Hb Hl. cbn [app].
  eapply yields_cons; [apply (keeps_ctx e v k0 s R1 o_arg _ Hi ltac:(offs) ltac:(offs) (rd_arg _ _ _ _ Hr))|].
  eapply yields_cons; [intros; eapply fr_ldxk; [apply rg_same|]|].
  { unfold kload. rewrite (rd_flavor _ _ _ _ Hr). destruct (hook_flavor (c_hook c)); try discriminate; reflexivity. }
  match goal with |- yields _ _ _ _ ?s2 _ _ => change (wd s) with (wd s2) end.
  eapply yields_eq; [eapply yields_cmp_value; eauto|].
  - invs.
  - apply rg_same.
  - lia.
  - f_equal. rewrite firstn_all2 by lia. reflexivity.
Qed.

Lemma yields_mark_nf e c v k0 s m b : ready e c v k0 -> inv v k0 s -> m_op m = OP_EQ ->
  hook_flavor (c_hook c) = F_NF ->
  cmp_value m (m_pay m) 4 R1 = Ok b -> bytes (m_pay m) -> length (m_pay m) = 4%nat ->
  yields e v k0 ([I (Ldx SDW R1 R10 (ctx_off o_arg)); I (LdxK SDW R2 R1 NfSkb);
           I (LdxK SW R1 R2 KskMark)] ++ b) s
    (xorb (m_neg m) (w_mark (wd s) =? le_dec (m_pay m))) (wd s).
Proof.
  intros Hr Hi Hop Hf Hc Hb Hl. cbn [app].
  eapply yields_cons; [apply (keeps_ctx e v k0 s R1 o_arg _ Hi ltac:(offs) ltac:(offs) (rd_arg _ _ _ _ Hr))|].
  eapply yields_cons; [intros; eapply fr_ldxk; [apply rg_same|]|].
  { unfold kload. rewrite (rd_flavor _ _ _ _ Hr), Hf. reflexivity. }
  eapply yields_cons; [intros; eapply fr_ldxk; [apply rg_same|]|].
  { unfold kload. rewrite (rd_flavor _ _ _ _ Hr), Hf. reflexivity. }
  match goal with |- yields _ _ _ _ ?s2 _ _ => change (wd s) with (wd s2) end.
  eapply yields_eq; [eapply yields_cmp_value; eauto|].
  - invs.
  - apply rg_same.
  - lia.
  - f_equal. rewrite firstn_all2 by lia. reflexivity.
Qed.

Lemma yields_flow_hash e c v k0 s m l : ready e c v k0 -> inv v k0 s ->
  hook_flavor (c_hook c) = F_TC -> m_type m = M_FLOW_HASH ->
  gen_matcher c m = Ok l -> bytes (m_pay m) ->
  (m_op m = OP_EQ /\ length (m_pay m) = 4%nat \/ m_op m = OP_RANGE /\ length (m_pay m) = 8%nat) ->
  yields e v k0 l s (xorb (m_neg m) (match m_op m with
     | OP_RANGE => in_range (v_hash v) (le_dec (sub (m_pay m) 0 4)) (le_dec (sub (m_pay m) 4 4))
     | _ => v_hash v =? le_dec (m_pay m) end)) (wd s).
Proof.
  intros Hr Hi Hf Ht H Hb Hop. unfold gen_matcher in H. rewrite Hf, Ht in H. cbv zeta in H.
  assert (PRE : forall b r, (forall s2, inv v k0 s2 -> wd s2 = wd s -> rg s2 R0 = VN (v_hash v) ->
      yields e v k0 b s2 r (wd s2)) ->
      yields e v k0 ([I (Ldx SDW R1 R10 (ctx_off o_arg)); I (Call HHashRecalc)] ++ b) s r (wd s)).
  { intros b r Y. cbn [app].
    eapply yields_cons; [apply (keeps_ctx e v k0 s R1 o_arg _ Hi ltac:(offs) ltac:(offs) (rd_arg _ _ _ _ Hr))|].
    eapply yields_cons; [intros; eapply fr_call|].
    { cbn [do_call]. rewrite (rd_flavor _ _ _ _ Hr), Hf, rg_same, (rd_hash _ _ _ _ Hr). reflexivity. }
    match goal with |- yields _ _ _ _ ?s2 _ _ => change (wd s) with (wd s2) end.
    apply Y; [invs|reflexivity|reflexivity]. }
  destruct Hop as [[Hop Hl]|[Hop Hl]]; rewrite Hop in *.
  - destruct (cmp_value m (m_pay m) 4 R0) as [b|] eqn:Hc; [|discriminate]. cbn [bind] in H.
    apply Ok_inj in H; subst l. apply PRE. intros s2 I2 W2 E2.
    eapply yields_eq; [eapply yields_cmp_value; eauto; lia|].
    f_equal. rewrite firstn_all2 by lia. reflexivity.
  - apply Ok_inj in H; subst l. apply PRE. intros s2 I2 W2 E2.
    apply yields_range; auto; try apply (rd_hashb _ _ _ _ Hr);
      (apply (le_dec_bound_n _ 4); [apply bytes_sub; auto | apply sub_length; lia]).
Qed.
