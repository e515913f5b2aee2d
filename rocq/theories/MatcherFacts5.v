(** Set matchers (proofs only). *)
From Coq Require Import NArith ZArith List Bool Lia Arith.
From Verif Require Import Bytes Types World BpfModel GenModel PktSpec Wf Frag BytesFacts NetFacts StepFacts
  SwichFacts SetFacts MatcherFacts MatcherFacts2 MatcherFacts3 MatcherFacts4.
Import ListNotations.
Local Open Scope N_scope.

Ltac sp := repeat match goal with |- _ /\ _ => split end.

(** ** Byte copies *)
Lemma load_unit_le src dst n : (0 < n)%nat -> (szn (load_unit src dst n) <= n)%nat.
Proof.
  intros H. unfold load_unit.
  destruct (aligned 8 src && aligned 8 dst && (8 <=? n)%nat) eqn:E8.
  { apply andb_true_iff in E8 as [_ E]. apply Nat.leb_le in E. exact E. }
  destruct (aligned 4 src && aligned 4 dst && (4 <=? n)%nat) eqn:E4.
  { apply andb_true_iff in E4 as [_ E]. apply Nat.leb_le in E. exact E. }
  destruct (aligned 2 src && aligned 2 dst && (2 <=? n)%nat) eqn:E2.
  { apply andb_true_iff in E2 as [_ E]. apply Nat.leb_le in E. exact E. }
  exact H.
Qed.

Lemma szn_pos u : (0 < szn u)%nat.
Proof. destruct u; cbn; lia. Qed.

Lemma val_bytes_dec l n : bytes l -> length l = n -> val_bytes (VN (le_dec l)) n = map MB l.
Proof. intros Hb <-. cbn [val_bytes]. rewrite le_enc_dec; auto. Qed.

Lemma keeps_copy e v k0 p h : reads e k0 p h -> bytes h -> forall fuel n src dst s,
  (n <= fuel)%nat -> (src + n <= length h)%nat -> (-64 <= dst)%Z -> (dst + Z.of_nat n <= 0)%Z ->
  inv v k0 s -> rg s R6 = p ->
  exists s', keeps e v k0 (stub_load fuel (Z.of_nat src) dst n) s s' /\ inv v k0 s' /\ wd s' = wd s /\
    rg s' R6 = p /\
    rd_stk (stk s') dst n = map MB (sub h src n) /\
    (forall z, (z < dst \/ dst + Z.of_nat n <= z)%Z -> stk s' z = stk s z).
Proof.
  intros Hrd Bh. induction fuel as [|fuel IH]; intros n src dst s Hf Hl Hd1 Hd2 Hi H6.
  - assert (n = 0)%nat by lia. subst n. exists s. sp; auto. intros l. reflexivity.
  - destruct n as [|n]; [exists s; sp; auto; intros l; reflexivity|].
    cbn [stub_load]. set (u := load_unit (Z.of_nat src) dst (S n)).
    pose proof (load_unit_le (Z.of_nat src) dst (S n) ltac:(lia)) as Hu. fold u in Hu.
    pose proof (szn_pos u) as Hp. set (k := szn u) in *.
    set (x := le_dec (sub h src k)).
    set (s1 := setr s R1 (VN x)).
    set (s2 := sets s1 (wr_stk (stk s1) dst (val_bytes (VN x) k))).
    assert (I2 : inv v k0 s2) by (unfold s2; apply inv_scratch; [lia|]; unfold s1; invs).
    destruct (IH (S n - k)%nat (src + k)%nat (dst + Z.of_nat k)%Z s2) as (s' & K & I' & W' & R' & D' & O');
      try lia; auto.
    exists s'. sp; auto.
    + intros l. cbn [app].
      assert (L1 : forall r, frun e (I (Ldx u R1 R6 (Z.of_nat src)) :: r) 0 s = frun e r 0 s1).
      { intros r. eapply fr_ldx. rewrite H6. apply Hrd; [apply (i_stk _ _ _ Hi)|fold k; lia]. }
      rewrite L1.
      assert (L2 : forall r, frun e (I (Stx u R10 R1 dst) :: r) 0 s1 = frun e r 0 s2).
      { intros r. eapply fr_stx. change (rg s1 R10) with (rg s R10). rewrite (i_r10 _ _ _ Hi).
        change (rg s1 R1) with (VN x). cbn [mstore]. rewrite Z.add_0_l. unfold stk_ok. fold k.
        rewrite (proj2 (Z.leb_le _ _)), (proj2 (Z.leb_le _ _)) by lia. reflexivity. }
      rewrite L2. replace (Z.of_nat src + Z.of_nat k)%Z with (Z.of_nat (src + k)) by lia.
      apply K.
    + replace (S n) with (k + (S n - k))%nat by lia. rewrite rd_stk_app, D', sub_app, map_app. f_equal.
      rewrite (rd_stk_ext _ (stk s2)) by (intros z Hz; apply O'; lia).
      unfold s2. cbn [stk sets].
      unfold x. rewrite val_bytes_dec by (try apply bytes_sub; auto; apply sub_length; lia).
      replace k with (length (map MB (sub h src k))) at 2 by (rewrite map_length, sub_length; lia).
      apply rd_wr_same.
    + intros z Hz. rewrite O' by lia. unfold s2. cbn [stk sets]. rewrite wr_stk_out; [reflexivity|].
      rewrite val_bytes_length. lia.
Qed.

(** ** Key of a set with several components *)
Lemma in_no_dscp t : ops_size t OP_IN <> None -> t <> M_IP4_DSCP /\ t <> M_IP6_DSCP.
Proof. intros H; split; intros ->; apply H; reflexivity. Qed.

Lemma in_layer t : ops_size t OP_IN <> None -> mt_layer (meta_of t) <> L_NONE.
Proof. destruct t; cbn; congruence. Qed.

Lemma comp_size_meta t : ops_size t OP_IN <> None -> is_net t = false -> comp_size t = mt_size (meta_of t).
Proof. destruct t; cbn; congruence. Qed.

Definition key_size (key : list mtype) : nat := list_sum (map (fun t => mt_size (meta_of t)) key).

Lemma set_key_length e c v k0 key : ready e c v k0 -> (forall t, In t key -> ops_size t OP_IN <> None) ->
  (forall t, In t key -> there v t) -> length (set_key v key) = key_size key.
Proof.
  intros Hr. unfold set_key, key_size. induction key as [|t key IH]; intros Hin Hth; auto.
  cbn [map concat list_sum fold_right]. rewrite app_length.
  destruct (in_no_dscp t (Hin t (or_introl eq_refl))) as [D4 D6].
  pose proof (in_layer t (Hin t (or_introl eq_refl))) as HL.
  rewrite <- (fieldb_fld v t HL D4 D6), (fieldb_length e c v k0 t Hr (Hth t (or_introl eq_refl)) HL).
  f_equal. apply IH; intros; [apply Hin|apply Hth]; right; auto.
Qed.

Lemma keeps_set_key e c v k0 : ready e c v k0 -> forall key off s a,
  (forall t, In t key -> ops_size t OP_IN <> None) -> (forall t, In t key -> there v t) ->
  gen_set_key key off = Ok a -> (off + key_size key <= 64)%nat -> inv v k0 s ->
  exists s', keeps e v k0 a s s' /\ inv v k0 s' /\ wd s' = wd s /\
    rd_stk (stk s') (scr_off (Z.of_nat off)) (key_size key) = map MB (set_key v key) /\
    (forall z, (z < scr_off (Z.of_nat off) \/ scr_off (Z.of_nat off) + Z.of_nat (key_size key) <= z)%Z ->
       stk s' z = stk s z).
Proof.
  intros Hr. induction key as [|t key IH]; intros off s a Hin Hth H Hsz Hi.
  - cbn in H. apply Ok_inj in H; subst a. exists s. sp; auto. intros l. reflexivity.
  - cbn [gen_set_key] in H.
    destruct (load_header (meta_of t) R6) as [h|] eqn:Hh; [|discriminate]. cbn [bind] in H.
    destruct (gen_set_key key (off + mt_size (meta_of t))) as [b|] eqn:Hb; [|discriminate]. cbn [bind] in H.
    apply Ok_inj in H; subst a.
    assert (Ht : there v t) by (apply Hth; left; auto).
    assert (HI : ops_size t OP_IN <> None) by (apply Hin; left; auto).
    pose proof (in_layer t HI) as HL. destruct (in_no_dscp t HI) as [D4 D6].
    unfold key_size in Hsz. cbn [map list_sum fold_right] in Hsz.
    change (fold_right Nat.add 0%nat (map (fun t0 => mt_size (meta_of t0)) key)) with (key_size key) in Hsz.
    destruct (keeps_header e c v k0 s t h Hr Hi Ht HL Hh) as [K1 I1].
    set (s1 := setr s R6 _) in *.
    pose proof (hdr_reads e c v k0 t Hr Ht HL) as RD.
    pose proof (field_len e c v k0 t Hr Ht HL) as FL.
    set (mt := meta_of t) in *.
    destruct (keeps_copy e v k0 _ _ RD (hdr_bytes e c v k0 _ Hr) (mt_size mt) (mt_size mt) (mt_off mt)
       (scr_off (Z.of_nat off)) s1) as (s2 & K2 & I2 & W2 & R2' & D2 & O2); auto.
    { unfold scr_off, ctx_off, o_scratch, RT_SIZE. lia. }
    { unfold scr_off, ctx_off, o_scratch, RT_SIZE. lia. }
    destruct (IH (off + mt_size mt)%nat s2 b) as (s3 & K3 & I3 & W3 & D3 & O3); auto.
    { intros; apply Hin; right; auto. }
    { intros; apply Hth; right; auto. }
    { lia. }
    exists s3. sp; auto.
    + rewrite app_assoc. eapply keeps_app; [|exact K3]. eapply keeps_app; [exact K1|exact K2].
    + rewrite W3, W2. reflexivity.
    + unfold key_size. cbn [map list_sum fold_right]. fold mt.
      change (fold_right Nat.add 0%nat (map (fun t0 => mt_size (meta_of t0)) key)) with (key_size key).
      rewrite rd_stk_app. unfold set_key. cbn [map concat]. rewrite map_app. f_equal.
      * rewrite (rd_stk_ext _ (stk s2)).
        -- rewrite D2. rewrite <- (fieldb_fld v t HL D4 D6). reflexivity.
        -- intros z Hz. apply O3. unfold scr_off, ctx_off in *. lia.
      * replace (scr_off (Z.of_nat off) + Z.of_nat (mt_size mt))%Z
          with (scr_off (Z.of_nat (off + mt_size mt))) by (unfold scr_off, ctx_off; lia).
        exact D3.
    + unfold key_size. cbn [map list_sum fold_right]. fold mt.
      change (fold_right Nat.add 0%nat (map (fun t0 => mt_size (meta_of t0)) key)) with (key_size key).
      intros z Hz. rewrite O3 by (unfold scr_off, ctx_off in *; lia).
      rewrite O2 by (unfold scr_off, ctx_off in *; lia). reflexivity.
Qed.

(** ** Lookup *)
Definition set_jop (neg : bool) : jop := if neg then JNE else JEQ.

Lemma jop_in m jop : m_op m = OP_IN -> cmp_jmp_ins m = Ok jop -> jop = set_jop (m_neg m).
Proof. intros H. unfold cmp_jmp_ins. rewrite H. destruct (m_neg m); cbn; congruence. Qed.

Lemma yields_lookup e v k0 s g bit neg koff val ismem :
  inv v k0 s -> (-512 <= koff)%Z ->
  (forall q, stk q = stk s -> map_lookup e q (MSet g) koff = Some val) ->
  (val = VN 0 /\ ismem = false \/
   exists mask, val = VVal mask /\ (bit / 8 < length mask)%nat /\ (Z.of_nat (bit / 8) < 32768)%Z /\
     N.testbit (nth (bit / 8) mask 0) (N.of_nat (bit mod 8)) = ismem) ->
  yields e v k0
    [I (LdMap R1 (MSet g)); I Pad; MOV64R R2 R10; ADD64I R2 koff; I (Call HMapLookup);
     I (Jmp true JEQ R0 (Im 0) 2);
     I (Ldx SB R0 R0 (i16 (Z.of_nat (bit / 8))));
     I (Alu false AAnd R0 (Im (i32 (2 ^ N.of_nat (bit mod 8)))));
     J (Jmp true (set_jop neg) R0 (Im 0) 0)] s (xorb neg ismem) (wd s).
Proof.
  intros Hi Hk HL Hval. unfold yields.
  rewrite fr_ldmap, fr_mov64r. rewrite rg_other by reflexivity. rewrite (i_r10 _ _ _ Hi).
  erewrite fr_add_stk by apply rg_same. rewrite Z.add_0_l.
  set (s1 := setr (setr (setr s R1 (VMap (MSet g))) R2 (VStk 0)) R2 (VStk koff)).
  assert (I1 : inv v k0 s1) by (unfold s1; invs).
  assert (C : do_call e HMapLookup s1 = Some (clobber s1 val)).
  { unfold do_call. change (rg s1 R1) with (VMap (MSet g)). change (rg s1 R2) with (VStk koff).
    cbv iota beta. rewrite HL by reflexivity. reflexivity. }
  erewrite fr_call by exact C.
  destruct Hval as [[-> ->]|(mask & -> & Hb & Hb2 & Ht)].
  - change 2%Z with (Z.of_nat 2). erewrite fr_I; [|eapply do_jmp_num64; [reflexivity|reflexivity]].
    cbn [jtest]. change (0 =? imm64 0) with true. cbn iota. cbn [frun].
    unfold set_jop. exists (clobber s1 (VN 0)). destruct neg; cbn; (split; [reflexivity|split; [invs|reflexivity]]).
  - change 2%Z with (Z.of_nat 2).
    erewrite fr_I; [|eapply do_jmp_ptr; [reflexivity|reflexivity|left; reflexivity]].
    cbn iota.
    assert (L : mload e (stk (clobber s1 (VVal mask))) (wd (clobber s1 (VVal mask))) (rg (clobber s1 (VVal mask)) R0)
       (i16 (Z.of_nat (bit / 8))) (szn SB) = Some (VN (nth (bit / 8) mask 0))).
    { rewrite i16_small by lia. change (rg (clobber s1 (VVal mask)) R0) with (VVal mask). cbn [mload szn].
      rewrite (proj2 (Z.leb_le _ _)), (proj2 (Z.leb_le _ _)) by lia. cbn [andb]. rewrite Nat2Z.id.
      rewrite sub_1 by exact Hb. unfold byte_at. cbn [le_dec]. rewrite N.mul_0_r, N.add_0_r. reflexivity. }
    erewrite fr_ldx by exact L.
    erewrite fr_alu32; [|discriminate|apply rg_same|reflexivity].
    set (s2 := setr (setr (clobber s1 (VVal mask)) R0 (VN (nth (bit / 8) mask 0))) R0 _).
    assert (I2 : inv v k0 s2) by (unfold s2; invs).
    pose proof (Nat.mod_upper_bound bit 8 ltac:(lia)) as M8.
    assert (P8 : 2 ^ N.of_nat (bit mod 8) < two32).
    { eapply N.le_lt_trans; [apply N.pow_le_mono_r with (c := 8); [lia|lia]|reflexivity]. }
    assert (A : alu32 AAnd (nth (bit / 8) mask 0) (imm32 (i32 (2 ^ N.of_nat (bit mod 8)))) =
       if ismem then 2 ^ N.of_nat (bit mod 8) else 0).
    { cbn [alu32]. rewrite imm32_i32, N.mod_mod by discriminate. rewrite (N.mod_small (2 ^ _)) by exact P8.
      rewrite land_pow2. change two32 with (2 ^ 32). rewrite N.mod_pow2_bits_low by lia. rewrite Ht. reflexivity. }
    assert (E2 : rg s2 R0 = VN (if ismem then 2 ^ N.of_nat (bit mod 8) else 0)) by (unfold s2; rewrite rg_same, A; reflexivity).
    erewrite fr_J; [|eapply do_jmp_num64; [exact E2|reflexivity]].
    change (imm64 0) with 0.
    assert (NZ : 2 ^ N.of_nat (bit mod 8) =? 0 = false) by (apply N.eqb_neq; apply N.pow_nonzero; discriminate).
    exists s2. unfold set_jop. destruct neg, ismem; cbn [jtest xorb negb]; rewrite ?NZ; cbn [negb];
      (split; [reflexivity|split; [exact I2|reflexivity]]).
Qed.
