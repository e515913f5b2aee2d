(** The prologue: fetching a header, IPv6 extension headers, network header (proofs only). *)
From Coq Require Import NArith ZArith List Bool Lia Arith.
From Verif Require Import Bytes Types World BpfModel GenModel PktSpec ViewSpec Wf ViewModel Frag BytesFacts NetFacts
  StepFacts SwichFacts MatcherFacts MatcherFacts2 MatcherFacts4 RuleFacts2 HeadFacts HeadFacts2.
Import ListNotations.
Local Open Scope N_scope.

Lemma slice_bytes d o n h : bytes d -> slice d o n = Some h -> bytes h.
Proof. unfold slice. intros B H. destruct (_ <=? _); [|discriminate]. injection H as <-. apply bytes_sub; auto. Qed.

Lemma slice_length d o n h : slice d o n = Some h -> length h = N.to_nat n.
Proof.
  unfold slice. destruct (N.leb_spec (o + n) (N.of_nat (length d))); [|discriminate].
  intros H0. injection H0 as <-. apply sub_length. lia.
Qed.

(** ** The extension header loops *)
Lemma eh_off e n : forall nh off, off < two32 -> snd (ip6_eh_loop e n nh off) < two32.
Proof.
  induction n as [|n IH]; intros nh off H; cbn [ip6_eh_loop snd]; auto.
  destruct (_ <=? _); [|exact H]. cbv zeta.
  destruct (eh_common nh); [apply IH; apply N.mod_upper_bound; discriminate|].
  destruct (nh =? 51); [apply IH; apply N.mod_upper_bound; discriminate|].
  destruct (nh =? 44); [apply IH; apply N.mod_upper_bound; discriminate|]. exact H.
Qed.

Lemma lor_64 a b : a < 64 -> b < 64 -> N.lor a b < 64.
Proof.
  intros Ha Hb. apply (N.lt_le_trans _ (2 ^ 6)); [|reflexivity || (cbn; lia)].
  destruct (N.eq_dec (N.lor a b) 0) as [->|Z]; [reflexivity|].
  apply N.log2_lt_pow2; [lia|]. rewrite N.log2_lor. apply N.max_lub_lt.
  - destruct (N.eq_dec a 0) as [->|]; [reflexivity|]. apply N.log2_lt_pow2; [lia|exact Ha].
  - destruct (N.eq_dec b 0) as [->|]; [reflexivity|]. apply N.log2_lt_pow2; [lia|exact Hb].
Qed.

Lemma eh_bit_64 p : eh_bit p < 64.
Proof. unfold eh_bit. repeat (destruct (_ =? _); [reflexivity|]). reflexivity. Qed.

Lemma nh_off e n : forall nh off m, off < two32 -> m < 64 ->
  snd (fst (ip6_nh_loop e n nh off m)) < two32 /\ snd (ip6_nh_loop e n nh off m) < 64.
Proof.
  induction n as [|n IH]; intros nh off m H Hm; cbn [ip6_nh_loop fst snd]; auto.
  pose proof (lor_64 m (eh_bit nh) Hm (eh_bit_64 nh)) as L.
  destruct (_ <=? _); [|split; [exact H|exact Hm]]. cbv zeta.
  destruct (eh_common nh); [apply IH; [apply N.mod_upper_bound; discriminate|exact L]|].
  destruct (nh =? 51); [apply IH; [apply N.mod_upper_bound; discriminate|exact L]|].
  destruct (nh =? 44); [apply IH; [apply N.mod_upper_bound; discriminate|exact L]|]. split; [exact H|exact Hm].
Qed.

(** The decision taken by the test instructions for a first Next Header below 256. *)
Definition mid_calls (x : N) : bool :=
  (if x <? 64 then negb (N.land (N.shiftl 1 (x mod 64) mod two64) (LOW_EH_BITMASK mod two64) =? 0) else false) ||
  (x =? 135) || (x =? 139) || (x =? 140).

Lemma mid_calls_ok x : x < 256 -> negb ((x =? 6) || (x =? 17)) && mid_calls x = calls_stub x.
Proof.
  intros H.
  apply (forall_upto (fun x => Bool.eqb (negb ((x =? 6) || (x =? 17)) && mid_calls x) (calls_stub x)) 256) in H;
    [apply Bool.eqb_prop in H; exact H|]. vm_compute. reflexivity.
Qed.

  Lemma holds_byte e k0 b p h x : holds e k0 b p h -> (-512 <= b)%Z -> (b + Z.of_nat (length h) <= -64)%Z -> (x < length h)%nat ->
    forall w0, mload e k0 w0 p (Z.of_nat x) 1 = Some (VN (byte_at h x)).
  Proof.
    intros H B1 B2 Hx w0. rewrite (holds_load e k0 w0 b p h x 1) by (auto; lia). rewrite sub_1 by exact Hx.
    cbn [le_dec]. do 2 f_equal. lia.
  Qed.

Section H.
  Variables (e : env) (c : chain) (ifx len : N) (w : world) (k : Z).
  Hypothesis Bn : n_rules c < 268435456.
  Hypothesis Ncnt : e_ncnt e = n_rules c + 2.
  Hypothesis By : bytes (e_pkt e).

  Notation hs := (hst c ifx len).
  Notation FAIL a s := (halts e a s (imm64 k) (w_count w (n_rules c + 1) len)).

  Definition fetch_hdr (so oo bo ho : Z) : code :=
    [I (Stx SB R10 R4 (ctx_off so));
      MOV64R R1 R10; ADD64I R1 (ctx_off o_dynptr);
      I (Ldx SW R2 R10 (ctx_off oo));
      MOV64R R3 R10; ADD64I R3 (ctx_off bo); I (Call KSlice)] ++
     jover (Jmp true JNE R0 (Im 0)) (fail_block c k) ++
     [I (Stx SDW R10 R0 (ctx_off ho))].

  Lemma stage_fetch so oo bo ho s m n off : hs m w s -> dyn (stk s) ->
    so = o_l3size \/ so = o_l4size ->
    oo = o_l3off \/ oo = o_l4off -> (bo = o_l2 /\ n <= 40) \/ (bo = o_l4 /\ n <= 20) -> ho = o_l3hdr \/ ho = o_l4hdr ->
    rg s R4 = VN n -> stk_load (stk s) (ctx_off oo) 4 = VN off -> off < two32 ->
    match slice (e_pkt e) off n with
    | Some h => good e (fetch_hdr so oo bo ho) s (fun s' => exists p, hs m w s' /\ dyn (stk s') /\
        rg s' R7 = rg s R7 /\ rg s' R8 = rg s R8 /\ rg s' R0 = p /\
        holds e (stk s') (ctx_off bo) p h /\ stk_load (stk s') (ctx_off ho) 8 = p /\
        (forall z, z <> ctx_off so -> (z < ctx_off bo \/ ctx_off bo + Z.of_N n <= z)%Z ->
                   (z < ctx_off ho \/ ctx_off ho + 8 <= z)%Z -> stk s' z = stk s z))
    | None => FAIL (fetch_hdr so oo bo ho) s
    end.
  Proof.
    intros H D Hso Hoo Hbo Hho E4 EO Bo. unfold fetch_hdr.
    set (s0 := sets s (wr_stk (stk s) (ctx_off so) (val_bytes (VN n) 1))).
    set (s1 := setr (setr (setr (setr (setr s0 R1 (rg s0 R10)) R1 (VStk (ctx_off o_dynptr))) R2 (VN off)) R3 (rg s0 R10)) R3 (VStk (ctx_off bo))).
    assert (SB0 : same_but (ctx_off so) 1 (stk s) (stk s0)) by apply (same_val _ _ (VN n) 1).
    assert (S0 : hs m w s0).
    { apply hst_byte; auto. destruct Hso; subst so; auto. }
    assert (D0 : dyn (stk s0)).
    { eapply dyn_sb; [exact SB0|lia|right; destruct Hso; subst so; offs|exact D]. }
    assert (EO0 : stk_load (stk s0) (ctx_off oo) 4 = VN off).
    { rewrite (sb_ld _ _ _ _ _ _ SB0); auto. destruct Hso, Hoo; subst so oo; offs. }
    assert (PRE : forall l, frun e ([I (Stx SB R10 R4 (ctx_off so));
      MOV64R R1 R10; ADD64I R1 (ctx_off o_dynptr);
      I (Ldx SW R2 R10 (ctx_off oo));
      MOV64R R3 R10; ADD64I R3 (ctx_off bo)] ++ l) 0 s = frun e l 0 s1).
    { intros l. cbn [app].
      rewrite fr_stx10; [|exact (h_r10 _ _ _ _ _ _ H)|destruct Hso; subst so; reflexivity].
      rewrite E4. change (sets s (wr_stk (stk s) (ctx_off so) (val_bytes (VN n) (szn SB)))) with s0.
      rewrite fr_mov64r. erewrite fr_add_stk by (rewrite rg_same; exact (h_r10 _ _ _ _ _ _ S0)).
      rewrite fr_ldx10; [|exact (h_r10 _ _ _ _ _ _ S0)|destruct Hoo; subst oo; reflexivity].
      cbn [stk setr szn]. rewrite EO0.
      rewrite fr_mov64r. erewrite fr_add_stk by (rewrite rg_same, !rg_other by reflexivity; exact (h_r10 _ _ _ _ _ _ S0)).
      reflexivity. }
    assert (S1 : hs m w s1) by (unfold s1; hsts).
    assert (Bn2 : n < two32) by (unfold two32; lia).
    assert (OKb : stk_ok (ctx_off bo) (N.to_nat n) = true).
    { unfold stk_ok. apply andb_true_iff. rewrite !Z.leb_le. destruct Hbo as [[-> ?]|[-> ?]]; offs. }
    pose proof (call_slice e s1 (ctx_off o_dynptr) off n (ctx_off bo) eq_refl eq_refl eq_refl E4 D0 Bo Bn2 OKb) as C.
    destruct (slice (e_pkt e) off n) as [h|] eqn:ES.
    - destruct C as (k' & p & C & Ho & SBt & Lh).
      assert (S2 : hs m w (clobber (sets s1 k') p)).
      { apply hst_clobber. eapply hst_sets; [exact S1|exact SBt|lia|]. unfold clear. destruct Hbo as [[-> ?]|[-> ?]]; offs. }
      eapply good_app with (P := fun t => t = clobber (sets s1 k') p).
      { eexists. split; [|reflexivity]. intros l.
        match goal with |- frun e (?x ++ l) 0 s = _ => change (x ++ l) with ([I (Stx SB R10 R4 (ctx_off so));
          MOV64R R1 R10; ADD64I R1 (ctx_off o_dynptr);
          I (Ldx SW R2 R10 (ctx_off oo));
          MOV64R R3 R10; ADD64I R3 (ctx_off bo)] ++ (I (Call KSlice) :: l)) end.
        rewrite PRE. erewrite fr_call by exact C. reflexivity. }
      intros s' ->. eapply good_app with (P := fun t => t = clobber (sets s1 k') p).
      { apply good_jover_yes; [|apply fail_small|reflexivity].
        apply do_jmp_ptr with (v := p); [reflexivity| eapply holds_ptr; eauto | auto]. }
      intros s' ->. set (s2 := clobber (sets s1 k') p) in *.
      pose proof (same_val (stk s2) (ctx_off ho) p 8) as SB3.
      set (k3 := wr_stk (stk s2) (ctx_off ho) (val_bytes p 8)) in *.
      exists (sets s2 k3). split.
      + intros l. cbn [app]. rewrite fr_stx10; [reflexivity|exact (h_r10 _ _ _ _ _ _ S2)|].
        destruct Hho; subst ho; reflexivity.
      + exists p. cbn [stk sets]. split; [|split; [|split; [|split; [|split; [|split; [|split]]]]]].
        * eapply hst_sets; [exact S2|exact SB3|lia|]. unfold clear. destruct Hho; subst ho; offs.
        * eapply dyn_sb; [exact SB3|lia|right; destruct Hho; subst ho; offs|].
          eapply dyn_sb; [exact SBt|lia|right; destruct Hbo as [[-> ?]|[-> ?]]; offs|exact D0].
        * reflexivity.
        * reflexivity.
        * reflexivity.
        * eapply holds_sb; [exact SB3| |exact Ho]. rewrite Lh. destruct Hho, Hbo as [[? ?]|[? ?]]; subst ho bo; offs.
        * apply load_store_ptr. eapply holds_ptr; eauto.
        * intros z Hz1 Hz2 Hz3. rewrite SB3 by lia. unfold s2. cbn [stk clobber setr sets].
          rewrite SBt by lia. unfold s1. cbn [stk setr]. apply SB0. lia.
    - eapply good_halts with (P := fun t => t = clobber s1 (VN 0)).
      { eexists. split; [|reflexivity]. intros l.
        match goal with |- frun e (?x ++ l) 0 s = _ => change (x ++ l) with ([I (Stx SB R10 R4 (ctx_off so));
          MOV64R R1 R10; ADD64I R1 (ctx_off o_dynptr);
          I (Ldx SW R2 R10 (ctx_off oo));
          MOV64R R3 R10; ADD64I R3 (ctx_off bo)] ++ (I (Call KSlice) :: l)) end.
        rewrite PRE. erewrite fr_call by exact C. reflexivity. }
      intros s' ->. apply halts_app. apply halts_jover_no; [reflexivity|apply fail_small|].
      apply (fail_blk e c ifx len w k Bn Ncnt m). hsts.
  Qed.

  (** The tests that select the extension header stub. *)
  Definition mid_code (body : code) : code :=
    [I (LdImm64 R2 LOW_EH_BITMASK); I Pad;
              I (Jmp true JGE R8 (Im 64) 4);
              MOV64I R3 1; I (Alu true ALsh R3 (Rg R8)); I (Alu true AAnd R3 (Rg R2));
              I (Jmp true JNE R3 (Im 0) 4);
              I (Jmp true JEQ R8 (Im 135) 3);
              I (Jmp true JEQ R8 (Im 139) 2);
              I (Jmp true JEQ R8 (Im 140) 1)] ++
             jover Ja body.

  Lemma run_mid body s x : small body -> rg s R8 = VN x -> x < 256 -> exists s',
    (forall l, frun e (mid_code body ++ l) 0 s = (if mid_calls x then frun e (body ++ l) 0 s' else frun e l 0 s')) /\
    (forall r, r <> R2 -> r <> R3 -> rg s' r = rg s r) /\ stk s' = stk s /\ wd s' = wd s.
  Proof.
    intros Sm E8 Bx.
    assert (T : forall l t, rg t R8 = VN x ->
      frun e ([I (Jmp true JEQ R8 (Im 135) 3); I (Jmp true JEQ R8 (Im 139) 2); I (Jmp true JEQ R8 (Im 140) 1)] ++ jover Ja body ++ l) 0 t =
      if (x =? 135) || (x =? 139) || (x =? 140) then frun e (body ++ l) 0 t else frun e l 0 t).
    { intros l t Et.
      assert (J : forall z, (0 <= z < 1000)%Z -> do_jmp t true JEQ R8 (Im z) = Some (x =? Z.to_N z)).
      { intros z Hz. erewrite do_jmp_num64; [|exact Et|reflexivity]. cbn [jtest]. rewrite imm64_nonneg by (unfold two64; lia). reflexivity. }
      cbn [app]. rewrite (fr_I e _ t true JEQ R8 (Im 135) 3 (x =? 135)) by (apply (J 135%Z); lia).
      destruct (x =? 135); [cbn [orb]; unfold jover; cbn [app frun]; reflexivity|].
      rewrite (fr_I e _ t true JEQ R8 (Im 139) 2 (x =? 139)) by (apply (J 139%Z); lia).
      destruct (x =? 139); [cbn [orb]; unfold jover; cbn [app frun]; reflexivity|].
      rewrite (fr_I e _ t true JEQ R8 (Im 140) 1 (x =? 140)) by (apply (J 140%Z); lia).
      destruct (x =? 140); [cbn [orb]; unfold jover; cbn [app frun]; reflexivity|].
      cbn [orb]. apply frun_jover_ja. exact Sm. }
    set (s1 := setr s R2 (VN (LOW_EH_BITMASK mod two64))).
    set (y := N.shiftl 1 (x mod 64) mod two64).
    set (s2 := setr (setr (setr s1 R3 (VN 1)) R3 (VN y)) R3 (VN (N.land y (LOW_EH_BITMASK mod two64)))).
    assert (J64 : do_jmp s1 true JGE R8 (Im 64) = Some (64 <=? x)).
    { erewrite do_jmp_num64; [|exact E8|reflexivity]. reflexivity. }
    assert (ST : forall l, frun e (mid_code body ++ l) 0 s = if 64 <=? x
      then frun e (MOV64I R3 1 :: I (Alu true ALsh R3 (Rg R8)) :: I (Alu true AAnd R3 (Rg R2)) ::
              I (Jmp true JNE R3 (Im 0) 4) :: I (Jmp true JEQ R8 (Im 135) 3) :: I (Jmp true JEQ R8 (Im 139) 2) :: 
              I (Jmp true JEQ R8 (Im 140) 1) :: (jover Ja body ++ l)) 4 s1
      else frun e (MOV64I R3 1 :: I (Alu true ALsh R3 (Rg R8)) :: I (Alu true AAnd R3 (Rg R2)) ::
              I (Jmp true JNE R3 (Im 0) 4) :: I (Jmp true JEQ R8 (Im 135) 3) :: I (Jmp true JEQ R8 (Im 139) 2) :: 
              I (Jmp true JEQ R8 (Im 140) 1) :: (jover Ja body ++ l)) 0 s1).
    { intros l. unfold mid_code. cbn [app]. rewrite fr_ldimm. fold s1.
      apply (fr_I e _ s1 true JGE R8 (Im 64) 4 _ J64). }
    unfold mid_calls. destruct (N.leb_spec 64 x) as [G|G].
    - exists s1. rewrite (proj2 (N.ltb_ge _ _)) by exact G. cbn [orb].
      split; [|split; [|split]]; try reflexivity.
      + intros l. rewrite ST, <- (T l s1 E8). reflexivity.
      + intros r H1 H2. destruct r; try congruence; reflexivity.
    - exists s2. rewrite (proj2 (N.ltb_lt _ _)) by exact G. fold y.
      split; [|split; [|split]]; try reflexivity.
      + intros l. rewrite ST, fr_mov64i. change (imm64 1) with 1.
        rewrite (fr_alu64 e _ _ ALsh R3 (Rg R8) 1 x) by (try discriminate; try reflexivity; exact E8).
        change (alu64 ALsh 1 x) with y.
        rewrite (fr_alu64 e _ _ AAnd R3 (Rg R2) y (LOW_EH_BITMASK mod two64)) by (try discriminate; reflexivity).
        cbn [alu64]. fold s2.
        rewrite (fr_I e _ s2 true JNE R3 (Im 0) 4 (negb (N.land y (LOW_EH_BITMASK mod two64) =? 0))).
        2:{ erewrite do_jmp_num64; [|apply rg_same|reflexivity]. reflexivity. }
        destruct (negb (N.land y (LOW_EH_BITMASK mod two64) =? 0)).
        * cbn [orb]. unfold jover. cbn [app frun]. reflexivity.
        * cbn [orb]. apply (T l s2). exact E8.
      + intros r H1 H2. destruct r; try congruence; reflexivity.
  Qed.

  Lemma base_eh m m' kk : m' < 256 -> base c m kk -> base c m' (wr_stk kk (ctx_off o_eh) [MB m']).
  Proof.
    intros Bm [B1 B2 B3].
    assert (Hs : same_but (ctx_off o_eh) 1 kk (wr_stk kk (ctx_off o_eh) [MB m'])) by apply (same_wr kk (ctx_off o_eh) [MB m']).
    constructor.
    - rewrite (sb_ld _ _ _ _ _ _ Hs) by offs. exact B1.
    - intros L. rewrite (sb_ld _ _ _ _ _ _ Hs) by offs. auto.
    - intros L. destruct (B3 L) as [bs Hb].
      change 8%nat with (1 + 7)%nat in *. rewrite rd_stk_app in *. 
      rewrite (sb_rd _ _ _ _ (ctx_off o_eh + Z.of_nat 1)%Z 7%nat Hs) by offs.
      cbn [rd_stk zseq map] in Hb. exists bs. cbn [app] in Hb.
      change (map MB (m :: bs)) with (MB m :: map MB bs) in Hb.
      inversion Hb as [[E1 E2]]. cbn [map]. 
      change (rd_stk (wr_stk kk (ctx_off o_eh) [MB m']) (ctx_off o_eh) 1) with [MB m']. cbn [app]. f_equal. exact E2.
  Qed.

  (** stub.c:250-317 *)
  Lemma stage_ip6 s p h3 o3 : hs 0 w s -> dyn (stk s) -> rg s R0 = p -> holds e (stk s) (ctx_off o_l2) p h3 ->
    length h3 = 40%nat -> bytes h3 -> stk_load (stk s) (ctx_off o_l3hdr) 8 = p -> 
    stk_load (stk s) (ctx_off o_l3off) 4 = VN o3 -> o3 <= 14 ->
    match code_walk e (c_nexthdr c) (e_pkt e) (byte_at h3 6) (o3 + 40) with
    | (proto, off, eh) => good e (parse_ip6 c) s (fun s' => exists m, hs m w s' /\ m < 64 /\ dyn (stk s') /\
        rg s' R7 = rg s R7 /\ rg s' R8 = VN proto /\ proto < 256 /\
        holds e (stk s') (ctx_off o_l2) p h3 /\ stk_load (stk s') (ctx_off o_l3hdr) 8 = p /\
        stk_load (stk s') (ctx_off o_l4off) 4 = VN off /\ off < two32 /\
        (c_nexthdr c = true -> forall t, eh t = negb (N.land m (eh_bit t) =? 0)))
    end.
  Proof.
    intros H D E0 Ho L3 B3 EL EO Bo.
    set (x := byte_at h3 6).
    assert (Bx : x < 256) by (apply byte_at_byte; exact B3).
    set (tail := [I (Ldx SW R2 R10 (ctx_off o_l3off)); ADD64I R2 40; I (Stx SW R10 R2 (ctx_off o_l4off))]).
    set (eh := [MOV64R R1 R10; ADD64I R1 (ctx_off o_arg);
             I (Call (if c_nexthdr c then StubIp6Nh else StubIp6Eh)); MOV64R R8 R0]).
    set (body := eh ++ [I (Ja (i16 (Z.of_nat (length tail))))]).
    change (parse_ip6 c) with ([I (Ldx SB R8 R0 6)] ++
      jover (Jmp true JEQ R8 (Im 6)) (jover (Jmp true JEQ R8 (Im 17)) (mid_code body)) ++ tail).
    set (s1 := setr s R8 (VN x)).
    assert (LD : forall l, frun e (I (Ldx SB R8 R0 6) :: l) 0 s = frun e l 0 s1).
    { intros l. apply fr_ldx. rewrite E0. apply (holds_byte e _ (ctx_off o_l2) p h3 6%nat Ho); try offs; rewrite L3; offs. }
    assert (S1 : hs 0 w s1) by (unfold s1; hsts).
    (* the tail, from a state like s1 *)
    assert (TAIL : forall t, hs 0 w t -> stk t = stk s -> rg t R7 = rg s R7 -> rg t R8 = VN x ->
      good e tail t (fun s' => hs 0 w s' /\ dyn (stk s') /\ rg s' R7 = rg s R7 /\ rg s' R8 = VN x /\
        holds e (stk s') (ctx_off o_l2) p h3 /\ stk_load (stk s') (ctx_off o_l3hdr) 8 = p /\
        stk_load (stk s') (ctx_off o_l4off) 4 = VN (o3 + 40))).
    { intros t Ht Kt R7t R8t. unfold tail.
      set (t1 := setr (setr t R2 (VN o3)) R2 (VN (o3 + 40))).
      pose proof (same_val (stk t1) (ctx_off o_l4off) (VN (o3 + 40)) 4) as SBt.
      exists (sets t1 (wr_stk (stk t1) (ctx_off o_l4off) (val_bytes (VN (o3 + 40)) 4))). split.
      - intros l. cbn [app]. rewrite fr_ldx10; [|exact (h_r10 _ _ _ _ _ _ Ht)|reflexivity]. cbn [szn]. rewrite Kt, EO.
        unfold ADD64I. rewrite (fr_alu64 e _ _ AAdd R2 (Im 40) o3 40) by (try discriminate; reflexivity).
        cbn [alu64]. rewrite N.mod_small by (unfold two64; lia). fold t1.
        rewrite fr_stx10; [reflexivity|exact (h_r10 _ _ _ _ _ _ Ht)|reflexivity].
      - cbn [stk sets]. change (stk t1) with (stk t) in *. rewrite Kt in *.
        split; [|split; [|split; [|split; [|split; [|split]]]]].
        + eapply hst_sets; [unfold t1; hsts|unfold t1; cbn [stk setr]; rewrite ?Kt; exact SBt|lia|]. unfold clear; offs.
        + eapply dyn_sb; [exact SBt|lia|right; offs|exact D].
        + exact R7t.
        + exact R8t.
        + eapply holds_sb; [exact SBt| |exact Ho]. rewrite L3. offs.
        + rewrite (sb_ld _ _ _ _ _ _ SBt) by offs. exact EL.
        + apply load_store_num. change (256 ^ N.of_nat 4) with two32. unfold two32; lia. }
    assert (NOSTUB : code_walk e (c_nexthdr c) (e_pkt e) x (o3 + 40) = (x, o3 + 40, fun _ => false) ->
      forall a, (forall l, exists t, frun e (a ++ l) 0 s = frun e l 0 t /\ hs 0 w t /\ stk t = stk s /\ rg t R7 = rg s R7 /\ rg t R8 = VN x) ->
      match code_walk e (c_nexthdr c) (e_pkt e) x (o3 + 40) with
      | (proto, off, eh) => good e (a ++ tail) s (fun s' => exists m, hs m w s' /\ m < 64 /\ dyn (stk s') /\
        rg s' R7 = rg s R7 /\ rg s' R8 = VN proto /\ proto < 256 /\
        holds e (stk s') (ctx_off o_l2) p h3 /\ stk_load (stk s') (ctx_off o_l3hdr) 8 = p /\
        stk_load (stk s') (ctx_off o_l4off) 4 = VN off /\ off < two32 /\
        (c_nexthdr c = true -> forall t, eh t = negb (N.land m (eh_bit t) =? 0)))
      end).
    { intros -> a Ha.
      assert (G : exists t, (forall l, frun e (a ++ l) 0 s = frun e l 0 t) /\ hs 0 w t /\ stk t = stk s /\ rg t R7 = rg s R7 /\ rg t R8 = VN x).
      { destruct (Ha []) as (t & Ft & Ht). rewrite app_nil_r in Ft. exists t. split; auto.
        intros l. rewrite frun_app; [rewrite Ft; reflexivity|]. rewrite Ft. discriminate. }
      destruct G as (t & Ft & Ht & K & A & B). destruct (TAIL t Ht K A B) as (t2 & F2 & P1 & P2 & P3 & P4 & P5 & P6 & P7).
      exists t2. split; [intros l; rewrite <- app_assoc, Ft; apply F2|].
      exists 0. split; [exact P1|]. repeat (split; [first [assumption|reflexivity|unfold two32; lia]|]).
      intros _ t0. reflexivity. }
    assert (J : forall z, (0 <= z < 1000)%Z -> do_jmp s1 true JEQ R8 (Im z) = Some (x =? Z.to_N z)).
    { intros z Hz. erewrite do_jmp_num64; [|reflexivity|reflexivity]. cbn [jtest]. rewrite imm64_nonneg by (unfold two64; lia). reflexivity. }
    assert (SM : small body) by (unfold small; reflexivity).
    assert (SM2 : small (mid_code body)) by (unfold small; reflexivity).
    assert (SM3 : small (jover (Jmp true JEQ R8 (Im 17)) (mid_code body))) by (unfold small; reflexivity).
    pose proof (mid_calls_ok x Bx) as MC.
    assert (CW : calls_stub x = false -> code_walk e (c_nexthdr c) (e_pkt e) x (o3 + 40) = (x, o3 + 40, fun _ => false)).
    { intros Q. unfold code_walk. rewrite Q. reflexivity. }
    destruct (N.eqb_spec x 6) as [X6|X6].
    { rewrite app_assoc. apply NOSTUB; [apply CW; rewrite X6; reflexivity|].
      intros l. exists s1. split; [|split; [exact S1|repeat split]]. cbn [app]. rewrite LD.
      rewrite frun_jover with (b := true); [reflexivity| |exact SM3]. rewrite (J 6%Z) by lia. rewrite X6. reflexivity. }
    destruct (N.eqb_spec x 17) as [X17|X17].
    { rewrite app_assoc. apply NOSTUB; [apply CW; rewrite X17; reflexivity|].
      intros l. exists s1. split; [|split; [exact S1|repeat split]]. cbn [app]. rewrite LD.
      rewrite frun_jover with (b := false); [| |exact SM3].
      2:{ rewrite (J 6%Z) by lia. rewrite X17. reflexivity. }
      rewrite frun_jover with (b := true); [reflexivity| |exact SM2]. rewrite (J 17%Z) by lia. rewrite X17. reflexivity. }
    cbn [orb negb andb] in MC.
    assert (PRE : forall l, frun e (([I (Ldx SB R8 R0 6)] ++
      jover (Jmp true JEQ R8 (Im 6)) (jover (Jmp true JEQ R8 (Im 17)) (mid_code body))) ++ l) 0 s = frun e (mid_code body ++ l) 0 s1).
    { intros l. rewrite <- app_assoc. cbn [app]. rewrite LD.
      rewrite frun_jover with (b := false); [| |exact SM3].
      2:{ rewrite (J 6%Z) by lia. cbn [Z.to_N]. rewrite (proj2 (N.eqb_neq _ _) X6). reflexivity. }
      rewrite frun_jover with (b := false); [reflexivity| |exact SM2].
      rewrite (J 17%Z) by lia. cbn [Z.to_N]. rewrite (proj2 (N.eqb_neq _ _) X17). reflexivity. }
    destruct (mid_calls x) eqn:MX.
    2:{ rewrite app_assoc. apply NOSTUB; [apply CW; symmetry; exact MC|].
        intros l. destruct (run_mid body s1 x SM eq_refl Bx) as (t & Ft & Rt & Kt & Wt).
        specialize (Ft l). rewrite MX in Ft. exists t. split; [rewrite PRE; exact Ft|].
        split; [|split; [exact Kt|split; rewrite Rt by discriminate; reflexivity]].
        destruct S1 as [A1 A2 A3 A4]. constructor; [rewrite Rt by discriminate; exact A1|rewrite Kt; exact A2|rewrite Kt; exact A3|congruence]. }
    (* the stub is called *)
    rewrite app_assoc.
    assert (G : exists t, (forall l, frun e (mid_code body ++ l) 0 s1 = frun e (body ++ l) 0 t) /\ hs 0 w t /\ stk t = stk s /\ rg t R7 = rg s R7).
    { destruct (run_mid body s1 x SM eq_refl Bx) as (t0 & Ft0 & Rt0 & Kt0 & Wt0).
      exists t0. split; [|split; [|split; [exact Kt0|rewrite Rt0 by discriminate; reflexivity]]].
      - intros l. specialize (Ft0 l). rewrite MX in Ft0. exact Ft0.
      - destruct S1 as [A1 A2 A3 A4]. constructor; [rewrite Rt0 by discriminate; exact A1|rewrite Kt0; exact A2|rewrite Kt0; exact A3|congruence]. }
    destruct G as (t & Ft & Ht & Kt & R7t).
    set (t1 := setr (setr t R1 (rg t R10)) R1 (VStk (ctx_off o_arg))).
    assert (FIRST : mload e (stk t1) (wd t1) (stk_load (stk t1) (ctx_off o_arg + o_l3hdr) 8) 6 1 = Some (VN x)).
    { change (ctx_off o_arg + o_l3hdr)%Z with (ctx_off o_l3hdr). change (stk t1) with (stk t). rewrite Kt, EL.
      apply (holds_byte e _ (ctx_off o_l2) p h3 6%nat Ho); try offs; rewrite L3; offs. }
    assert (OFF : stk_load (stk t1) (ctx_off o_arg + o_l3off) 4 = VN o3).
    { change (ctx_off o_arg + o_l3off)%Z with (ctx_off o_l3off). change (stk t1) with (stk t). rewrite Kt. exact EO. }
    assert (M40 : (o3 + 40) mod two32 = o3 + 40) by (apply N.mod_small; unfold two32; lia).
    assert (B40 : o3 + 40 < two32) by (unfold two32; lia).
    assert (RUN : forall t2 v, do_call e (if c_nexthdr c then StubIp6Nh else StubIp6Eh) t1 = Some t2 -> rg t2 R0 = v ->
      forall l, frun e ((([I (Ldx SB R8 R0 6)] ++
      jover (Jmp true JEQ R8 (Im 6)) (jover (Jmp true JEQ R8 (Im 17)) (mid_code body))) ++ tail) ++ l) 0 s = frun e l 0 (setr t2 R8 v)).
    { intros t2 v C E l. rewrite <- app_assoc, PRE, Ft. unfold body. rewrite <- app_assoc. unfold eh. cbn [app].
      rewrite fr_mov64r. erewrite fr_add_stk by (rewrite rg_same; exact (h_r10 _ _ _ _ _ _ Ht)).
      rewrite Z.add_0_l. fold t1. erewrite fr_call by exact C. rewrite fr_mov64r, E.
      rewrite frun_ja by (unfold tail; reflexivity). apply frun_skip. }
    assert (CS : calls_stub x = true) by (symmetry; exact MC).
    unfold code_walk. rewrite CS. unfold do_call, stub_ip6 in RUN. change (rg t1 R1) with (VStk (ctx_off o_arg)) in RUN.
    assert (T1 : hs 0 w t1) by (unfold t1; hsts).
    assert (K1 : stk t1 = stk s) by exact Kt.
    destruct (c_nexthdr c) eqn:NH; cbv iota beta in RUN; rewrite FIRST, OFF in RUN; cbv iota beta zeta in RUN; rewrite M40 in RUN.
    - pose proof (nh_off e EXT_MAX_CHAIN x (o3 + 40) 0 B40 ltac:(reflexivity)) as BB.
      destruct (ip6_nh_loop e EXT_MAX_CHAIN x (o3 + 40) 0) as [[pr off] mk]. cbn [fst snd] in BB. destruct BB as [BO BM].
      specialize (RUN _ _ eq_refl eq_refl). rewrite (N.mod_small mk) in RUN by lia.
      change (ctx_off o_arg + o_eh)%Z with (ctx_off o_eh) in RUN.
      change (ctx_off o_arg + o_l4off)%Z with (ctx_off o_l4off) in RUN.
      set (k1 := wr_stk (stk t1) (ctx_off o_eh) [MB mk]) in *.
      change (map MB (le_enc 4 off)) with (val_bytes (VN off) 4) in RUN.
      pose proof (same_wr (stk t1) (ctx_off o_eh) [MB mk]) as SB1. fold k1 in SB1.
      pose proof (same_val k1 (ctx_off o_l4off) (VN off) 4) as SB2.
      set (k2 := wr_stk k1 (ctx_off o_l4off) (val_bytes (VN off) 4)) in *.
      rewrite K1 in SB1.
      eexists. split; [exact RUN|]. exists mk.
      assert (H1 : hs mk w (sets t1 k1)).
      { destruct T1 as [A1 A2 A3 A4]. constructor; auto; cbn [stk sets].
        - unfold k1. apply (base_eh 0); [lia|exact A2].
        - eapply metas_sb; [rewrite <- K1 in SB1; exact SB1| | |exact A3]; cbn [length]; offs. }
      assert (H2 : hs mk w (sets (sets t1 k1) k2)) by (eapply hst_sets; [exact H1|exact SB2|lia|unfold clear; offs]).
      split; [apply hst_setr; [reflexivity|]; hsts; exact H2|]. split; [exact BM|].
      split.
      { cbn [stk setr clobber sets]. eapply dyn_sb; [exact SB2|lia|right; offs|].
        eapply dyn_sb; [exact SB1|lia|right; offs|exact D]. }
      split; [exact R7t|]. split; [reflexivity|]. split; [apply N.mod_upper_bound; discriminate|].
      split.
      { cbn [stk setr clobber sets]. eapply holds_sb; [exact SB2|rewrite L3; offs|].
        eapply holds_sb; [exact SB1|rewrite L3; cbn [length]; offs|exact Ho]. }
      split.
      { cbn [stk setr clobber sets]. rewrite (sb_ld _ _ _ _ _ _ SB2) by offs.
        rewrite (sb_ld _ _ _ _ _ _ SB1) by (cbn [length]; offs). exact EL. }
      split; [cbn [stk setr clobber sets]; apply load_store_num; exact BO|]. split; [exact BO|].
      intros _ q. reflexivity.
    - pose proof (eh_off e EXT_MAX_CHAIN x (o3 + 40) B40) as BO.
      destruct (ip6_eh_loop e EXT_MAX_CHAIN x (o3 + 40)) as [pr off]. cbn [fst snd] in BO.
      specialize (RUN _ _ eq_refl eq_refl).
      change (ctx_off o_arg + o_l4off)%Z with (ctx_off o_l4off) in RUN.
      change (map MB (le_enc 4 off)) with (val_bytes (VN off) 4) in RUN.
      pose proof (same_val (stk t1) (ctx_off o_l4off) (VN off) 4) as SB2.
      set (k2 := wr_stk (stk t1) (ctx_off o_l4off) (val_bytes (VN off) 4)) in *.
      eexists. split; [exact RUN|]. exists 0.
      assert (H2 : hs 0 w (sets t1 k2)) by (eapply hst_sets; [exact T1|exact SB2|lia|unfold clear; offs]).
      rewrite K1 in SB2.
      split; [apply hst_setr; [reflexivity|]; hsts; exact H2|]. split; [reflexivity|].
      split.
      { cbn [stk setr clobber sets]. eapply dyn_sb; [exact SB2|lia|right; offs|exact D]. }
      split; [exact R7t|]. split; [reflexivity|]. split; [apply N.mod_upper_bound; discriminate|].
      split.
      { cbn [stk setr clobber sets]. eapply holds_sb; [exact SB2|rewrite L3; offs|exact Ho]. }
      split.
      { cbn [stk setr clobber sets]. rewrite (sb_ld _ _ _ _ _ _ SB2) by offs. exact EL. }
      split; [cbn [stk setr clobber sets]; apply load_store_num; exact BO|]. split; [exact BO|].
      discriminate.
  Qed.
End H.
