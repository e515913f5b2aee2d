(** The prologue: dynptr, link header, network header (proofs only). *)
From Coq Require Import NArith ZArith List Bool Lia Arith.
From Verif Require Import Bytes Types World BpfModel GenModel PktSpec ViewSpec Wf ViewModel Frag BytesFacts NetFacts
  StepFacts SwichFacts MatcherFacts MatcherFacts2 MatcherFacts4 RuleFacts2 HeadFacts.
Import ListNotations.
Local Open Scope N_scope.

Record hst (c : chain) (ifx len m : N) (w : world) (s : st) : Prop := mkH {
  h_r10 : rg s R10 = VStk 0;
  h_base : base c m (stk s);
  h_metas : metas ifx len (stk s);
  h_wd : wd s = w
}.

Lemma hst_setr c ifx len m w s r x : reg_eqb R10 r = false -> hst c ifx len m w s -> hst c ifx len m w (setr s r x).
Proof. intros E [H1 H2 H3 H4]. constructor; auto. rewrite rg_other by auto. exact H1. Qed.

Lemma hst_clobber c ifx len m w s x : hst c ifx len m w s -> hst c ifx len m w (clobber s x).
Proof. intros H. unfold clobber. repeat (apply hst_setr; [reflexivity|]). exact H. Qed.

Lemma hst_sets c ifx len m w s k a n : hst c ifx len m w s -> same_but a n (stk s) k -> (0 <= n)%Z -> clear a n ->
  hst c ifx len m w (sets s k).
Proof.
  intros [H1 H2 H3 H4] S Hn Hc. constructor; auto; cbn [stk sets].
  - eapply base_sb; eauto.
  - eapply metas_sb; eauto.
Qed.

Lemma hst_byte c ifx len m w s a x : hst c ifx len m w s -> (a = -199 \/ a = -198 \/ a = -197)%Z ->
  hst c ifx len m w (sets s (wr_stk (stk s) a (val_bytes (VN x) 1))).
Proof.
  intros [H1 H2 H3 H4] Ha. constructor; auto; cbn [stk sets].
  - apply base_byte; auto.
  - eapply metas_sb; [apply (same_val _ a (VN x) 1)| |right; right |exact H3]; offs.
Qed.

Ltac hsts := repeat first [ assumption | apply hst_clobber | apply hst_setr; [reflexivity|] ].

Lemma st_ok e s p off n v o : p = VStk o -> stk_ok (o + off) n = true ->
  mstore e s p off n v = Some (sets s (wr_stk (stk s) (o + off) (val_bytes v n))).
Proof. intros -> H. cbn [mstore]. rewrite H. reflexivity. Qed.

(** Stores through the frame pointer. *)
Lemma fr_stx10 e l s sz q off : rg s R10 = VStk 0 -> stk_ok off (szn sz) = true ->
  frun e (I (Stx sz R10 q off) :: l) 0 s = frun e l 0 (sets s (wr_stk (stk s) off (val_bytes (rg s q) (szn sz)))).
Proof. intros H1 H2. apply fr_stx. rewrite H1. rewrite (st_ok e s _ off _ _ 0); auto. Qed.

Lemma fr_st10 e l s sz off imm : rg s R10 = VStk 0 -> stk_ok off (szn sz) = true ->
  frun e (I (St sz R10 off imm) :: l) 0 s = frun e l 0 (sets s (wr_stk (stk s) off (val_bytes (VN (imm64 imm)) (szn sz)))).
Proof. intros H1 H2. apply fr_st. rewrite H1. rewrite (st_ok e s _ off _ _ 0); auto. Qed.

Lemma fr_ldx10 e l s sz d off : rg s R10 = VStk 0 -> stk_ok off (szn sz) = true ->
  frun e (I (Ldx sz d R10 off) :: l) 0 s = frun e l 0 (setr s d (stk_load (stk s) off (szn sz))).
Proof. intros H1 H2. apply fr_ldx. rewrite H1. cbn [mload]. rewrite Z.add_0_l, H2. reflexivity. Qed.

Section H.
  Variables (e : env) (c : chain) (ifx len : N) (w : world) (k : Z).
  Hypothesis Bn : n_rules c < 268435456.
  Hypothesis Ncnt : e_ncnt e = n_rules c + 2.

  Notation hs := (hst c ifx len).
  Notation FAIL a s := (halts e a s (imm64 k) (w_count w (n_rules c + 1) len)).

  Lemma fail_blk m s : hs m w s -> FAIL (fail_block c k) s.
  Proof. intros [H1 H2 H3 H4]. rewrite <- H4. eapply halts_fail; eauto. Qed.

  Lemma fail_small : small (fail_block c k).
  Proof. unfold small. reflexivity. Qed.

  Lemma clob_regs s x : rg (clobber s x) R7 = rg s R7 /\ rg (clobber s x) R8 = rg s R8 /\ rg (clobber s x) R0 = x /\
    stk (clobber s x) = stk s /\ rg (clobber s x) R10 = rg s R10.
  Proof. repeat split. Qed.

  Definition dyn_call (kf : callee) (v : val) : Prop :=
    match e_flavor e with
    | F_XDP => kf = KDynXdp /\ v = VK KCtx
    | F_TC | F_CGROUP_SKB => kf = KDynSkb /\ v = VK KCtx
    | F_NF => kf = KDynSkb /\ v = VK KSkb
    | F_SOCK_ADDR => False
    end.

  Lemma call_dyn kf s a : dyn_call kf (rg s R1) -> rg s R2 = VN 0 -> rg s R3 = VStk a -> stk_ok a 16 = true ->
    do_call e kf s = 
      if e_dynptr e =? 0
      then Some (clobber (sets s (wr_stk (stk s) a (map (MP VDyn) (seq 0 16)))) (VN 0))
      else Some (clobber (sets s (wr_stk (stk s) a (repeat MU 16))) (VN (e_dynptr e))).
  Proof.
    unfold dyn_call. intros D E2 E3 Ok1.
    destruct (e_flavor e) eqn:Ef; try contradiction; destruct D as [-> D];
      unfold do_call; rewrite Ef, D, E2, E3, Ok1; reflexivity.
  Qed.

  (** stub.c:47-103 *)
  Lemma stage_dyn kf s m : hs m w s -> dyn_call kf (rg s R1) ->
    if e_dynptr e =? 0
    then good e (make_dynptr c kf k) s (fun s' => hs m w s' /\ dyn (stk s') /\ rg s' R7 = rg s R7 /\ rg s' R8 = rg s R8 /\
           same_but (ctx_off o_dynptr) 16 (stk s) (stk s'))
    else FAIL (make_dynptr c kf k) s.
  Proof.
    intros H D. unfold make_dynptr.
    set (s1 := setr (setr (setr s R2 (VN 0)) R3 (rg s R10)) R3 (VStk (ctx_off o_dynptr))).
    assert (PRE : forall l, frun e ([MOV64I R2 0; MOV64R R3 R10; ADD64I R3 (ctx_off o_dynptr)] ++ l) 0 s = frun e l 0 s1).
    { intros l. cbn [app]. rewrite fr_mov64i, fr_mov64r.
      erewrite fr_add_stk by (rewrite rg_same, rg_other by reflexivity; exact (h_r10 _ _ _ _ _ _ H)). reflexivity. }
    assert (C := call_dyn kf s1 (ctx_off o_dynptr) D eq_refl eq_refl eq_refl).
    assert (S1 : hs m w s1) by (unfold s1; hsts).
    assert (ZONE : forall x, length x = 16%nat -> hs m w (sets s1 (wr_stk (stk s1) (ctx_off o_dynptr) x))).
    { intros x Hx. destruct S1 as [A1 A2 A3 A4].
      assert (SBt : same_but (ctx_off o_dynptr) 16 (stk s1) (wr_stk (stk s1) (ctx_off o_dynptr) x)).
      { pose proof (same_wr (stk s1) (ctx_off o_dynptr) x) as Q. rewrite Hx in Q. exact Q. }
      constructor; auto; cbn [stk sets].
      - eapply base_sb; [exact SBt| | |exact A2]; offs.
      - eapply metas_sb; [exact SBt| | |exact A3]; offs. }
    destruct (N.eqb_spec (e_dynptr e) 0) as [E0|E0].
    - eapply good_app with (P := fun t => t = clobber (sets s1 (wr_stk (stk s1) (ctx_off o_dynptr) (map (MP VDyn) (seq 0 16)))) (VN 0)).
      { eexists. split; [|reflexivity]. intros l.
        change (([MOV64I R2 0; MOV64R R3 R10; ADD64I R3 (ctx_off o_dynptr); I (Call kf)] ++ l))
          with ([MOV64I R2 0; MOV64R R3 R10; ADD64I R3 (ctx_off o_dynptr)] ++ (I (Call kf) :: l)).
        rewrite PRE. erewrite fr_call by exact C. reflexivity. }
      intros s' ->. apply good_jover_yes; [reflexivity|apply fail_small|].
      split; [hsts; apply ZONE; reflexivity|]. split; [reflexivity|]. split; [reflexivity|]. split; [reflexivity|].
      apply (same_wr (stk s1) (ctx_off o_dynptr) (map (MP VDyn) (seq 0 16))).
    - eapply good_halts with (P := fun t => t = clobber (sets s1 (wr_stk (stk s1) (ctx_off o_dynptr) (repeat MU 16))) (VN (e_dynptr e))).
      { eexists. split; [|reflexivity]. intros l.
        change (([MOV64I R2 0; MOV64R R3 R10; ADD64I R3 (ctx_off o_dynptr); I (Call kf)] ++ l))
          with ([MOV64I R2 0; MOV64R R3 R10; ADD64I R3 (ctx_off o_dynptr)] ++ (I (Call kf) :: l)).
        rewrite PRE. erewrite fr_call by exact C. reflexivity. }
      intros s' ->. apply halts_jover_no; [|apply fail_small|].
      + erewrite do_jmp_num64; [|apply rg_same|reflexivity]. cbn [jtest]. change (imm64 0) with 0.
        rewrite (proj2 (N.eqb_neq _ _) E0). reflexivity.
      + apply fail_blk with (m := m). hsts. apply ZONE. reflexivity.
  Qed.

  (** stub.c:105-162 *)
  Lemma stage_l2 s m : hs m w s -> dyn (stk s) -> bytes (e_pkt e) ->
    match slice (e_pkt e) 0 14 with
    | Some h2 => good e (parse_l2 c k) s (fun s' => hs m w s' /\ dyn (stk s') /\
        rg s' R7 = VN (swap16 (be_dec (sub h2 12 2))) /\ rg s' R8 = rg s R8 /\
        stk_load (stk s') (ctx_off o_l3off) 4 = VN 14)
    | None => FAIL (parse_l2 c k) s
    end.
  Proof.
    intros H D By. unfold parse_l2.
    set (b := ctx_off o_l2).
    set (s0 := setr (setr (setr (setr (setr (setr s R1 (rg s R10)) R1 (VStk (ctx_off o_dynptr))) R2 (VN 0)) R3 (rg s R10)) R3 (VStk b)) R4 (VN 14)).
    set (s1 := sets s0 (wr_stk (stk s0) (ctx_off o_l2size) (val_bytes (VN 14) 1))).
    assert (PRE : forall l, frun e ([MOV64R R1 R10; ADD64I R1 (ctx_off o_dynptr); MOV64I R2 0;
        MOV64R R3 R10; ADD64I R3 (ctx_off o_l2); MOV64I R4 14; I (Stx SB R10 R4 (ctx_off o_l2size))] ++ l) 0 s = frun e l 0 s1).
    { intros l. cbn [app]. rewrite fr_mov64r.
      erewrite fr_add_stk by (rewrite rg_same; exact (h_r10 _ _ _ _ _ _ H)).
      rewrite fr_mov64i, fr_mov64r.
      erewrite fr_add_stk by (rewrite rg_same, !rg_other by reflexivity; exact (h_r10 _ _ _ _ _ _ H)).
      rewrite fr_mov64i. rewrite fr_stx10; [reflexivity|exact (h_r10 _ _ _ _ _ _ H)|reflexivity]. }
    assert (S1 : hs m w s1) by (apply hst_byte; [unfold s0; hsts|left; reflexivity]).
    assert (D1 : dyn (stk s1)) by (eapply dyn_sb; [apply (same_val _ _ (VN 14) 1)|lia|right; offs|exact D]).
    pose proof (call_slice e s1 (ctx_off o_dynptr) 0 14 b eq_refl eq_refl eq_refl eq_refl D1 eq_refl eq_refl eq_refl) as C.
    destruct (slice (e_pkt e) 0 14) as [h2|] eqn:ES.
    - destruct C as (k' & p & C & Ho & SBt & Lh).
      assert (S2 : hs m w (clobber (sets s1 k') p)).
      { apply hst_clobber. eapply hst_sets; [exact S1|exact SBt|lia|]. unfold clear, b; offs. }
      assert (B2 : bytes h2).
      { unfold slice in ES. destruct (_ <=? _); [|discriminate]. injection ES as <-. apply bytes_sub; auto. }
      eapply good_app with (P := fun t => t = clobber (sets s1 k') p).
      { eexists. split; [|reflexivity]. intros l.
        match goal with |- frun e (?x ++ l) 0 s = _ => change (x ++ l) with ([MOV64R R1 R10; ADD64I R1 (ctx_off o_dynptr); MOV64I R2 0;
          MOV64R R3 R10; ADD64I R3 (ctx_off o_l2); MOV64I R4 14; I (Stx SB R10 R4 (ctx_off o_l2size))] ++ (I (Call KSlice) :: l)) end.
        rewrite PRE. erewrite fr_call by exact C. reflexivity. }
      intros s' ->. eapply good_app with (P := fun t => t = clobber (sets s1 k') p).
      { apply good_jover_yes; [|apply fail_small|reflexivity].
        apply do_jmp_ptr with (v := p); [reflexivity| eapply holds_ptr; eauto | auto]. }
      intros s' ->.
      set (s2 := clobber (sets s1 k') p) in *.
      set (k3 := wr_stk (stk s2) (ctx_off o_l2hdr) (val_bytes p 8)).
      assert (Ho3 : holds e k3 b p h2).
      { eapply holds_sb; [apply (same_val (stk s2) (ctx_off o_l2hdr) p 8)| rewrite Lh; unfold b; offs |exact Ho]. }
      set (s4 := setr (sets s2 k3) R7 (VN (swap16 (be_dec (sub h2 12 2))))).
      set (s5 := sets s4 (wr_stk (stk s4) (ctx_off o_l3off) (val_bytes (VN 14) 4))).
      assert (S3 : hs m w (sets s2 k3)).
      { eapply hst_sets; [exact S2|apply (same_val (stk s2) (ctx_off o_l2hdr) p 8)|lia|]. unfold clear; offs. }
      assert (D3 : dyn k3).
      { eapply dyn_sb; [apply (same_val (stk s2) (ctx_off o_l2hdr) p 8)|lia|right; offs|].
        eapply dyn_sb; [exact SBt|lia|right; unfold b; offs|exact D1]. }
      exists s5. split.
      + intros l. cbn [app].
        rewrite fr_stx10; [|exact (h_r10 _ _ _ _ _ _ S2)|reflexivity].
        change (sets s2 (wr_stk (stk s2) (ctx_off o_l2hdr) (val_bytes (rg s2 R0) (szn SDW)))) with (sets s2 k3).
        erewrite fr_ldx by (change (rg (sets s2 k3) R0) with p;
          apply (holds_load e k3 (wd (sets s2 k3)) b p h2 12 2 Ho3); [unfold b; offs|rewrite Lh; unfold b; offs|rewrite Lh; lia]).
        replace (le_dec (sub h2 12 2)) with (swap16 (be_dec (sub h2 12 2))).
        2:{ rewrite <- swap16_sub2 by (auto; rewrite Lh; lia). apply swap16_invol.
            apply le2_bound; auto. rewrite Lh; lia. }
        fold s4. rewrite fr_st10; [reflexivity|exact (h_r10 _ _ _ _ _ _ S3)|reflexivity].
      + split; [|split; [|split; [|split]]].
        * unfold s5. eapply hst_sets; [unfold s4; hsts; exact S3|apply (same_val (stk s4) (ctx_off o_l3off) (VN 14) 4)|lia|].
          unfold clear; offs.
        * unfold s5. cbn [stk sets]. eapply dyn_sb; [apply (same_val (stk s4) (ctx_off o_l3off) (VN 14) 4)|lia|right; offs|exact D3].
        * reflexivity.
        * reflexivity.
        * unfold s5. cbn [stk sets]. apply load_store_num. reflexivity.
    - eapply good_halts with (P := fun t => t = clobber s1 (VN 0)).
      { eexists. split; [|reflexivity]. intros l.
        match goal with |- frun e (?x ++ l) 0 s = _ => change (x ++ l) with ([MOV64R R1 R10; ADD64I R1 (ctx_off o_dynptr); MOV64I R2 0;
          MOV64R R3 R10; ADD64I R3 (ctx_off o_l2); MOV64I R4 14; I (Stx SB R10 R4 (ctx_off o_l2size))] ++ (I (Call KSlice) :: l)) end.
        rewrite PRE. erewrite fr_call by exact C. reflexivity. }
      intros s' ->. apply halts_app. apply halts_jover_no; [reflexivity|apply fail_small|].
      apply fail_blk with (m := m). hsts.
  Qed.
End H.
