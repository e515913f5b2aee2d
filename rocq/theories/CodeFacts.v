(** Switches, byte copies, flow hash (proofs only). *)
From Coq Require Import NArith ZArith List Bool Lia Arith.
From Verif Require Import Bytes Types World BpfModel GenModel PktSpec ViewSpec Wf ViewModel Frag BytesFacts NetFacts StepFacts SwichFacts
  SetFacts MatcherFacts MatcherFacts2 MatcherFacts4 MatcherFacts5 HeadFacts5 ProgFacts ProgThm FitsFacts EvalSpec EvalFacts Deploy DeployFacts ChainSpec
  ChainFacts OneFacts OneFacts2 CodeSpec JumpSpec JumpFacts.
Import ListNotations.
Local Open Scope N_scope.

(** ** Switch *)
Lemma straight_frun e l s s' : straight e l s s' -> frun e (map I l) 0 s = FNext s'.
Proof. induction 1; cbn [map frun]; auto. rewrite H. exact IHstraight. Qed.

Lemma chosen_pick x d opts b : chosen x d opts b -> swich_pick x opts d = b.
Proof.
  unfold swich_pick. induction 1; cbn [find fst]; auto.
  - rewrite N.eqb_refl. reflexivity.
  - destruct (N.eqb_spec x y); [congruence|exact IHchosen].
Qed.

Lemma swich_run e pre post r opts d x b s s' :
  rg s r = VN x -> Forall (fun o => fst o < two31) opts -> (Z.of_nat (length (swich r opts (Some d))) < 32768)%Z ->
  chosen x d opts b -> straight e b s s' ->
  exists n, forall fuel,
    run e (pre ++ resolve (swich r opts (Some d)) ++ post) (n + fuel) (Z.of_nat (length pre)) s =
    run e (pre ++ resolve (swich r opts (Some d)) ++ post) fuel (Z.of_nat (length pre + length (swich r opts (Some d)))) s'.
Proof.
  intros Hr Ho Hs Hc Hb. pose proof (straight_frun _ _ _ _ Hb) as F. rewrite <- (chosen_pick _ _ _ _ Hc) in F.
  pose proof (frun_swich e r x opts d [] s Hr Ho Hs ltac:(rewrite F; discriminate)) as X. rewrite app_nil_r, F in X. cbn [fbind frun] in X.
  destruct (run_frag e (swich r opts (Some d)) pre post s) as (n & _ & R).
  - apply wfix_well. apply wfix_swich.
  - exact Hs.
  - rewrite X. discriminate.
  - exists n. intros fuel. rewrite R, X. reflexivity.
Qed.

(** ** Byte copies *)
Definition same_out (k0 : stack) (lo hi : Z) (k : stack) : Prop := forall z, (z < lo \/ hi <= z)%Z -> k z = k0 z.

Lemma copy_gen e p h k0 lo hi : bytes h -> (-512 <= lo)%Z -> (hi <= 0)%Z ->
  (forall k w off m, same_out k0 lo hi k -> (off + m <= length h)%nat -> mload e k w p (Z.of_nat off) m = Some (VN (le_dec (sub h off m)))) ->
  forall fuel n src dst s, (n <= fuel)%nat -> (src + n <= length h)%nat -> (lo <= dst)%Z -> (dst + Z.of_nat n <= hi)%Z ->
  rg s R6 = p -> rg s R10 = VStk 0 -> same_out k0 lo hi (stk s) ->
  exists s', (forall l, frun e (stub_load fuel (Z.of_nat src) dst n ++ l) 0 s = frun e l 0 s') /\
    wd s' = wd s /\ (forall r, r <> R1 -> rg s' r = rg s r) /\
    rd_stk (stk s') dst n = map MB (sub h src n) /\
    (forall z, (z < dst \/ dst + Z.of_nat n <= z)%Z -> stk s' z = stk s z).
Proof.
  intros Bh Hlo Hhi Hrd. induction fuel as [|fuel IH]; intros n src dst s Hf Hl Hd1 Hd2 H6 H10 Hk.
  - assert (n = 0)%nat by lia. subst n. exists s. sp; auto.
  - destruct n as [|n]; [exists s; sp; auto|].
    cbn [stub_load]. set (u := load_unit (Z.of_nat src) dst (S n)).
    pose proof (load_unit_le (Z.of_nat src) dst (S n) ltac:(lia)) as Hu. fold u in Hu.
    pose proof (szn_pos u) as Hp. set (k := szn u) in *.
    set (x := le_dec (sub h src k)).
    set (s1 := setr s R1 (VN x)).
    set (s2 := sets s1 (wr_stk (stk s1) dst (val_bytes (VN x) k))).
    assert (Lb : length (val_bytes (VN x) k) = k) by (cbn [val_bytes]; rewrite map_length, le_enc_length; reflexivity).
    assert (K2 : same_out k0 lo hi (stk s2)).
    { intros z Hz. unfold s2. cbn [stk sets]. rewrite wr_stk_out by (rewrite Lb; lia). apply Hk. exact Hz. }
    destruct (IH (S n - k)%nat (src + k)%nat (dst + Z.of_nat k)%Z s2) as (s' & K & W' & R' & D' & O');
      try lia; auto.
    exists s'. sp; auto.
    + intros l. rewrite <- app_assoc. cbn [app].
      assert (L1 : forall r, frun e (I (Ldx u R1 R6 (Z.of_nat src)) :: r) 0 s = frun e r 0 s1).
      { intros r. eapply fr_ldx. rewrite H6. apply Hrd; [exact Hk|fold k; lia]. }
      rewrite L1.
      assert (L2 : forall r, frun e (I (Stx u R10 R1 dst) :: r) 0 s1 = frun e r 0 s2).
      { intros r. eapply fr_stx. change (rg s1 R10) with (rg s R10). rewrite H10.
        change (rg s1 R1) with (VN x). cbn [mstore]. rewrite Z.add_0_l. unfold stk_ok. fold k.
        rewrite (proj2 (Z.leb_le _ _)), (proj2 (Z.leb_le _ _)) by lia. reflexivity. }
      rewrite L2. replace (Z.of_nat src + Z.of_nat k)%Z with (Z.of_nat (src + k)) by lia.
      apply K.
    + intros r Hr. rewrite R' by auto. unfold s2, s1. cbn. destruct (reg_eqb r R1) eqn:E; auto. destruct r; try discriminate E. congruence.
    + replace (S n) with (k + (S n - k))%nat by lia. rewrite rd_stk_app, D', sub_app, map_app. f_equal.
      rewrite (rd_stk_ext _ (stk s2)) by (intros; apply O'; lia).
      unfold s2. cbn [stk sets]. rewrite <- Lb at 2. rewrite rd_wr_same. unfold x.
      apply val_bytes_dec; [apply bytes_sub; auto|apply sub_length; lia].
    + intros z Hz. rewrite O' by lia. unfold s2. cbn [stk sets]. rewrite wr_stk_out; [reflexivity|rewrite Lb; lia].
Qed.

Lemma rd_stk_nth k a : forall l i, rd_stk k a (length l) = map MB l -> (i < length l)%nat -> k (a + Z.of_nat i)%Z = MB (nth i l 0).
Proof.
  intros l. revert a. induction l as [|x l IH]; intros a i H Hi; cbn [length] in *; [lia|].
  unfold rd_stk in H. cbn [zseq map] in H. injection H as H1 H2. destruct i as [|i].
  - rewrite Z.add_0_r. exact H1.
  - cbn [nth]. replace (a + Z.of_nat (S i))%Z with (a + 1 + Z.of_nat i)%Z by lia. apply IH; [exact H2|lia].
Qed.

Lemma nth_sub l a n i : (i < n)%nat -> nth i (sub l a n) 0 = nth (a + i) l 0.
Proof.
  intros H. unfold sub. revert l. induction a as [|a IH]; intros l; cbn [skipn Nat.add].
  - revert l i H. induction n as [|n IHn]; intros [|y l] [|i] H; cbn; auto; try lia. apply IHn. lia.
  - destruct l as [|y l]; [cbn|apply IH]. rewrite firstn_nil. destruct i; reflexivity.
Qed.

Lemma copy_run e p h s src size o pre post : bytes h -> (0 <= o)%Z -> (o + Z.of_nat size <= 64)%Z -> (src + size <= length h)%nat ->
  (forall k w off m, same_out (stk s) (scr_off o) (scr_off o + Z.of_nat size) k -> (off + m <= length h)%nat ->
     mload e k w p (Z.of_nat off) m = Some (VN (le_dec (sub h off m)))) ->
  rg s R6 = p -> rg s R10 = VStk 0 ->
  let code := stub_load size (Z.of_nat src) (scr_off o) size in
  exists n s', (forall fuel, run e (pre ++ resolve code ++ post) (n + fuel) (Z.of_nat (length pre)) s =
                             run e (pre ++ resolve code ++ post) fuel (Z.of_nat (length pre + length code)) s') /\
    (forall i, (i < size)%nat -> stk s' (scr_off o + Z.of_nat i)%Z = MB (nth (src + i) h 0)) /\
    (forall z, (z < scr_off o \/ scr_off o + Z.of_nat size <= z)%Z -> stk s' z = stk s z) /\
    wd s' = wd s /\ (forall r, r <> R1 -> rg s' r = rg s r).
Proof.
  intros Bh Ho1 Ho2 Hl Hrd H6 H10 code. unfold scr_off, ctx_off, o_scratch, RT_SIZE in *.
  destruct (copy_gen e p h (stk s) (184 + o - 248)%Z (184 + o - 248 + Z.of_nat size)%Z Bh ltac:(lia) ltac:(lia) Hrd
    size size src (184 + o - 248)%Z s) as (s' & F & W & R & D & O); auto; try lia; [intros z Hz; reflexivity|].
  pose proof (F []) as F0. rewrite app_nil_r in F0. cbn [frun] in F0.
  destruct (run_frag e code pre post s) as (n & _ & Rn).
  - apply wfix_well. apply wfix_stub.
  - unfold small. pose proof (len_stub_load size (Z.of_nat src) (184 + o - 248)%Z size). unfold code. lia.
  - unfold code. rewrite F0. discriminate.
  - exists n, s'. split; [|split; [|split; [|split]]]; auto.
    + intros fuel. rewrite Rn. unfold code at 3. rewrite F0. reflexivity.
    + intros i Hi. assert (Ls : length (sub h src size) = size) by (apply sub_length; lia).
      rewrite <- nth_sub with (n := size) by auto. apply rd_stk_nth; [rewrite Ls; exact D|lia].
Qed.

Lemma sub_sub (l : list N) a n b m : (b + m <= n)%nat -> sub (sub l a n) b m = sub l (a + b) m.
Proof.
  intros H. unfold sub. rewrite skipn_firstn_comm, firstn_firstn, Nat.min_l by lia. f_equal.
  clear H. revert l. induction a as [|a IH]; intros l; cbn [skipn Nat.add]; auto. destruct l; [rewrite skipn_nil; reflexivity|apply IH].
Qed.

Lemma copy_packet e s a ln src size o pre post : bytes (e_pkt e) -> (N.to_nat a + N.to_nat ln <= length (e_pkt e))%nat ->
  (src + size <= N.to_nat ln)%nat -> (0 <= o)%Z -> (o + Z.of_nat size <= 64)%Z ->
  rg s R6 = VPkt a ln -> rg s R10 = VStk 0 ->
  let code := stub_load size (Z.of_nat src) (scr_off o) size in
  exists n s', (forall fuel, run e (pre ++ resolve code ++ post) (n + fuel) (Z.of_nat (length pre)) s =
                             run e (pre ++ resolve code ++ post) fuel (Z.of_nat (length pre + length code)) s') /\
    (forall i, (i < size)%nat -> stk s' (scr_off o + Z.of_nat i)%Z = MB (nth (N.to_nat a + src + i) (e_pkt e) 0)) /\
    (forall z, (z < scr_off o \/ scr_off o + Z.of_nat size <= z)%Z -> stk s' z = stk s z) /\
    wd s' = wd s /\ (forall r, r <> R1 -> rg s' r = rg s r).
Proof.
  intros B L1 L2 Ho1 Ho2 H6 H10 code. set (h := sub (e_pkt e) (N.to_nat a) (N.to_nat ln)).
  assert (Lh : length h = N.to_nat ln) by (apply sub_length; lia).
  destruct (copy_run e (VPkt a ln) h s src size o pre post) as (n & s' & R & D & O & W & G); auto; try lia.
  - apply bytes_sub; auto.
  - intros k w off m _ Hm. cbn [mload]. rewrite (proj2 (Z.leb_le _ _)), (proj2 (Z.leb_le _ _)) by lia. cbn [andb].
    rewrite Nat2Z.id. unfold h. rewrite sub_sub by lia. reflexivity.
  - exists n, s'. split; [exact R|]. split; [|auto]. intros i Hi. rewrite D by auto. unfold h. rewrite nth_sub by lia. f_equal. f_equal. lia.
Qed.

(** ** Flow hash *)
Lemma label_land v : N.land (be_dec (sub (v_h3 v) 0 4)) 1048575 = flow_label v.
Proof. unfold flow_label. change 1048575 with (N.ones 20). apply N.land_ones. Qed.

Lemma swap_ip : swap16 ETH_P_IP =? swap16 ETH_P_IPV6 = false. Proof. reflexivity. Qed.

Lemma same_flow_hash v v' p p' : viewok v p -> viewok v' p' -> same_flow v v' -> v_fhash v = v_fhash v'.
Proof.
  intros O O' F. rewrite (vo_fhash _ _ O), (vo_fhash _ _ O'). destruct F as [F3 F4 FA FL FS FD]. rewrite <- F3, <- F4.
  unfold view_hash, flow_hash. f_equal.
  assert (H4 : (w16 (v_h4 v) 0 = w16 (v_h4 v') 0) /\ (w16 (v_h4 v) 2 = w16 (v_h4 v') 2)).
  { unfold w16. cbn [fld] in FS, FD. rewrite FS, FD. auto. }
  destruct H4 as [-> ->].
  match goal with |- (if ?b then N.lxor ?x ?y else ?x) = (if ?b then N.lxor ?z ?y else ?z) => assert (E : x = z); [|rewrite E; reflexivity] end.
  destruct (vo_l3 _ _ O) as [E|[E|E]]; rewrite E.
  - rewrite N.eqb_refl. unfold w32.
    pose proof (FA M_IP4_SADDR ltac:(cbn; auto)) as A1. pose proof (FA M_IP4_DADDR ltac:(cbn; auto)) as A2.
    cbn [present fld] in A1, A2. unfold has_ip4 in A1, A2. rewrite E in A1, A2. rewrite A1, A2 by reflexivity. reflexivity.
  - assert (swap16 ETH_P_IPV6 =? swap16 ETH_P_IP = false) as -> by reflexivity. rewrite N.eqb_refl.
    pose proof (FA M_IP6_SADDR ltac:(cbn; auto)) as A1. pose proof (FA M_IP6_DADDR ltac:(cbn; auto)) as A2.
    cbn [present fld] in A1, A2. unfold has_ip6 in A1, A2, FL. rewrite E in A1, A2, FL. specialize (A1 eq_refl). specialize (A2 eq_refl).
    rewrite !label_land, (FL eq_refl).
    assert (X : forall k, (k + 4 <= 16)%nat -> w32 (v_h3 v) (8 + k) = w32 (v_h3 v') (8 + k) /\ w32 (v_h3 v) (24 + k) = w32 (v_h3 v') (24 + k)).
    { intros k Hk. unfold w32. rewrite <- !(sub_sub _ _ 16 k 4) by auto. rewrite A1, A2. auto. }
    unfold xor4. pose proof (X 0%nat ltac:(lia)) as [X0 Y0]. pose proof (X 4%nat ltac:(lia)) as [X4 Y4].
    pose proof (X 8%nat ltac:(lia)) as [X8 Y8]. pose proof (X 12%nat ltac:(lia)) as [X12 Y12].
    cbn [Nat.add] in *. rewrite X0, X4, X8, X12, Y0, Y4, Y8, Y12. reflexivity.
  - reflexivity.
Qed.

Section Flow.
  Variables (c : chain) (prog : list insn) (e : env) (m : matcher) (v : view).
  Hypothesis Dp : deployed c prog e.
  Hypothesis T : tests c m.
  Hypothesis Hv : view_of e c = Some v.

  Lemma one_flow : m_type m = M_FLOW_PROBABILITY -> exists t, prob_threshold (m_pay m) = Some t /\ forall w,
    drops_when c e prog w (present v M_FLOW_PROBABILITY && xorb (m_neg m) (v_fhash v <=? t)).
  Proof.
    intros E. destruct T as [Tp (r & Hr & Hm & Hd & _)].
    assert (TH : exists t, prob_threshold (m_pay m) = Some t).
    { destruct (prob_threshold (m_pay m)) as [t|] eqn:P; [eauto|exfalso].
      pose proof (dp_gen _ _ _ Dp) as G. unfold gen_program in G. rewrite Hr in G.
      destruct (gen_head c) as [h|]; [|discriminate]. cbn [bind gen_rules] in G.
      unfold gen_rule in G. rewrite Hd, Hm in G. cbn [gen_matchers] in G.
      assert (GM : exists x, gen_matcher c m = Er x).
      { unfold gen_matcher, gen_packet_matcher, sa_matcher. rewrite E. unfold gen_meta. rewrite E. unfold gen_flow_probability. rewrite P. destruct (hook_flavor _); eexists; reflexivity. }
      destruct GM as [x GM]. destruct (gen_guards _ _ _); cbn [bind] in G; [|discriminate]. rewrite GM in G. discriminate. }
    destruct TH as [t Ht]. exists t. split; auto. intros w.
    pose proof (one_steady c prog e m v Dp T Hv w ltac:(rewrite E; discriminate) ltac:(rewrite E; discriminate)) as X.
    unfold accepts, types_of in X. rewrite E in X. cbn [forallb] in X. rewrite andb_true_r in X. unfold below in X. rewrite Ht in X.
    unfold applies in X. exact X.
  Qed.
End Flow.

Lemma flow_stable c prog e e' m v v' : deployed c prog e -> deployed c prog e' -> tests c m ->
  view_of e c = Some v -> view_of e' c = Some v' -> m_type m = M_FLOW_PROBABILITY -> same_flow v v' ->
  exists b, forall w w', drops_when c e prog w b /\ drops_when c e' prog w' b.
Proof.
  intros D D' T V V' M F. destruct (one_flow c prog e m v D T V M) as (t & P & X). destruct (one_flow c prog e' m v' D' T V' M) as (t' & P' & X').
  rewrite P in P'. injection P' as <-.
  exists (present v M_FLOW_PROBABILITY && xorb (m_neg m) (v_fhash v <=? t)). intros w w'. split; [apply X|].
  assert (E : present v M_FLOW_PROBABILITY = present v' M_FLOW_PROBABILITY).
  { cbn [present]. unfold has_ip4, has_ip6, has_tcp, has_udp. rewrite (sf_l3 _ _ F), (sf_l4 _ _ F). reflexivity. }
  assert (NS : is_sock_addr (c_hook c) = false).
  { destruct (is_sock_addr (c_hook c)) eqn:S; auto.
    assert (U : unsupported M_FLOW_PROBABILITY (c_hook c) = false).
    { apply (one_supported c prog e D m _ T S). unfold types_of. rewrite M. left. reflexivity. }
    cbn [unsupported] in U. rewrite S, orb_true_r in U. discriminate U. }
  rewrite E, (same_flow_hash v v' _ _ (view_viewok c prog e v D V NS) (view_viewok c prog e' v' D' V' NS) F). apply X'.
Qed.
