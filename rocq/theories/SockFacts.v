(** The matchers of the cgroup socket hooks (proofs only). *)
From Coq Require Import NArith ZArith List Bool Lia Arith.
From Verif Require Import Bytes Types World BpfModel GenModel PktSpec ViewSpec Wf ViewModel Frag BytesFacts NetFacts
  StepFacts SwichFacts SetFacts MatcherFacts MatcherFacts2 MatcherFacts3 MatcherFacts4 MatcherFacts5 MatcherFacts6
  RuleFacts.
Import ListNotations.
Local Open Scope N_scope.

(** ** Reading the context *)

(** Every aligned read within the [n] bytes at [o] is allowed. *)
Definition readable (h : hook) (o n : nat) : Prop :=
  forall off u, (o <= off)%nat -> (off + szn u <= o + n)%nat -> (off mod szn u = 0)%nat ->
    sock_access h off (szn u) = true.

Lemma readable_dst4 h : sock_addr_ip4 h = true -> readable h 4 4.
Proof.
  intros H off u Ho Hl Ha. unfold sock_access. rewrite Ha, H. cbn [Nat.eqb].
  destruct (Nat.ltb_spec off 4); [lia|]. destruct (Nat.ltb_spec off 8); [|destruct u; cbn in Hl; lia].
  destruct u; cbn [szn] in *; try reflexivity. lia.
Qed.

Lemma readable_dst6 h : sock_addr_ip6 h = true -> readable h 8 16.
Proof.
  intros H off u Ho Hl Ha. unfold sock_access. rewrite Ha, H. cbn [Nat.eqb].
  destruct (Nat.ltb_spec off 4); [lia|]. destruct (Nat.ltb_spec off 8); [lia|].
  destruct (Nat.ltb_spec off 24); [|destruct u; cbn in Hl; lia].
  destruct u; cbn [szn] in *; try reflexivity. cbn. apply Nat.leb_le. lia.
Qed.

Lemma readable_port h : readable h 24 4.
Proof.
  intros off u Ho Hl Ha. unfold sock_access. rewrite Ha. cbn [Nat.eqb].
  destruct (Nat.ltb_spec off 4); [lia|]. destruct (Nat.ltb_spec off 8); [lia|].
  destruct (Nat.ltb_spec off 24); [lia|].
  destruct (Nat.ltb_spec off 28); [|destruct u; cbn in Hl; lia].
  destruct u; cbn [szn] in *; try reflexivity. lia.
Qed.

Lemma readable_src4 : readable H_SENDMSG4 40 4.
Proof.
  intros off u Ho Hl Ha. unfold sock_access. rewrite Ha. cbn [Nat.eqb].
  do 5 (match goal with |- context [(off <? ?k)%nat] => destruct (Nat.ltb_spec off k); [lia|] end).
  destruct (Nat.ltb_spec off 44); [|destruct u; cbn in Hl; lia].
  destruct u; cbn [szn] in *; try reflexivity. lia.
Qed.

Lemma readable_src6 : readable H_SENDMSG6 44 16.
Proof.
  intros off u Ho Hl Ha. unfold sock_access. rewrite Ha. cbn [Nat.eqb].
  do 6 (match goal with |- context [(off <? ?k)%nat] => destruct (Nat.ltb_spec off k); [lia|] end).
  destruct (Nat.ltb_spec off 60); [|destruct u; cbn in Hl; lia].
  destruct u; cbn [szn] in *; try reflexivity. cbn. apply Nat.leb_le. lia.
Qed.

Lemma readable_sub h o n o' n' : readable h o n -> (o <= o')%nat -> (o' + n' <= o + n)%nat -> readable h o' n'.
Proof. intros H Ho Hn off u Hu Hl. apply H; lia. Qed.

(** ** Fields of the operation *)
Lemma sub_mid a b c : sub (a ++ b ++ c) (length a) (length b) = b.
Proof.
  unfold sub. rewrite skipn_app, skipn_all, Nat.sub_diag. cbn [app skipn].
  rewrite firstn_app, firstn_all, Nat.sub_diag. cbn [firstn]. apply app_nil_r.
Qed.

Lemma sub_at a b c o n : length a = o -> length b = n -> sub (a ++ b ++ c) o n = b.
Proof. intros <- <-. apply sub_mid. Qed.

Lemma sub_end a b o n : length a = o -> length b = n -> sub (a ++ b) o n = b.
Proof. intros <- <-. rewrite <- (app_nil_r b) at 1. apply sub_mid. Qed.

Lemma sock_field h t o d : hook_flavor h = F_SOCK_ADDR -> unsupported t h = false ->
  sa_offset t = Ok o -> t <> M_IP4_PROTO -> length d = 72%nat ->
  readable h o (mt_size (meta_of t)) /\ (o + mt_size (meta_of t) <= 72)%nat /\
  fld (sock_view h d) t = sub d o (mt_size (meta_of t)).
Proof.
  intros Hf Hu Ho Hp Hd.
  assert (L : forall a n, (a + n <= 72)%nat -> length (sub d a n) = n) by (intros; apply sub_length; lia).
  destruct t; try discriminate; try congruence; cbn in Ho; apply Ok_inj in Ho; subst o;
    destruct h; try discriminate; cbn [meta_of mt_size]; cbv [sa_src_ip4 sa_src_ip6 sa_user_ip4 sa_user_ip6 sa_user_port];
    (split; [|split; [cbn; lia|]]);
    try (solve [ apply readable_dst4; reflexivity | apply readable_dst6; reflexivity
               | apply readable_src4 | apply readable_src6
               | apply (readable_sub _ 24 4 24 2); [apply readable_port|lia|lia] ]).
  all: cbn [fld sock_view v_h3 v_h4 sock_addr_ip4 sock_src sock_dst].
  all: try (rewrite !app_assoc; apply sub_end; rewrite ?app_length, ?L by lia; reflexivity).
  all: try (rewrite app_assoc; apply sub_at; [reflexivity|apply L; lia]).
  all: try (apply sub_at; [reflexivity|apply L; lia]).
  all: try (apply sub_end; [reflexivity|apply L; lia]).
Qed.

Section S.
  Variables (e : env) (c : chain) (v : view) (k0 : stack).
  Hypothesis Hr : sready e c v k0.
  Let d := e_pkt e.
  Let h := c_hook c.

  Lemma sock_len : length d = 72%nat.
  Proof. apply (sd_ctx _ _ _ _ Hr). Qed.

  Lemma sock_v : v = sock_view h d.
  Proof. apply (sd_view _ _ _ _ Hr). Qed.

  Lemma sock_some : v_sock v <> None.
  Proof. rewrite sock_v. discriminate. Qed.

  Lemma sock_r6 s : inv v k0 s -> rg s R6 = VK KCtx.
  Proof. intros H. apply (i_r6 _ _ _ H). apply sock_some. Qed.

  Lemma sload o n s : sock_access h o n = true ->
    mload e (stk s) (wd s) (VK KCtx) (Z.of_nat o) n = Some (VN (le_dec (sub d o n))).
  Proof.
    intros H. cbn [mload]. rewrite (sd_flavor _ _ _ _ Hr), (sd_hook _ _ _ _ Hr), Nat2Z.id. fold h.
    rewrite H, (proj2 (Z.leb_le _ _)) by lia. reflexivity.
  Qed.

  Lemma fr_sload s u r o l : inv v k0 s -> sock_access h o (szn u) = true ->
    frun e (I (Ldx u r R6 (Z.of_nat o)) :: l) 0 s = frun e l 0 (setr s r (VN (le_dec (sub d o (szn u))))).
  Proof. intros Hi Ha. apply fr_ldx. rewrite (sock_r6 _ Hi). apply sload. exact Ha. Qed.

  Lemma sub_halves o : (o + 8 <= 72)%nat ->
    N.lor (le_dec (sub d o 4)) (N.shiftl (le_dec (sub d (o + 4) 4)) (32 mod 64) mod two64) = le_dec (sub d o 8).
  Proof.
    intros Ho. pose proof sock_len as L. pose proof (sd_bytes _ _ _ _ Hr) as B. fold d in B.
    assert (B1 : le_dec (sub d o 4) < two32).
    { apply (le_dec_bound_n _ 4); [apply bytes_sub; auto|apply sub_length; lia]. }
    assert (B2 : le_dec (sub d (o + 4) 4) < two32).
    { apply (le_dec_bound_n _ 4); [apply bytes_sub; auto|apply sub_length; lia]. }
    change 8%nat with (4 + 4)%nat. rewrite sub_app, le_dec_app, sub_length by lia.
    set (x := le_dec (sub d o 4)) in *. set (y := le_dec (sub d (o + 4) 4)) in *.
    change (32 mod 64) with 32. rewrite N.shiftl_mul_pow2. change (2 ^ 32) with two32.
    change (256 ^ N.of_nat 4) with two32.
    rewrite N.mod_small by (unfold two32, two64 in *; lia).
    rewrite N.lor_comm. change two32 with (2 ^ 32). rewrite lor_add_disjoint by exact B1. lia.
  Qed.

  (** Loading a field into r1, and r2 for 16 bytes. *)
  Lemma keeps_sload o n s a : (n = 4 \/ n = 16)%nat -> (o mod 4 = 0)%nat -> readable h o n -> (o + n <= 72)%nat ->
    inv v k0 s -> sa_load o n = Ok a ->
    exists s', keeps e v k0 a s s' /\ inv v k0 s' /\ wd s' = wd s /\ stk s' = stk s /\
      (n = 4%nat -> rg s' R1 = VN (le_dec (sub d o 4))) /\
      (n = 16%nat -> rg s' R1 = VN (le_dec (sub d o 8)) /\ rg s' R2 = VN (le_dec (sub d (o + 8) 8))).
  Proof.
    intros Hn Hm Ha Hl Hi H.
    assert (M4 : forall k, (k mod 4 = 0)%nat -> ((o + k) mod 4 = 0)%nat).
    { intros k Hk. rewrite Nat.add_mod, Hm, Hk by lia. reflexivity. }
    unfold sa_load in H. destruct Hn as [->| ->].
    - apply Ok_inj in H; subst a. eexists. sp.
      + intros l. cbn [app]. apply fr_sload; [auto|]. apply Ha; cbn [szn]; auto; lia.
      + invs.
      + reflexivity.
      + reflexivity.
      + intros _. apply rg_same.
      + discriminate.
    - destruct (Nat.eqb_spec (o mod 8) 0) as [E8|E8]; apply Ok_inj in H; subst a.
      + assert (E8' : ((o + 8) mod 8 = 0)%nat).
        { rewrite Nat.add_mod, E8 by lia. reflexivity. }
        eexists. sp.
        * intros l. cbn [app]. rewrite fr_sload; [|auto|apply Ha; cbn [szn]; auto; lia].
          replace (Z.of_nat o + 8)%Z with (Z.of_nat (o + 8)) by lia.
          apply fr_sload; [invs|]. apply Ha; cbn [szn]; auto; lia.
        * invs.
        * reflexivity.
        * reflexivity.
        * discriminate.
        * intros _. split; [rewrite rg_other by reflexivity|]; apply rg_same.
      + assert (A : forall k, (k mod 4 = 0)%nat -> (k + 4 <= 16)%nat -> sock_access h (o + k) (szn SW) = true).
        { intros k Hk Hk'. apply Ha; cbn [szn]; auto; lia. }
        eexists. sp.
        * intros l. cbn [app].
          replace (Z.of_nat o) with (Z.of_nat (o + 0)) by lia.
          replace (Z.of_nat (o + 0) + 4)%Z with (Z.of_nat (o + 4)) by lia.
          replace (Z.of_nat (o + 0) + 8)%Z with (Z.of_nat (o + 8)) by lia.
          replace (Z.of_nat (o + 0) + 12)%Z with (Z.of_nat (o + 12)) by lia.
          rewrite fr_sload; [|auto|apply A; [reflexivity|lia]].
          rewrite fr_sload; [|invs|apply A; [reflexivity|lia]].
          unfold LSH64I.
          erewrite fr_alu64; [|discriminate|apply rg_same|reflexivity].
          erewrite fr_alu64; [|discriminate|do 2 rewrite rg_other by reflexivity; apply rg_same|apply rg_same].
          rewrite fr_sload; [|invs|apply A; [reflexivity|lia]].
          rewrite fr_sload; [|invs|apply A; [reflexivity|lia]].
          erewrite fr_alu64; [|discriminate|apply rg_same|reflexivity].
          erewrite fr_alu64; [|discriminate|do 2 rewrite rg_other by reflexivity; apply rg_same|apply rg_same].
          reflexivity.
        * invs.
        * reflexivity.
        * reflexivity.
        * discriminate.
        * intros _. rewrite rg_same. do 4 rewrite rg_other by reflexivity. rewrite rg_same.
          cbn [alu64 szn]. change (imm64 32) with 32. rewrite !Nat.add_0_r. split; f_equal.
          -- apply sub_halves. lia.
          -- replace (o + 12)%nat with (o + 8 + 4)%nat by lia. apply sub_halves. lia.
  Qed.

  (** Copying a field to the scratch area. *)
  Lemma load_unit_mod src dst n : (src mod szn (load_unit (Z.of_nat src) dst n) = 0)%nat.
  Proof.
    unfold load_unit, aligned.
    assert (A : forall k, (0 < k)%nat -> (Z.of_nat src mod Z.of_nat k =? 0)%Z = true -> (src mod k = 0)%nat).
    { intros k Hk Hz. apply Z.eqb_eq in Hz. rewrite <- Nat2Z.inj_mod in Hz. lia. }
    destruct ((Z.of_nat src mod 8 =? 0)%Z) eqn:E8; cbn [andb];
      [destruct (_ && _); [apply (A 8%nat); auto; lia|]|].
    all: destruct ((Z.of_nat src mod 4 =? 0)%Z) eqn:E4; cbn [andb];
      [destruct (_ && _); [apply (A 4%nat); auto; lia|]|].
    all: destruct ((Z.of_nat src mod 2 =? 0)%Z) eqn:E2; cbn [andb];
      [destruct (_ && _); [apply (A 2%nat); auto; lia|]|].
    all: apply Nat.mod_1_r.
  Qed.

  Lemma keeps_scopy : forall fuel n src dst s,
    (n <= fuel)%nat -> readable h src n -> (src + n <= 72)%nat -> (-64 <= dst)%Z -> (dst + Z.of_nat n <= 0)%Z ->
    inv v k0 s ->
    exists s', keeps e v k0 (stub_load fuel (Z.of_nat src) dst n) s s' /\ inv v k0 s' /\ wd s' = wd s /\
      rd_stk (stk s') dst n = map MB (sub d src n) /\
      (forall z, (z < dst \/ dst + Z.of_nat n <= z)%Z -> stk s' z = stk s z).
  Proof.
    pose proof sock_len as L. pose proof (sd_bytes _ _ _ _ Hr) as B. fold d in B.
    induction fuel as [|fuel IH]; intros n src dst s Hf Ha Hl Hd1 Hd2 Hi.
    - assert (n = 0)%nat by lia. subst n. exists s. sp; auto. intros l. reflexivity.
    - destruct n as [|n]; [exists s; sp; auto; intros l; reflexivity|].
      cbn [stub_load]. pose proof (load_unit_mod src dst (S n)) as Hm.
      set (u := load_unit (Z.of_nat src) dst (S n)) in *.
      pose proof (load_unit_le (Z.of_nat src) dst (S n) ltac:(lia)) as Hu. fold u in Hu.
      pose proof (szn_pos u) as Hp.
      assert (Hacc : sock_access h src (szn u) = true) by (apply Ha; auto; lia).
      set (k := szn u) in *.
      set (x := le_dec (sub d src k)).
      set (s1 := setr s R1 (VN x)).
      set (s2 := sets s1 (wr_stk (stk s1) dst (val_bytes (VN x) k))).
      assert (I2 : inv v k0 s2) by (unfold s2; apply inv_scratch; [lia|]; unfold s1; invs).
      destruct (IH (S n - k)%nat (src + k)%nat (dst + Z.of_nat k)%Z s2) as (s' & K & I' & W' & D' & O');
        try lia; auto.
      { eapply readable_sub; [exact Ha|lia|lia]. }
      exists s'. sp; auto.
      + intros l. cbn [app].
        rewrite fr_sload; auto. fold k x s1.
        assert (L2 : forall r, frun e (I (Stx u R10 R1 dst) :: r) 0 s1 = frun e r 0 s2).
        { intros r. eapply fr_stx. change (rg s1 R10) with (rg s R10). rewrite (i_r10 _ _ _ Hi).
          change (rg s1 R1) with (VN x). cbn [mstore]. rewrite Z.add_0_l. unfold stk_ok. fold k.
          rewrite (proj2 (Z.leb_le _ _)), (proj2 (Z.leb_le _ _)) by lia. reflexivity. }
        rewrite L2. replace (Z.of_nat src + Z.of_nat k)%Z with (Z.of_nat (src + k)) by lia.
        apply K.
      + replace (S n) with (k + (S n - k))%nat by lia. rewrite rd_stk_app, D', sub_app, map_app. f_equal.
        rewrite (rd_stk_ext _ (stk s2)) by (intros z Hz; apply O'; lia).
        unfold s2. cbn [stk sets].
        unfold x. rewrite val_bytes_dec by (try apply bytes_sub; auto; apply sub_length; lia).
        replace k with (length (map MB (sub d src k))) at 2 by (rewrite map_length, sub_length; lia).
        apply rd_wr_same.
      + intros z Hz. rewrite O' by lia. unfold s2. cbn [stk sets]. rewrite wr_stk_out; [reflexivity|].
        rewrite val_bytes_length. lia.
  Qed.

  (** ** Addresses and networks *)
  Lemma yields_sload_cmp m t o n s l : inv v k0 s -> unsupported t h = false -> sa_offset t = Ok o ->
    t <> M_IP4_PROTO -> (o mod 4 = 0)%nat -> mt_size (meta_of t) = n -> (n = 4 \/ n = 16)%nat -> m_op m = OP_EQ ->
    bytes (m_pay m) -> length (m_pay m) = n ->
    sa_load_cmp m o n = Ok l ->
    yields e v k0 l s (xorb (m_neg m) (bytes_eqb (fld v t) (m_pay m))) (wd s).
  Proof.
    intros Hi Hu Ho Hp Hm Hn Hs Hop Hb Hl H.
    destruct (sock_field h t o d (sd_chain _ _ _ _ Hr) Hu Ho Hp sock_len) as (Ra & Le & Fe).
    rewrite Hn in *. unfold sa_load_cmp in H.
    destruct (sa_load o n) as [a|] eqn:Ha; [|discriminate]. cbn [bind] in H.
    destruct (cmp_value m (m_pay m) n R1) as [b|] eqn:Hc; [|discriminate]. cbn [bind] in H.
    apply Ok_inj in H; subst l.
    destruct (keeps_sload o n s a Hs Hm Ra Le Hi Ha) as (s1 & K1 & I1 & W1 & _ & V1 & V2).
    eapply keeps_yields; [exact K1|]. rewrite <- W1.
    pose proof sock_len as L. pose proof (sd_bytes _ _ _ _ Hr) as B. fold d in B.
    rewrite <- sock_v in Fe. rewrite Fe.
    assert (B1 : bytes (sub d o n)) by (apply bytes_sub; auto).
    assert (L1 : length (sub d o n) = n) by (apply sub_length; lia).
    destruct Hs as [->| ->].
    - eapply yields_eq; [eapply yields_cmp_value; eauto; try lia; rewrite ?Hl; auto|].
      f_equal. rewrite firstn_all2 by lia. apply le_dec_eqb; auto. lia.
    - destruct (V2 eq_refl) as [E1 E2].
      eapply yields_eq; [eapply yields_cmp_value16; eauto|]. f_equal.
      rewrite <- (halves_eqb (sub d o 16) (m_pay m)) by auto.
      rewrite !sub_sub by lia. rewrite Nat.add_0_r. reflexivity.
  Qed.

  Lemma yields_snet m t o n s l : inv v k0 s -> unsupported t h = false -> sa_offset t = Ok o ->
    t <> M_IP4_PROTO -> (o mod 4 = 0)%nat -> mt_size (meta_of t) = n -> m_op m = OP_EQ ->
    bytes (m_pay m) ->
    (n = 4%nat /\ length (m_pay m) = 8%nat /\ le_dec (firstn 4 (m_pay m)) <= 32 \/
     n = 16%nat /\ length (m_pay m) = 24%nat /\ le_dec (firstn 4 (m_pay m)) <= 128) ->
    sa_net m o n = Ok l ->
    yields e v k0 l s (xorb (m_neg m)
      (in_net (le_dec (firstn 4 (m_pay m))) (firstn (length (fld v t)) (skipn 4 (m_pay m))) (fld v t))) (wd s).
  Proof.
    intros Hi Hu Ho Hp Hm Hn Hop Hb Hs H.
    destruct (sock_field h t o d (sd_chain _ _ _ _ Hr) Hu Ho Hp sock_len) as (Ra & Le & Fe).
    rewrite Hn in *. unfold sa_net in H.
    destruct (sa_load o n) as [a|] eqn:Ha; [|discriminate]. cbn [bind] in H.
    destruct (cmp_masked _ _ _ _ _) as [b|] eqn:Hc; [|discriminate]. cbn [bind] in H.
    apply Ok_inj in H; subst l.
    destruct (keeps_sload o n s a ltac:(tauto) Hm Ra Le Hi Ha) as (s1 & K1 & I1 & W1 & _ & V1 & V2).
    eapply keeps_yields; [exact K1|]. rewrite <- W1.
    pose proof sock_len as L. pose proof (sd_bytes _ _ _ _ Hr) as B. fold d in B.
    rewrite <- sock_v in Fe. rewrite Fe.
    assert (B1 : bytes (sub d o n)) by (apply bytes_sub; auto).
    assert (L1 : length (sub d o n) = n) by (apply sub_length; lia).
    assert (Bs : bytes (skipn 4 (m_pay m))) by (apply bytes_skipn; auto).
    rewrite L1.
    destruct Hs as [(-> & Ll & Hq)|(-> & Ll & Hq)].
    - assert (Ls : length (skipn 4 (m_pay m)) = 4%nat) by (rewrite skipn_length; lia).
      rewrite (firstn_all2 (skipn 4 (m_pay m))) by lia.
      eapply yields_masked4; eauto.
    - destruct (V2 eq_refl) as [E1 E2].
      eapply yields_masked16; eauto; rewrite ?sub_sub, ?Nat.add_0_r by lia; auto. rewrite skipn_length; lia.
  Qed.

  (** ** Ports *)
  Lemma port_value : le_dec (sub d 24 4) = le_dec (sub d 24 2).
  Proof.
    destruct (sd_ctx _ _ _ _ Hr) as (_ & Z & _). fold d in Z.
    pose proof (sub_app d 24 2 2) as E. change (2 + 2)%nat with 4%nat in E. change (24 + 2)%nat with 26%nat in E.
    rewrite E, Z, le_dec_app.
    change (le_dec [0; 0]) with 0. lia.
  Qed.

  Lemma dport_fld t : t = M_DPORT \/ t = M_TCP_DPORT \/ t = M_UDP_DPORT -> fld v t = sub d 24 2.
  Proof.
    intros Ht. destruct (sock_field h M_UDP_DPORT 24 d (sd_chain _ _ _ _ Hr) eq_refl eq_refl ltac:(discriminate) sock_len)
      as (_ & _ & F). cbn [meta_of mt_size] in F. rewrite sock_v.
    destruct Ht as [ -> | [ -> | -> ]]; exact F.
  Qed.

  Lemma yields_sport m t s l : inv v k0 s -> t = M_DPORT \/ t = M_TCP_DPORT \/ t = M_UDP_DPORT ->
    bytes (m_pay m) ->
    (m_op m = OP_EQ /\ length (m_pay m) = 2%nat \/ m_op m = OP_RANGE /\ length (m_pay m) = 4%nat) ->
    sa_port m = Ok l ->
    yields e v k0 l s (xorb (m_neg m)
      (match m_op m with
       | OP_RANGE => in_range (be_dec (fld v t)) (le_dec (sub (m_pay m) 0 2)) (le_dec (sub (m_pay m) 2 2))
       | _ => bytes_eqb (fld v t) (m_pay m) end)) (wd s).
  Proof.
    intros Hi Ht Hb Hop H. rewrite (dport_fld t Ht). unfold sa_port in H.
    pose proof sock_len as L. pose proof (sd_bytes _ _ _ _ Hr) as B. fold d in B.
    destruct (sa_load sa_user_port 4) as [a|] eqn:Ha; [|discriminate]. cbn [bind] in H.
    destruct (keeps_sload 24 4 s a (or_introl eq_refl) eq_refl (readable_port h) ltac:(lia) Hi Ha)
      as (s1 & K1 & I1 & W1 & _ & V1 & _).
    specialize (V1 eq_refl). rewrite port_value in V1.
    assert (B1 : bytes (sub d 24 2)) by (apply bytes_sub; auto).
    assert (L1 : length (sub d 24 2) = 2%nat) by (apply sub_length; lia).
    destruct Hop as [[Hop Hl]|[Hop Hl]]; rewrite Hop in *.
    - destruct (cmp_value m (m_pay m) 2 R1) as [b|] eqn:Hc; [|discriminate]. cbn [bind] in H.
      apply Ok_inj in H; subst l.
      eapply keeps_yields; [exact K1|]. rewrite <- W1.
      eapply yields_eq; [eapply yields_cmp_value; eauto; lia|].
      f_equal. rewrite firstn_all2 by lia. apply le_dec_eqb; auto. lia.
    - apply Ok_inj in H; subst l.
      eapply keeps_yields; [exact K1|]. rewrite <- W1.
      eapply yields_cons; [intros r; apply fr_bswap; exact V1|].
      rewrite swap16_sub2 by (auto; lia).
      assert (Bd : be_dec (sub d 24 2) < 65536) by (rewrite <- swap16_sub2 by (auto; lia); apply swap16_lt).
      change (wd s1) with (wd (setr s1 R1 (VN (be_dec (sub d 24 2))))).
      assert (T : forall o, (o + 2 <= length (m_pay m))%nat -> le_dec (sub (m_pay m) o 2) < two32).
      { intros. eapply N.lt_trans; [apply le2_bound; auto|reflexivity]. }
      apply yields_range; try apply rg_same; try (apply T; lia).
      + invs.
      + eapply N.lt_trans; [exact Bd|reflexivity].
  Qed.

  (** ** Protocol *)
  Lemma sock_l4 : v_l4 v < 256.
  Proof. apply (rdy_l4 e c v k0). right. exact Hr. Qed.

  Lemma proto_fld : unsupported M_IP4_PROTO h = false -> fld v M_IP4_PROTO = [v_l4 v].
  Proof.
    intros Hu. pose proof (sd_chain _ _ _ _ Hr) as Hf. fold h in Hf. pose proof sock_l4 as B.
    rewrite sock_v in *. destruct h; try discriminate; cbn [fld sock_view v_h3 v_l4 sock_addr_ip4] in *;
      unfold sub; cbn [app repeat skipn firstn]; rewrite N.mod_small by exact B; reflexivity.
  Qed.

  Lemma yields_sproto m s l : inv v k0 s -> unsupported M_IP4_PROTO h = false -> m_op m = OP_EQ ->
    bytes (m_pay m) -> length (m_pay m) = 1%nat ->
    (b <- cmp_value m (m_pay m) 1 R1 ; Ok (MOV64R R1 R8 :: b))%res = Ok l ->
    yields e v k0 l s (xorb (m_neg m) (bytes_eqb (fld v M_IP4_PROTO) (m_pay m))) (wd s).
  Proof.
    intros Hi Hu Hop Hb Hl H.
    destruct (cmp_value m (m_pay m) 1 R1) as [b|] eqn:Hc; [|discriminate]. cbn [bind] in H.
    apply Ok_inj in H; subst l.
    eapply yields_cons; [intros r; apply fr_mov64r|]. rewrite (i_r8 _ _ _ Hi).
    change (wd s) with (wd (setr s R1 (VN (v_l4 v)))).
    eapply yields_eq; [eapply yields_cmp_value; eauto; try lia; [invs|apply rg_same]|].
    f_equal. rewrite (proto_fld Hu), firstn_all2 by lia.
    rewrite <- le_dec_eqb; auto.
    - f_equal. cbn [le_dec]. lia.
    - constructor; [apply sock_l4|constructor].
  Qed.

  (** ** Sets *)
  Lemma keeps_sset_key : forall key off s a,
    (forall t, In t key -> unsupported t h = false) ->
    sa_set_key key off = Ok a -> (off + key_size key <= 64)%nat -> inv v k0 s ->
    exists s', keeps e v k0 a s s' /\ inv v k0 s' /\ wd s' = wd s /\
      rd_stk (stk s') (scr_off (Z.of_nat off)) (key_size key) = map MB (set_key v key) /\
      (forall z, (z < scr_off (Z.of_nat off) \/ scr_off (Z.of_nat off) + Z.of_nat (key_size key) <= z)%Z ->
         stk s' z = stk s z).
  Proof.
    induction key as [|t key IH]; intros off s a Hu H Hsz Hi.
    - cbn in H. apply Ok_inj in H; subst a. exists s. sp; auto. intros l. reflexivity.
    - cbn [sa_set_key] in H.
      destruct (sa_offset t) as [o|] eqn:Ho; [|discriminate]. cbn [bind] in H.
      destruct (sa_set_key key (off + mt_size (meta_of t))) as [b|] eqn:Hb; [|discriminate]. cbn [bind] in H.
      apply Ok_inj in H; subst a.
      unfold key_size in Hsz. cbn [map list_sum fold_right] in Hsz.
      change (fold_right Nat.add 0%nat (map (fun t0 => mt_size (meta_of t0)) key)) with (key_size key) in Hsz.
      assert (C : exists s2, keeps e v k0
          (match t with
           | M_IP4_PROTO => [I (Stx SB R10 R8 (scr_off (Z.of_nat off)))]
           | _ => stub_load (mt_size (meta_of t)) (Z.of_nat o) (scr_off (Z.of_nat off)) (mt_size (meta_of t))
           end) s s2 /\ inv v k0 s2 /\ wd s2 = wd s /\
          rd_stk (stk s2) (scr_off (Z.of_nat off)) (mt_size (meta_of t)) = map MB (fld v t) /\
          (forall z, (z < scr_off (Z.of_nat off) \/ scr_off (Z.of_nat off) + Z.of_nat (mt_size (meta_of t)) <= z)%Z ->
             stk s2 z = stk s z)).
      { assert (Ut : unsupported t h = false) by (apply Hu; left; auto).
        destruct (mtype_eq_dec t M_IP4_PROTO) as [->|Np].
        - cbn [meta_of mt_size] in *.
          exists (sets s (wr_stk (stk s) (scr_off (Z.of_nat off)) (val_bytes (VN (v_l4 v)) 1))).
          sp.
          + intros l. cbn [app]. apply fr_stx. rewrite (i_r10 _ _ _ Hi), (i_r8 _ _ _ Hi). cbn [mstore].
            rewrite Z.add_0_l. unfold stk_ok. cbn [szn].
            rewrite (proj2 (Z.leb_le _ _)), (proj2 (Z.leb_le _ _)) by (unfold scr_off, ctx_off, o_scratch, RT_SIZE; lia).
            reflexivity.
          + apply inv_scratch; [unfold scr_off, ctx_off, o_scratch, RT_SIZE; lia|exact Hi].
          + reflexivity.
          + rewrite (proto_fld Ut). cbn [stk sets].
            change 1%nat with (length (val_bytes (VN (v_l4 v)) 1)) at 2. rewrite rd_wr_same.
            cbn [val_bytes le_enc map]. rewrite N.mod_small by apply sock_l4. reflexivity.
          + intros z Hz. cbn [stk sets]. apply wr_stk_out. exact Hz.
        - destruct (sock_field h t o d (sd_chain _ _ _ _ Hr) Ut Ho Np sock_len) as (Ra & Le & Fe).
          destruct (keeps_scopy (mt_size (meta_of t)) (mt_size (meta_of t)) o (scr_off (Z.of_nat off)) s)
            as (s2 & K2 & I2 & W2 & D2 & O2); auto;
            try (unfold scr_off, ctx_off, o_scratch, RT_SIZE; lia).
          exists s2. sp; auto.
          + destruct t; try exact K2. exfalso; apply Np; reflexivity.
          + rewrite D2, <- Fe, <- sock_v. reflexivity. }
      destruct C as (s2 & K2 & I2 & W2 & D2 & O2).
      set (mt := meta_of t) in *.
      destruct (IH (off + mt_size mt)%nat s2 b) as (s3 & K3 & I3 & W3 & D3 & O3); auto.
      { intros; apply Hu; right; auto. }
      { lia. }
      exists s3. sp; auto.
      + eapply keeps_app; [exact K2|exact K3].
      + rewrite W3, W2. reflexivity.
      + unfold key_size. cbn [map list_sum fold_right]. fold mt.
        change (fold_right Nat.add 0%nat (map (fun t0 => mt_size (meta_of t0)) key)) with (key_size key).
        rewrite rd_stk_app. unfold set_key. cbn [map concat]. rewrite map_app. f_equal.
        * rewrite (rd_stk_ext _ (stk s2)); [exact D2|].
          intros z Hz. apply O3. unfold scr_off, ctx_off in *. lia.
        * replace (scr_off (Z.of_nat off) + Z.of_nat (mt_size mt))%Z
            with (scr_off (Z.of_nat (off + mt_size mt))) by (unfold scr_off, ctx_off; lia).
          exact D3.
      + unfold key_size. cbn [map list_sum fold_right]. fold mt.
        change (fold_right Nat.add 0%nat (map (fun t0 => mt_size (meta_of t0)) key)) with (key_size key).
        intros z Hz. rewrite O3 by (unfold scr_off, ctx_off in *; lia).
        rewrite O2 by (unfold scr_off, ctx_off in *; lia). reflexivity.
  Qed.

  Hypothesis Wsets : Forall wf_set (c_sets c).
  Hypothesis Nsets : (Z.of_nat (length (c_sets c)) < 262144)%Z.

  Lemma yields_sset s m st l : inv v k0 s -> m_op m = OP_IN -> set_of (c_sets c) m = Some st ->
    (s_trie st = false -> (s_esize st <= 64)%nat) ->
    (forall t, In t (s_key st) -> unsupported t h = false) -> sa_set c m = Ok l ->
    yields e v k0 l s (xorb (m_neg m) (in_set v st)) (wd s).
  Proof.
    intros Hi Hop Hs Hsz Hu H. unfold sa_set in H. rewrite Hs in H.
    assert (Wst : wf_set st).
    { rewrite Forall_forall in Wsets. apply Wsets. unfold set_of in Hs. eapply nth_error_In; eauto. }
    destruct (s_trie st) eqn:Ht.
    - pose proof (ws_trie _ Wst) as TT. rewrite Ht in TT.
      destruct (s_key st) as [|t [|]] eqn:EK; try discriminate. symmetry in TT.
      destruct (net_facts t TT) as (L3 & NB & S16 & CS & D4 & D6 & R8 & B31).
      assert (Ut : unsupported t h = false) by (apply Hu; left; auto).
      assert (Np : t <> M_IP4_PROTO) by (intros ->; discriminate).
      destruct (sa_offset t) as [o|] eqn:Ho; [|discriminate]. cbn [bind] in H.
      destruct (gen_map_lookup c m (scr_off 4)) as [b|] eqn:Hb; [|discriminate]. cbn [bind] in H.
      apply Ok_inj in H; subst l.
      destruct (sock_field h t o d (sd_chain _ _ _ _ Hr) Ut Ho Np sock_len) as (Ra & Le & Fe).
      set (n := mt_size (meta_of t)) in *. set (P := Z.of_nat (n * 8)).
      set (s2 := setr s R1 (VN (imm64 P))).
      set (s3 := sets s2 (wr_stk (stk s2) (scr_off 4) (val_bytes (VN (imm64 P)) 4))).
      assert (I3 : inv v k0 s3).
      { unfold s3. apply inv_scratch; [unfold scr_off, ctx_off, o_scratch, RT_SIZE; lia|]. unfold s2. invs. }
      destruct (keeps_scopy n n o (scr_off 8) s3) as (s4 & K4 & I4 & W4 & D4' & O4); auto;
        try (unfold scr_off, ctx_off, o_scratch, RT_SIZE; lia).
      assert (KK : keeps e v k0 ([MOV64I R1 P; I (Stx SW R10 R1 (scr_off 4))] ++
                     stub_load n (Z.of_nat o) (scr_off 8) n) s s4).
      { eapply keeps_app; [|exact K4].
        intros r. cbn [app]. rewrite fr_mov64i. fold s2. eapply fr_stx.
        change (rg s2 R10) with (rg s R10). rewrite (i_r10 _ _ _ Hi). change (rg s2 R1) with (VN (imm64 P)).
        cbn [mstore]. rewrite Z.add_0_l. reflexivity. }
      rewrite app_assoc.
      eapply keeps_yields; [exact KK|].
      change (wd s) with (wd s3). rewrite <- W4.
      assert (EP : imm64 P = net_bits t).
      { unfold P. rewrite <- NB. unfold imm64. rewrite Z.mod_small; [rewrite <- nat_N_Z; apply N2Z.id|].
        unfold two31 in B31. split; [lia|]. rewrite <- nat_N_Z, NB.
        change (Z.of_N two64) with 18446744073709551616%Z. lia. }
      apply yields_trie_lookup with (c := c) (t := t); auto.
      + apply (sd_sets _ _ _ _ Hr).
      + rewrite <- sock_v in Fe. rewrite Fe. apply bytes_sub. apply (sd_bytes _ _ _ _ Hr).
      + rewrite <- sock_v in Fe. rewrite Fe. apply sub_length. fold d. rewrite sock_len. exact Le.
      + rewrite (rd_stk_ext _ (stk s3)) by (intros z Hz; apply O4; unfold scr_off, ctx_off in *; lia).
        unfold s3. cbn [stk sets]. rewrite EP.
        change 4%nat with (length (val_bytes (VN (net_bits t)) 4)) at 2. rewrite rd_wr_same. reflexivity.
      + fold n. rewrite D4', <- Fe, <- sock_v. reflexivity.
    - destruct (sa_set_key (s_key st) 0) as [a|] eqn:Ha; [|discriminate]. cbn [bind] in H.
      destruct (gen_map_lookup c m (scr_off 0)) as [b|] eqn:Hb; [|discriminate]. cbn [bind] in H.
      apply Ok_inj in H; subst l. specialize (Hsz eq_refl).
      pose proof (esize_key _ Wst Ht) as Ek.
      destruct (keeps_sset_key (s_key st) 0 s a Hu Ha ltac:(lia) Hi) as (s1 & K1 & I1 & W1 & D1 & _).
      eapply keeps_yields; [exact K1|]. rewrite <- W1.
      eapply yields_hash_lookup; eauto. apply (sd_sets _ _ _ _ Hr).
  Qed.

  Ltac ops Op Eo :=
    match goal with m : matcher |- _ => destruct (m_op m) eqn:Eo end;
    cbn in Op; try (destruct Op; discriminate); destruct Op as [NO Op]; try (exfalso; apply NO; reflexivity); injection Op as Op; symmetry in Op.

  Lemma yields_sock_matcher s m l : inv v k0 s -> wf_matcher m -> key_fits c m ->
    (forall t, In t (types_of (c_sets c) m) -> there v t) ->
    (forall t, In t (types_of (c_sets c) m) -> unsupported t h = false) ->
    gen_matcher c m = Ok l ->
    yields e v k0 l s (fst (matched e c v m (wd s))) (snd (matched e c v m (wd s))).
  Proof.
    intros Hi Wm Qm Hg Hu H.
    pose proof (wm_bytes _ Wm) as Bp. pose proof (wm_op _ Wm) as Op. pose proof (wm_net _ Wm) as Nt.
    unfold key_fits in Qm. unfold types_of in Hg, Hu. unfold matched, match1, cond, below, applies.
    assert (G : sa_matcher c m = Ok l).
    { unfold gen_matcher in H. rewrite (sd_chain _ _ _ _ Hr) in H. exact H. }
    clear H. unfold sa_matcher in G.
    assert (Vs : exists i, v_sock v = Some i) by (rewrite sock_v; eexists; reflexivity). destruct Vs as [si Vs].
    pose proof (Rdy_sock _ _ _ _ Hr) as HR. rewrite Vs.
    destruct (m_type m) eqn:Et; try discriminate;
      try (assert (Tt := Hg _ (or_introl eq_refl)));
      try (assert (Ut := Hu _ (or_introl eq_refl)));
      try match type of Tt with there _ ?t =>
            first [ assert (Pt : present v t = true) by (apply there_present; [reflexivity|discriminate|exact Tt]); rewrite Pt
                  | idtac ] end.
    - ops Op Eo. eapply yields_l3_proto; eauto. unfold gen_meta in G. rewrite Et in G. exact G.
    - ops Op Eo. eapply yields_l4_proto; eauto. unfold gen_meta in G. rewrite Et in G. exact G.
    - assert (G' : gen_probability m = Ok l) by (unfold gen_meta in G; rewrite Et in G; exact G).
      destruct (prob_threshold (m_pay m)) as [t|] eqn:Ep.
      + eapply yields_probability; eauto. exact (trunc_bound _ _ Ep).
      + unfold gen_probability in G'. rewrite Ep in G'. discriminate.
    - assert (O : m_op m = OP_EQ /\ length (m_pay m) = 2%nat \/ m_op m = OP_RANGE /\ length (m_pay m) = 4%nat).
      { ops Op Eo; auto. }
      assert (Y := yields_sport m M_DPORT s l Hi (or_introl eq_refl) Bp O G).
      destruct O as [[-> _]|[-> _]] in Y |- *; exact Y.
    - ops Op Eo. eapply (yields_sload_cmp m M_IP4_SADDR); eauto; try discriminate; auto.
    - ops Op Eo. apply (yields_snet m M_IP4_SNET sa_src_ip4 4 s l Hi Ut eq_refl ltac:(discriminate) eq_refl eq_refl Eo Bp); [|exact G]; left; auto.
    - ops Op Eo. eapply (yields_sload_cmp m M_IP4_DADDR); eauto; try discriminate; auto.
    - ops Op Eo. apply (yields_snet m M_IP4_DNET sa_user_ip4 4 s l Hi Ut eq_refl ltac:(discriminate) eq_refl eq_refl Eo Bp); [|exact G]; left; auto.
    - ops Op Eo. eapply yields_sproto; eauto.
    - ops Op Eo. eapply (yields_sload_cmp m M_IP6_SADDR); eauto; try discriminate; auto.
    - ops Op Eo. apply (yields_snet m M_IP6_SNET sa_src_ip6 16 s l Hi Ut eq_refl ltac:(discriminate) eq_refl eq_refl Eo Bp); [|exact G]; right; auto.
    - ops Op Eo. eapply (yields_sload_cmp m M_IP6_DADDR); eauto; try discriminate; auto.
    - ops Op Eo. apply (yields_snet m M_IP6_DNET sa_user_ip6 16 s l Hi Ut eq_refl ltac:(discriminate) eq_refl eq_refl Eo Bp); [|exact G]; right; auto.
    - assert (O : m_op m = OP_EQ /\ length (m_pay m) = 2%nat \/ m_op m = OP_RANGE /\ length (m_pay m) = 4%nat).
      { ops Op Eo; auto. }
      assert (Y := yields_sport m M_TCP_DPORT s l Hi (or_intror (or_introl eq_refl)) Bp O G).
      destruct O as [[-> _]|[-> _]] in Y |- *; exact Y.
    - assert (O : m_op m = OP_EQ /\ length (m_pay m) = 2%nat \/ m_op m = OP_RANGE /\ length (m_pay m) = 4%nat).
      { ops Op Eo; auto. }
      assert (Y := yields_sport m M_UDP_DPORT s l Hi (or_intror (or_intror eq_refl)) Bp O G).
      destruct O as [[-> _]|[-> _]] in Y |- *; exact Y.
    - destruct Op as [Op Lp]. rewrite Op. cbn [present fst snd].
      destruct (set_of (c_sets c) m) as [st|] eqn:Es.
      + eapply yields_sset; eauto.
      + unfold sa_set in G. rewrite Es in G. discriminate.
  Qed.
End S.

Lemma yields_matcher e c v k0 : rdy e c v k0 -> Forall wf_set (c_sets c) -> (Z.of_nat (length (c_sets c)) < 262144)%Z ->
  forall s m l, inv v k0 s -> wf_matcher m -> key_fits c m ->
    (forall t, In t (types_of (c_sets c) m) -> there v t) ->
    (m_type m = M_IP6_NEXTHDR -> c_nexthdr c = true) ->
    (is_sock_addr (c_hook c) = true -> forall t, In t (types_of (c_sets c) m) -> unsupported t (c_hook c) = false) ->
    gen_matcher c m = Ok l ->
    yields e v k0 l s (fst (matched e c v m (wd s))) (snd (matched e c v m (wd s))).
Proof.
  intros [Hr|Hr] Ws Ns s m l Hi Wm Qm Hg Hnh Hu H.
  - eapply yields_packet_matcher; eauto.
  - eapply yields_sock_matcher; eauto. apply Hu. unfold is_sock_addr. rewrite (sd_chain _ _ _ _ Hr). reflexivity.
Qed.
