(** The remaining packet matchers (proofs only). *)
From Coq Require Import NArith ZArith List Bool Lia Arith.
From Verif Require Import Bytes Types World BpfModel GenModel PktSpec Frag BytesFacts NetFacts StepFacts MatcherFacts.
Import ListNotations.
Local Open Scope N_scope.

Lemma Ok_inj {A} (a b : A) : Ok a = Ok b -> a = b.
Proof. congruence. Qed.

Ltac oki H := apply Ok_inj in H; first [ rewrite <- H in * ; clear H | idtac ].

(** ** Networks *)

Lemma prefix_mask_full n : forall p, 8 * N.of_nat n <= p -> prefix_mask p n = repeat 255 n.
Proof.
  induction n; intros p H; cbn [prefix_mask repeat]; auto.
  rewrite (proj2 (N.leb_le _ _)) by lia. f_equal. apply IHn. lia.
Qed.

Lemma prefix_mask_nth n : forall p i, (i < n)%nat ->
  nth i (prefix_mask p n) 0 =
  if 8 <=? p - 8 * N.of_nat i then 255 else (255 * 2 ^ (8 - (p - 8 * N.of_nat i))) mod 256.
Proof.
  induction n; intros p i H; [lia|]. cbn [prefix_mask]. destruct i as [|i].
  - cbn [nth]. rewrite N.mul_0_r, N.sub_0_r. reflexivity.
  - cbn [nth]. rewrite IHn by lia. replace (p - 8 - 8 * N.of_nat i) with (p - 8 * N.of_nat (S i)) by lia.
    reflexivity.
Qed.

Lemma partial_not_full q : q < 8 -> (255 * 2 ^ (8 - q)) mod 256 <> 255.
Proof.
  intros Hq.
  assert (H : (fun q => negb ((255 * 2 ^ (8 - q)) mod 256 =? 255)) q = true).
  { apply (forall_upto (fun q => negb ((255 * 2 ^ (8 - q)) mod 256 =? 255)) 8); [reflexivity|exact Hq]. }
  cbn beta in H. intros E. rewrite E in H. discriminate.
Qed.

Lemma last_full p n : p <= 8 * N.of_nat (S n) -> nth n (prefix_mask p (S n)) 0 = 255 ->
  p = 8 * N.of_nat (S n).
Proof.
  intros Hp H. rewrite prefix_mask_nth in H by lia.
  destruct (N.leb_spec 8 (p - 8 * N.of_nat n)); [lia|].
  exfalso. eapply partial_not_full; eauto.
Qed.

Lemma bytes_and_full a n : bytes a -> length a = n -> bytes_and a (repeat 255 n) = a.
Proof.
  intros Ha <-. induction Ha as [|x a Hx Ha IH]; auto.
  unfold bytes_and in *. cbn [length repeat combine map fst snd]. rewrite IH, land_255; auto.
Qed.

(** bf_cmp_masked_value, 4 bytes. *)
Lemma yields_masked4 e v k0 s m a addr plen l :
  cmp_masked m addr plen 4 R1 = Ok l -> m_op m = OP_EQ -> inv v k0 s ->
  rg s R1 = VN (le_dec a) -> bytes a -> length a = 4%nat -> bytes addr -> length addr = 4%nat ->
  plen <= 32 ->
  yields e v k0 l s (xorb (m_neg m) (in_net plen addr a)) (wd s).
Proof.
  intros H Hop Hi Hx Ba La Bb Lb Hp. unfold cmp_masked in H. rewrite Hop in H.
  destruct (cmp_jmp_ins m) as [jop|] eqn:Hj; [|discriminate]. cbn [bind] in H.
  pose proof (jmp_ins_eq m jop Hop Hj) as ->. apply Ok_inj in H; subst l.
  rewrite <- masked_eq with (n := 4%nat) by auto.
  rewrite (firstn_all2 addr) by lia. cbn [app].
  assert (Ba4 : le_dec a < two32) by (apply (le_dec_bound_n a 4); auto).
  assert (Bb4 : le_dec addr < two32) by (apply (le_dec_bound_n addr 4); auto).
  set (mask := prefix_mask plen 4).
  assert (Bm : bytes mask) by apply prefix_mask_bytes.
  assert (Lm : length mask = 4%nat) by apply prefix_mask_length.
  assert (Bm4 : le_dec mask < two32) by (apply (le_dec_bound_n mask 4); auto).
  eapply yields_cons; [intros; apply fr_mov32i|].
  rewrite imm32_i32, N.mod_mod, N.mod_small by (try discriminate; auto).
  assert (E : bytes_eqb (bytes_and a mask) (bytes_and addr mask) =
              (N.land (le_dec a) (le_dec mask) =? N.land (le_dec addr) (le_dec mask))).
  { rewrite <- !le_dec_and by (auto; congruence). symmetry. apply le_dec_eqb.
    - apply bytes_and_bytes; auto.
    - apply bytes_and_bytes; auto.
    - rewrite !bytes_and_length by congruence. congruence. }
  rewrite E, <- jtest_neg.
  destruct (N.eqb_spec (le_dec mask) (two32 - 1)) as [Em|Em].
  - cbn [app]. eapply yields_J'; [|invs|reflexivity].
    apply do_jmp_num64.
    + rewrite rg_other by reflexivity. rewrite Hx. f_equal. rewrite Em.
      change (two32 - 1) with (N.ones 32). rewrite N.land_ones. symmetry. apply N.mod_small. auto.
    + cbn [opval]. rewrite rg_same. f_equal. rewrite Em.
      change (two32 - 1) with (N.ones 32). rewrite N.land_ones. symmetry. apply N.mod_small. auto.
  - cbn [app].
    eapply yields_cons; [intros; apply fr_mov32i|].
    rewrite imm32_i32, N.mod_mod, N.mod_small by (try discriminate; auto).
    eapply yields_cons; [intros; eapply fr_alu32; [discriminate| |]; [rewrite !rg_other by reflexivity; exact Hx | apply rg_same] |].
    eapply yields_cons; [intros; eapply fr_alu32; [discriminate| |]; [rewrite !rg_other by reflexivity; apply rg_same | cbn [opval]; rewrite rg_other by reflexivity; apply rg_same] |].
    eapply yields_J'; [|invs|reflexivity].
    apply do_jmp_num64.
    + rewrite rg_other by reflexivity. rewrite rg_same. f_equal. cbn [alu32].
      rewrite !N.mod_small by auto. reflexivity.
    + cbn [opval]. rewrite rg_same. f_equal. cbn [alu32].
      rewrite !N.mod_small by auto. reflexivity.
Qed.

Lemma firstn_and n : forall a b, firstn n (bytes_and a b) = bytes_and (firstn n a) (firstn n b).
Proof.
  unfold bytes_and. induction n; intros [|x a] [|y b]; cbn [firstn combine map]; auto. f_equal. apply IHn.
Qed.

Lemma skipn_and n : forall a b, length a = length b -> skipn n (bytes_and a b) = bytes_and (skipn n a) (skipn n b).
Proof.
  unfold bytes_and. induction n; intros [|x a] [|y b] H; cbn [skipn combine map]; auto; try discriminate.
Qed.

Lemma sub_and a b o n : length a = length b -> sub (bytes_and a b) o n = bytes_and (sub a o n) (sub b o n).
Proof. intros. unfold sub. rewrite skipn_and by auto. apply firstn_and. Qed.

Lemma halves_eqb a b : bytes a -> bytes b -> length a = 16%nat -> length b = 16%nat ->
  (le_dec (sub a 0 8) =? le_dec (sub b 0 8)) && (le_dec (sub a 8 8) =? le_dec (sub b 8 8)) = bytes_eqb a b.
Proof.
  intros Ba Bb La Lb. rewrite !le_dec_eqb by (try apply bytes_sub; auto; rewrite !sub_length; lia).
  apply eq_true_iff_eq. rewrite andb_true_iff, !bytes_eqb_eq. split.
  - intros [E1 E2]. rewrite <- (sub_all a), <- (sub_all b), La, Lb.
    change 16%nat with (8 + 8)%nat. rewrite !sub_app. cbn [Nat.add]. congruence.
  - intros ->. auto.
Qed.

Lemma half_bound a o : bytes a -> (o + 8 <= length a)%nat -> le_dec (sub a o 8) < two64.
Proof. intros. apply (le_dec_bound_n _ 8); [apply bytes_sub; auto | apply sub_length; lia]. Qed.

(** Masking one register with a 64-bit constant. *)
Lemma keeps_mask e v k0 s d mk x : inv v k0 s -> mk < two64 -> free_reg d = true ->
  reg_eqb d R3 = false -> reg_eqb d R4 = false -> rg s d = VN x ->
  exists s', keeps e v k0 (build_imm64 R3 R4 mk ++ [I (Alu true AAnd d (Rg R3))]) s s' /\
    inv v k0 s' /\ wd s' = wd s /\ rg s' d = VN (N.land x mk) /\
    (forall r, reg_eqb r d = false -> reg_eqb r R3 = false -> reg_eqb r R4 = false -> rg s' r = rg s r).
Proof.
  intros Hi Hm Hf H3 H4 Hx.
  destruct (keeps_imm64 e v k0 R3 R4 mk s Hm eq_refl eq_refl) as (s1 & K1 & E1 & O1 & S1 & W1).
  exists (setr s1 d (VN (N.land x mk))). split; [|split; [|split; [|split]]].
  - eapply keeps_app; [exact K1|]. intros r. cbn [app].
    erewrite fr_alu64; [reflexivity|discriminate| |cbn [opval]; exact E1].
    rewrite O1; auto.
  - apply inv_setr; auto. eapply inv_of_regs; eauto; apply O1; reflexivity.
  - exact W1.
  - apply rg_same.
  - intros r A B C. rewrite rg_other by auto. apply O1; auto.
Qed.

Lemma yields_masked16 e v k0 s m a addr plen l :
  cmp_masked m addr plen 16 R1 = Ok l -> m_op m = OP_EQ -> inv v k0 s ->
  rg s R1 = VN (le_dec (sub a 0 8)) -> rg s R2 = VN (le_dec (sub a 8 8)) ->
  bytes a -> length a = 16%nat -> bytes addr -> (16 <= length addr)%nat ->
  plen <= 128 ->
  yields e v k0 l s (xorb (m_neg m) (in_net plen (firstn 16 addr) a)) (wd s).
Proof.
  intros H Hop Hi H1 H2 Ba La Bb Lb Hp. unfold cmp_masked in H. rewrite Hop in H.
  destruct (cmp_jmp_ins m) as [jop|] eqn:Hj; [|discriminate]. cbn [bind] in H.
  pose proof (jmp_ins_eq m jop Hop Hj) as ->. apply Ok_inj in H; subst l.
  set (ad := firstn 16 addr) in *.
  assert (Bad : bytes ad) by (apply bytes_firstn; auto).
  assert (Lad : length ad = 16%nat) by (unfold ad; rewrite firstn_length; lia).
  clearbody ad.
  set (mask := prefix_mask plen 16).
  assert (Bm : bytes mask) by apply prefix_mask_bytes.
  assert (Lm : length mask = 16%nat) by apply prefix_mask_length.
  rewrite <- masked_eq with (n := 16%nat) by auto. fold mask.
  assert (Lam : length (bytes_and a mask) = 16%nat) by (rewrite bytes_and_length; congruence).
  assert (Ldm : length (bytes_and ad mask) = 16%nat) by (rewrite bytes_and_length; congruence).
  assert (Bam : bytes (bytes_and a mask)) by (apply bytes_and_bytes; auto).
  assert (Bdm : bytes (bytes_and ad mask)) by (apply bytes_and_bytes; auto).
  rewrite <- halves_eqb by auto.
  assert (M : forall o, (o + 8 <= 16)%nat -> le_dec (sub (bytes_and a mask) o 8) =
     N.land (le_dec (sub a o 8)) (le_dec (sub mask o 8))).
  { intros o Ho. rewrite sub_and by congruence. apply le_dec_and; try (apply bytes_sub; auto).
    rewrite !sub_length by lia. reflexivity. }
  destruct (N.eqb_spec (nth 15 mask 0) 255) as [Em|Em].
  - cbn [app]. unfold mask in Em. apply last_full in Em; [|exact Hp].
    assert (Ef : bytes_and a mask = a).
    { unfold mask. rewrite prefix_mask_full by (rewrite Em; reflexivity). apply bytes_and_full; auto. }
    apply yields_halves; auto; try (apply half_bound; auto; lia); rewrite Ef; auto.
  - rewrite <- !app_assoc. rewrite (app_assoc (build_imm64 R3 R4 (le_dec (sub mask 0 8)))).
    rewrite (app_assoc (build_imm64 R3 R4 (le_dec (sub mask 8 8)))).
    destruct (keeps_mask e v k0 s R1 (le_dec (sub mask 0 8)) _ Hi (half_bound mask 0 Bm ltac:(lia)) eq_refl eq_refl eq_refl H1)
      as (s1 & K1 & I1 & W1 & E1 & O1).
    assert (H2' : rg s1 R2 = VN (le_dec (sub a 8 8))) by (rewrite O1; auto).
    destruct (keeps_mask e v k0 s1 R2 (le_dec (sub mask 8 8)) _ I1 (half_bound mask 8 Bm ltac:(lia)) eq_refl eq_refl eq_refl H2')
      as (s2 & K2 & I2 & W2 & E2 & O2).
    eapply keeps_yields; [exact K1|]. eapply keeps_yields; [exact K2|].
    rewrite <- W1, <- W2. apply yields_halves; auto; try (apply half_bound; auto; lia).
    + rewrite O2, E1, M by (auto; lia). reflexivity.
    + rewrite E2, M by lia. reflexivity.
Qed.

Lemma yields_net e c v k0 s m t l : ready e c v k0 -> inv v k0 s -> there v t ->
  mt_layer (meta_of t) <> L_NONE -> m_op m = OP_EQ ->
  gen_net m (meta_of t) = Ok l -> bytes (m_pay m) ->
  (mt_size (meta_of t) = 4%nat /\ length (m_pay m) = 8%nat /\ le_dec (firstn 4 (m_pay m)) <= 32 \/
   mt_size (meta_of t) = 16%nat /\ length (m_pay m) = 24%nat /\ le_dec (firstn 4 (m_pay m)) <= 128) ->
  yields e v k0 l s (xorb (m_neg m)
    (in_net (le_dec (firstn 4 (m_pay m))) (firstn (mt_size (meta_of t)) (skipn 4 (m_pay m))) (fieldb v t))) (wd s).
Proof.
  intros Hr Hi Ht Hn Hop Hl Hb Hsz. unfold gen_net in Hl.
  destruct (pkt_load (meta_of t) R1) as [a|] eqn:Ha; [|discriminate]. cbn [bind] in Hl.
  destruct (cmp_masked _ _ _ _ _) as [b|] eqn:Hcmp; [|discriminate].
  cbn [bind] in Hl. apply Ok_inj in Hl; subst l.
  destruct (keeps_load e c v k0 s t a Hr Hi Ht Hn Ha) as (s1 & K1 & I1 & W1 & V1 & V2).
  eapply keeps_yields; [exact K1|]. rewrite <- W1.
  pose proof (fieldb_bytes e c v k0 t Hr) as FB.
  pose proof (fieldb_length e c v k0 t Hr Ht Hn) as FL.
  assert (Bs : bytes (skipn 4 (m_pay m))) by (apply bytes_skipn; auto).
  destruct Hsz as [(Es & Ll & Hp)|(Es & Ll & Hp)]; rewrite Es in *.
  - assert (Ls : length (skipn 4 (m_pay m)) = 4%nat) by (rewrite skipn_length; lia).
    rewrite (firstn_all2 (skipn 4 (m_pay m))) by lia.
    eapply yields_masked4; eauto. apply V1. discriminate.
  - destruct (V2 eq_refl) as [Ex Ey].
    eapply yields_masked16; eauto. rewrite skipn_length; lia.
Qed.

(** ** Ports *)
Lemma le2_bound l o : bytes l -> (o + 2 <= length l)%nat -> le_dec (sub l o 2) < 65536.
Proof. intros. apply (le_dec_bound_n _ 2); [apply bytes_sub; auto | apply sub_length; lia]. Qed.

Lemma yields_port_range e c v k0 s m t l a : ready e c v k0 -> inv v k0 s -> there v t ->
  mt_layer (meta_of t) <> L_NONE -> mt_size (meta_of t) = 2%nat ->
  pkt_load (meta_of t) R1 = Ok a ->
  l = a ++ [I (Bswap16 R1)] ++
        cmp_range m (le_dec (sub (m_pay m) 0 2)) (le_dec (sub (m_pay m) 2 2)) R1 ->
  bytes (m_pay m) -> length (m_pay m) = 4%nat ->
  yields e v k0 l s (xorb (m_neg m)
    (in_range (be_dec (fieldb v t)) (le_dec (sub (m_pay m) 0 2)) (le_dec (sub (m_pay m) 2 2)))) (wd s).
Proof.
  intros Hr Hi Ht Hn Hsz Ha -> Hb Hl.
  destruct (keeps_load e c v k0 s t a Hr Hi Ht Hn Ha) as (s1 & K1 & I1 & W1 & V1 & V2).
  eapply keeps_yields; [exact K1|]. rewrite <- W1.
  pose proof (fieldb_bytes e c v k0 t Hr) as FB.
  pose proof (fieldb_length e c v k0 t Hr Ht Hn) as FL. rewrite Hsz in FL.
  eapply yields_cons; [intros r; apply fr_bswap; apply V1; rewrite Hsz; discriminate|].
  assert (E : swap16 (le_dec (fieldb v t)) = be_dec (fieldb v t)).
  { rewrite <- (sub_all (fieldb v t)), FL. apply swap16_sub2; auto. lia. }
  assert (B : be_dec (fieldb v t) < 65536) by (rewrite <- E; apply swap16_lt).
  rewrite E. change (wd s1) with (wd (setr s1 R1 (VN (be_dec (fieldb v t))))).
  assert (T : forall o, (o + 2 <= length (m_pay m))%nat -> le_dec (sub (m_pay m) o 2) < two32).
  { intros. eapply N.lt_trans; [apply le2_bound; auto|reflexivity]. }
  apply yields_range; try apply rg_same; try (apply T; lia).
  - invs.
  - eapply N.lt_trans; [exact B|reflexivity].
Qed.

Lemma yields_port e c v k0 s m t l : ready e c v k0 -> inv v k0 s -> there v t ->
  mt_layer (meta_of t) <> L_NONE -> mt_size (meta_of t) = 2%nat ->
  gen_port m (meta_of t) = Ok l -> bytes (m_pay m) ->
  (m_op m = OP_EQ /\ length (m_pay m) = 2%nat \/ m_op m = OP_RANGE /\ length (m_pay m) = 4%nat) ->
  yields e v k0 l s (xorb (m_neg m)
    (match m_op m with
     | OP_RANGE => in_range (be_dec (fieldb v t)) (le_dec (sub (m_pay m) 0 2)) (le_dec (sub (m_pay m) 2 2))
     | _ => bytes_eqb (fieldb v t) (m_pay m) end)) (wd s).
Proof.
  intros Hr Hi Ht Hn Hsz H Hb Hop. unfold gen_port in H.
  destruct Hop as [[Hop Hl]|[Hop Hl]]; rewrite Hop in *.
  - eapply yields_load_cmp; eauto; rewrite ?Hsz; auto.
  - destruct (pkt_load (meta_of t) R1) as [a|] eqn:Ha; [|discriminate]. cbn [bind] in H.
    apply Ok_inj in H. eapply yields_port_range; eauto.
Qed.

(** ** TCP flags *)
Lemma yields_tcp_flags e c v k0 s m t l : ready e c v k0 -> inv v k0 s -> there v t ->
  mt_layer (meta_of t) <> L_NONE -> mt_size (meta_of t) = 1%nat ->
  gen_tcp_flags m (meta_of t) = Ok l -> bytes (m_pay m) -> length (m_pay m) = 1%nat ->
  yields e v k0 l s (xorb (m_neg m)
    (match m_op m with
     | OP_ANY => negb (N.land (le_dec (fieldb v t)) (le_dec (m_pay m)) =? 0)
     | OP_ALL => N.land (le_dec (fieldb v t)) (le_dec (m_pay m)) =? le_dec (m_pay m)
     | _ => bytes_eqb (fieldb v t) (m_pay m) end)) (wd s).
Proof.
  intros Hr Hi Ht Hn Hsz H Hb Hl. unfold gen_tcp_flags in H.
  destruct (pkt_load (meta_of t) R1) as [a|] eqn:Ha; [|discriminate]. cbn [bind] in H.
  destruct (m_op m) eqn:Hop; try discriminate.
  - eapply yields_load_cmp; eauto; rewrite ?Hsz; auto. rewrite Ha. cbn [bind]. rewrite Hsz in H. exact H.
  - destruct (keeps_load e c v k0 s t a Hr Hi Ht Hn Ha) as (s1 & K1 & I1 & W1 & V1 & V2).
    unfold cmp_bitfield, cmp_jmp_ins in H. rewrite Hop in H. cbn [bind] in H. apply Ok_inj in H. subst l.
    eapply keeps_yields; [exact K1|]. rewrite <- W1.
    assert (E1 : rg s1 R1 = VN (le_dec (fieldb v t))) by (apply V1; rewrite Hsz; discriminate).
    assert (Bf : le_dec (fieldb v t) < 256).
    { apply (le_dec_bound_n _ 1); [eapply fieldb_bytes; eauto|]. rewrite <- Hsz. eapply fieldb_length; eauto. }
    assert (Ep : byte_at (m_pay m) 0 = le_dec (m_pay m)).
    { destruct (m_pay m) as [|p [|]]; try discriminate. unfold byte_at. cbn [nth le_dec]. lia. }
    assert (Bp : le_dec (m_pay m) < 256) by (apply (le_dec_bound_n _ 1); auto).
    rewrite Ep.
    eapply yields_cons; [intros; eapply fr_alu32; [discriminate|exact E1|reflexivity]|].
    cbn [alu32]. rewrite imm32_i32, N.mod_mod by discriminate.
    rewrite !N.mod_small by (unfold two32; lia).
    pose proof (land_lt_256 _ (le_dec (m_pay m)) Bf) as BL.
    eapply yields_eq; [eapply yields_J'; [|invs|reflexivity]; eapply do_jmp_num32; [apply rg_same|reflexivity]|].
    change (imm32 0 mod two32) with 0. rewrite N.mod_small by (unfold two32; lia).
    destruct (m_neg m); cbn [xorb jtest]; rewrite ?negb_involutive; destruct (_ =? _); reflexivity.
  - destruct (keeps_load e c v k0 s t a Hr Hi Ht Hn Ha) as (s1 & K1 & I1 & W1 & V1 & V2).
    unfold cmp_bitfield, cmp_jmp_ins in H. rewrite Hop in H. cbn [bind] in H. apply Ok_inj in H. subst l.
    eapply keeps_yields; [exact K1|]. rewrite <- W1.
    assert (E1 : rg s1 R1 = VN (le_dec (fieldb v t))) by (apply V1; rewrite Hsz; discriminate).
    assert (Bf : le_dec (fieldb v t) < 256).
    { apply (le_dec_bound_n _ 1); [eapply fieldb_bytes; eauto|]. rewrite <- Hsz. eapply fieldb_length; eauto. }
    assert (Ep : byte_at (m_pay m) 0 = le_dec (m_pay m)).
    { destruct (m_pay m) as [|p [|]]; try discriminate. unfold byte_at. cbn [nth le_dec]. lia. }
    assert (Bp : le_dec (m_pay m) < 256) by (apply (le_dec_bound_n _ 1); auto).
    rewrite Ep.
    eapply yields_cons; [intros; eapply fr_alu32; [discriminate|exact E1|reflexivity]|].
    cbn [alu32]. rewrite imm32_i32, N.mod_mod by discriminate.
    rewrite !N.mod_small by (unfold two32; lia).
    pose proof (land_lt_256 _ (le_dec (m_pay m)) Bf) as BL.
    eapply yields_eq; [eapply yields_J'; [|invs|reflexivity]; eapply do_jmp_num32; [apply rg_same|reflexivity]|].
    rewrite imm32_i32, N.mod_mod by discriminate. rewrite !N.mod_small by (unfold two32; lia).
    destruct (m_neg m); cbn [xorb jtest]; rewrite ?negb_involutive; destruct (_ =? _); reflexivity.
Qed.
