(** Next header, DSCP and meta matchers (proofs only). *)
From Coq Require Import NArith ZArith List Bool Lia Arith.
From Coq Require Import Floats.SpecFloat.
From Verif Require Import Bytes Types World BpfModel GenModel PktSpec Frag BytesFacts NetFacts StepFacts
  MatcherFacts MatcherFacts2.
Import ListNotations.
Local Open Scope N_scope.

Lemma pay1 m : length (m_pay m) = 1%nat -> byte_at (m_pay m) 0 = le_dec (m_pay m).
Proof.
  intros H. destruct (m_pay m) as [|p [|]]; try discriminate. unfold byte_at. cbn [nth le_dec]. lia.
Qed.

(** ** IPv6 next header *)
Lemma eh_type_ext p : is_eh_type p = is_ext_header p.
Proof.
  unfold is_eh_type, is_ext_header. cbn [existsb].
  destruct (p =? 0), (p =? 43), (p =? 44), (p =? 51), (p =? 60), (p =? 135); reflexivity.
Qed.

Lemma eh_mask_bit p : is_eh_type p = true ->
  imm64 (if p =? 0 then 1%Z else if p =? 43 then 2%Z else if p =? 44 then 4%Z
         else if p =? 51 then 8%Z else if p =? 60 then 16%Z else 32%Z) = eh_bit p.
Proof.
  unfold is_eh_type, eh_bit.
  destruct (p =? 0), (p =? 43), (p =? 44), (p =? 51), (p =? 60), (p =? 135); try reflexivity; discriminate.
Qed.

Lemma yields_nexthdr e c v k0 s m l : ready e c v k0 -> inv v k0 s -> v_l3 v = ETH_P_IPV6 ->
  c_nexthdr c = true -> m_op m = OP_EQ -> gen_nexthdr m = Ok l ->
  bytes (m_pay m) -> length (m_pay m) = 1%nat ->
  yields e v k0 l s (xorb (m_neg m)
    (if is_ext_header (le_dec (m_pay m)) then v_eh v (le_dec (m_pay m)) else v_l4 v =? le_dec (m_pay m))) (wd s).
Proof.
  intros Hr Hi H3 Hnh Hop H Hb Hl. unfold gen_nexthdr in H. rewrite pay1 in H by auto.
  destruct (cmp_jmp_ins m) as [jop|] eqn:Hj; [|discriminate]. cbn [bind] in H.
  pose proof (jmp_ins_eq m jop Hop Hj) as ->.
  assert (Bp : le_dec (m_pay m) < 256) by (apply (le_dec_bound_n _ 1); auto).
  set (p := le_dec (m_pay m)) in *. rewrite <- eh_type_ext.
  destruct (is_eh_type p) eqn:Ep; apply Ok_inj in H; subst l.
  - destruct (rd_eh _ _ _ _ Hr Hnh H3) as (mm & Em & Vm).
    assert (Ep' : is_ext_header p = true) by (rewrite <- eh_type_ext; auto).
    eapply yields_cons; [intros; apply (keeps_ctx e v k0 s R1 o_eh _ Hi ltac:(unfold ctx_off, RT_SIZE, o_eh; lia) ltac:(unfold ctx_off, RT_SIZE, o_eh; lia) Em)|].
    eapply yields_cons; [intros; unfold AND64I; eapply fr_alu64; [discriminate|apply rg_same|reflexivity]|].
    cbn [alu64]. rewrite eh_mask_bit by auto.
    eapply yields_eq; [eapply yields_J'; [|invs|reflexivity]; eapply do_jmp_num64; [apply rg_same|reflexivity]|].
    change (imm64 0) with 0. rewrite Vm by auto.
    destruct (m_neg m); cbn [xorb jtest]; destruct (_ =? 0); reflexivity.
  - eapply yields_eq; [eapply yields_J'; [|exact Hi|reflexivity]; eapply do_jmp_num64; [exact (i_r8 _ _ _ Hi)|reflexivity]|].
    rewrite imm64_i32 by (unfold two31; lia). apply jtest_neg.
Qed.

(** ** DSCP *)
Lemma land_252 x : x < 256 -> N.land x 252 = 4 * (x / 4).
Proof.
  intros Hx. apply N.eqb_eq.
  apply (forall_upto (fun x => N.land x 252 =? 4 * (x / 4)) 256); [vm_compute; reflexivity|exact Hx].
Qed.

Lemma yields_dscp4 e c v k0 s m l : ready e c v k0 -> inv v k0 s -> there v M_IP4_DSCP ->
  m_op m = OP_EQ -> gen_ip4_dscp m (meta_of M_IP4_DSCP) = Ok l ->
  bytes (m_pay m) -> length (m_pay m) = 1%nat ->
  yields e v k0 l s (xorb (m_neg m) (byte_at (v_h3 v) 1 / 4 =? le_dec (m_pay m))) (wd s).
Proof.
  intros Hr Hi Ht Hop H Hb Hl. unfold gen_ip4_dscp in H. rewrite pay1 in H by auto.
  destruct (pkt_load (meta_of M_IP4_DSCP) R1) as [a|] eqn:Ha; [|discriminate]. cbn [bind] in H.
  destruct (cmp_jmp_ins m) as [jop|] eqn:Hj; [|discriminate]. cbn [bind] in H.
  pose proof (jmp_ins_eq m jop Hop Hj) as ->. apply Ok_inj in H; subst l.
  assert (Hn : mt_layer (meta_of M_IP4_DSCP) <> L_NONE) by discriminate.
  destruct (keeps_load e c v k0 s M_IP4_DSCP a Hr Hi Ht Hn Ha) as (s1 & K1 & I1 & W1 & V1 & V2).
  eapply keeps_yields; [exact K1|]. rewrite <- W1.
  assert (E1 : rg s1 R1 = VN (byte_at (v_h3 v) 1)).
  { rewrite V1 by discriminate. unfold fieldb. cbn [meta_of mt_layer mt_off mt_size hdr_of].
    rewrite sub_1; [cbn [le_dec]; f_equal; lia|]. rewrite (rd_n3 _ _ _ _ Hr) by exact Ht. lia. }
  assert (Bx : byte_at (v_h3 v) 1 < 256) by (apply byte_at_byte; apply (rd_b3 _ _ _ _ Hr)).
  assert (Bp : le_dec (m_pay m) < 256) by (apply (le_dec_bound_n _ 1); auto).
  unfold AND64I.
  eapply yields_cons; [intros; eapply fr_alu64; [discriminate|exact E1|reflexivity]|].
  cbn [alu64]. change (imm64 252) with 252. rewrite land_252 by auto.
  eapply yields_eq; [eapply yields_J'; [|invs|reflexivity]; eapply do_jmp_num64; [apply rg_same|reflexivity]|].
  rewrite imm64_i32 by (unfold two31; lia). rewrite jtest_neg. f_equal.
  apply eq_true_iff_eq. rewrite !N.eqb_eq. lia.
Qed.

Lemma land_field y a b : N.land y (N.ones a * 2 ^ b) = (y / 2 ^ b) mod 2 ^ a * 2 ^ b.
Proof.
  rewrite <- N.land_ones, <- N.shiftr_div_pow2, <- !N.shiftl_mul_pow2.
  apply N.bits_inj. intros i. rewrite !N.land_spec.
  destruct (N.lt_ge_cases i b).
  - rewrite N.shiftl_spec_low by auto. rewrite andb_false_r. rewrite ?N.shiftl_spec_low by auto.
    rewrite ?andb_false_r; reflexivity.
  - rewrite !N.shiftl_spec_high by lia. rewrite ?N.land_spec, N.shiftr_spec by lia.
    f_equal. f_equal. lia.
Qed.

Lemma yields_dscp6 e c v k0 s m l : ready e c v k0 -> inv v k0 s -> there v M_IP6_DSCP ->
  m_op m = OP_EQ -> gen_ip6_dscp m (meta_of M_IP6_DSCP) = Ok l ->
  bytes (m_pay m) -> length (m_pay m) = 1%nat ->
  yields e v k0 l s (xorb (m_neg m) ((be_dec (sub (v_h3 v) 0 2) / 64) mod 64 =? le_dec (m_pay m))) (wd s).
Proof.
  intros Hr Hi Ht Hop H Hb Hl. unfold gen_ip6_dscp in H. rewrite pay1 in H by auto.
  destruct (load_header (meta_of M_IP6_DSCP) R6) as [a|] eqn:Ha; [|discriminate]. cbn [bind] in H.
  destruct (cmp_jmp_ins m) as [jop|] eqn:Hj; [|discriminate]. cbn [bind] in H.
  pose proof (jmp_ins_eq m jop Hop Hj) as ->. apply Ok_inj in H; subst l.
  assert (Hn : mt_layer (meta_of M_IP6_DSCP) <> L_NONE) by discriminate.
  destruct (keeps_header e c v k0 s M_IP6_DSCP a Hr Hi Ht Hn Ha) as [K1 I1].
  eapply keeps_yields; [exact K1|].
  pose proof (hdr_reads e c v k0 M_IP6_DSCP Hr Ht Hn) as RD.
  cbn [meta_of mt_layer hdr_of] in RD, I1 |- *.
  set (s1 := setr s R6 _) in *. change (wd s) with (wd s1).
  assert (Lh : length (v_h3 v) = 40%nat) by (apply (rd_n6 _ _ _ _ Hr); exact Ht).
  assert (Bh : bytes (v_h3 v)) by (apply (rd_b3 _ _ _ _ Hr)).
  eapply yields_cons.
  { intros r. eapply fr_ldx. change (rg s1 R6) with (stk_load k0 (slot_of L_3) 8).
    apply (RD _ _ 0%nat 2%nat); [apply (i_stk _ _ _ I1)|lia]. }
  eapply yields_cons; [intros; eapply fr_bswap; apply rg_same|].
  rewrite swap16_sub2 by (auto; lia).
  unfold AND64I.
  eapply yields_cons; [intros; eapply fr_alu64; [discriminate|apply rg_same|reflexivity]|].
  cbn [alu64]. change (imm64 4032) with (N.ones 6 * 2 ^ 6). rewrite land_field.
  change (2 ^ 6) with 64.
  assert (Bp : le_dec (m_pay m) < 256) by (apply (le_dec_bound_n _ 1); auto).
  eapply yields_eq; [eapply yields_J'; [|invs|reflexivity]; eapply do_jmp_num64; [apply rg_same|reflexivity]|].
  rewrite imm64_i32 by (unfold two31; lia). rewrite jtest_neg. f_equal.
  apply eq_true_iff_eq. rewrite !N.eqb_eq. lia.
Qed.

(** ** Interface, protocols, probability *)
Lemma if_load k0 x : rd_stk k0 (ctx_off o_ifindex) 4 = map MB (le_enc 4 x) ->
  stk_load k0 (ctx_off o_ifindex) 2 = VN (x mod 65536).
Proof.
  intros H. change 4%nat with (2 + 2)%nat in H at 1. rewrite rd_stk_app in H.
  assert (E : rd_stk k0 (ctx_off o_ifindex) 2 = map MB (le_enc 2 x)).
  { apply (f_equal (firstn 2)) in H. rewrite firstn_app, rd_stk_length in H.
    change (2 - 2)%nat with 0%nat in H. rewrite firstn_O, app_nil_r in H.
    rewrite firstn_all2 in H by (rewrite rd_stk_length; lia). rewrite H. reflexivity. }
  rewrite (stk_load_num _ _ _ _ E), le_dec_enc. reflexivity.
Qed.

Lemma yields_iface e c v k0 s m l : ready e c v k0 -> inv v k0 s -> m_op m = OP_EQ ->
  gen_iface m = Ok l -> bytes (m_pay m) -> length (m_pay m) = 4%nat ->
  yields e v k0 l s (xorb (m_neg m) (v_if v mod 65536 =? le_dec (m_pay m))) (wd s).
Proof.
  intros Hr Hi Hop H Hb Hl. unfold gen_iface in H. rewrite firstn_all2 in H by lia.
  destruct (cmp_jmp_ins m) as [jop|] eqn:Hj; [|discriminate]. cbn [bind] in H.
  pose proof (jmp_ins_eq m jop Hop Hj) as ->. apply Ok_inj in H; subst l.
  eapply yields_cons.
  { intros. eapply fr_ldx. apply (ld_ctx e v k0 s (ctx_off o_ifindex) 2 (VN (v_if v mod 65536)) Hi).
    - unfold ctx_off, RT_SIZE, o_ifindex; lia.
    - unfold ctx_off, RT_SIZE, o_ifindex; lia.
    - apply if_load; auto. apply (rd_if _ _ _ _ Hr). }
  assert (Bp : le_dec (m_pay m) < two32) by (apply (le_dec_bound_n _ 4); auto).
  eapply yields_eq; [eapply yields_J'; [|invs|reflexivity]; eapply do_jmp_num64; [apply rg_same|reflexivity]|].
  rewrite jtest_neg. f_equal.
  destruct (N.lt_ge_cases (le_dec (m_pay m)) two31) as [Hs|Hs].
  - rewrite imm64_i32 by auto. reflexivity.
  - rewrite imm64_i32_neg by auto. unfold two31, two32, two64 in *.
    pose proof (N.mod_lt (v_if v) 65536 ltac:(discriminate)) as Bm. generalize dependent (v_if v mod 65536). intros.
    apply eq_true_iff_eq. rewrite !N.eqb_eq. lia.
Qed.

Lemma yields_l3_proto e c v k0 s m l : rdy e c v k0 -> inv v k0 s -> m_op m = OP_EQ ->
  cmp_value m (le_enc 2 (swap16 (le_dec (firstn 2 (m_pay m))))) 2 R7 = Ok l ->
  bytes (m_pay m) -> length (m_pay m) = 2%nat ->
  yields e v k0 l s (xorb (m_neg m) (v_l3 v =? le_dec (m_pay m))) (wd s).
Proof.
  intros Hr Hi Hop H Hb Hl. rewrite firstn_all2 in H by lia.
  eapply yields_eq; [eapply yields_cmp_value; eauto|].
  - exact (i_r7 _ _ _ Hi).
  - apply le_enc_bytes.
  - f_equal. rewrite firstn_all2 by (rewrite le_enc_length; lia).
    rewrite le_dec_enc, N.mod_small by apply swap16_lt.
    apply swap16_eqb; [apply (rdy_l3 _ _ _ _ Hr)|]. apply (le_dec_bound_n _ 2); auto.
Qed.

Lemma yields_l4_proto e c v k0 s m l : rdy e c v k0 -> inv v k0 s -> m_op m = OP_EQ ->
  cmp_value m (m_pay m) 1 R8 = Ok l ->
  bytes (m_pay m) -> length (m_pay m) = 2%nat ->
  yields e v k0 l s (xorb (m_neg m) (v_l4 v =? byte_at (m_pay m) 0)) (wd s).
Proof.
  intros Hr Hi Hop H Hb Hl.
  eapply yields_eq; [eapply yields_cmp_value; eauto|].
  - exact (i_r8 _ _ _ Hi).
  - lia.
  - f_equal. destruct (m_pay m) as [|x [|y [|]]]; try discriminate. unfold byte_at. cbn [nth].
    cbn [firstn le_dec]. f_equal. lia.
Qed.

Lemma trunc_bound f x : trunc_u32 f = Some x -> x < two32.
Proof.
  unfold trunc_u32. destruct f as [|b| |b m ex]; try discriminate.
  - intros H; injection H as <-. reflexivity.
  - destruct b.
    + match goal with |- (if ?b then _ else _) = _ -> _ => destruct b end; [|discriminate].
      intros H; injection H as <-. reflexivity.
    + cbv zeta. match goal with |- (if (?v <? _)%Z then _ else _) = _ -> _ => set (z := v); destruct (Z.ltb_spec z 4294967296); [|discriminate] end.
      intros H'; injection H' as <-. unfold two32. lia.
Qed.

Lemma yields_probability e c v k0 s m l t : rdy e c v k0 -> inv v k0 s ->
  gen_probability m = Ok l -> prob_threshold (m_pay m) = Some t -> t < two32 ->
  yields e v k0 l s (xorb (m_neg m) (draw_ok Generated (o_rand (e_or e) (w_draws (wd s))) t)) (w_drew (wd s)).
Proof.
  intros Hr Hi H Ht Hb. unfold gen_probability in H. rewrite Ht in H. apply Ok_inj in H; subst l.
  eapply yields_cons; [intros; eapply fr_call; reflexivity|].
  eapply yields_eq; [eapply yields_J'; [|invs|reflexivity]; eapply do_jmp_num64; [reflexivity|reflexivity]|].
  pose proof (rdy_rand _ _ _ _ Hr (w_draws (wd s))) as Br. cbn [draw_ok].
  destruct (N.leb_spec two31 t) as [Hs|Hs]; cbn [orb].
  - rewrite imm64_i32_neg by auto. set (x := o_rand (e_or e) (w_draws (wd s))) in *. unfold two31, two32, two64 in *.
    assert (X : x <= t + (18446744073709551616 - 4294967296)) by lia.
    destruct (m_neg m); cbn [xorb jtest]; rewrite ?N.ltb_antisym; rewrite (proj2 (N.leb_le _ _) X); reflexivity.
  - rewrite imm64_i32 by auto. destruct (m_neg m); cbn [xorb jtest]; rewrite ?N.ltb_antisym; destruct (_ <=? _); reflexivity.
Qed.
