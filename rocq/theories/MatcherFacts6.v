(** Set matchers, complete (proofs only). *)
From Coq Require Import NArith ZArith List Bool Lia Arith.
From Verif Require Import Bytes Types World BpfModel GenModel PktSpec Wf Frag BytesFacts NetFacts StepFacts
  SwichFacts SetFacts MatcherFacts MatcherFacts2 MatcherFacts3 MatcherFacts4 MatcherFacts5.
Import ListNotations.
Local Open Scope N_scope.

(** ** The bit index of a set is below the number of sets *)
Lemma add_group_sum sets i key groups :
  list_sum (map (@length nat) (add_to_group sets i key groups)) = S (list_sum (map (@length nat) groups)).
Proof.
  induction groups as [|g r IH]; cbn [add_to_group map list_sum fold_right length]; auto.
  destruct (key_eqb key (group_head_key sets g)); cbn [map list_sum fold_right].
  - rewrite app_length. cbn [length]. fold (list_sum (map (@length nat) r)). lia.
  - fold (list_sum (map (@length nat) (add_to_group sets i key r))). rewrite IH.
    fold (list_sum (map (@length nat) r)). lia.
Qed.

Lemma build_aux_sum sets rest : forall i groups,
  (list_sum (map (@length nat) (build_groups_aux sets rest i groups)) <=
   list_sum (map (@length nat) groups) + length rest)%nat.
Proof.
  induction rest as [|s r IH]; intros i groups; cbn [build_groups_aux length]; [lia|].
  eapply Nat.le_trans; [apply IH|].
  destruct (s_elems s); [lia|]. destruct (s_trie s).
  - rewrite map_app, list_sum_app. cbn. lia.
  - rewrite add_group_sum. lia.
Qed.

Lemma group_length sets g grp : nth_error (build_groups sets) g = Some grp -> (length grp <= length sets)%nat.
Proof.
  intros H. pose proof (build_aux_sum sets sets 0 []) as B. cbn [map list_sum fold_right Nat.add] in B.
  fold (build_groups sets) in B. eapply Nat.le_trans; [|exact B].
  revert g H. generalize (build_groups sets). clear B. induction l as [|x l IH]; intros g H; [destruct g; discriminate|].
  destruct g; cbn [nth_error] in H.
  - injection H as ->. cbn. lia.
  - apply IH in H. cbn. fold (list_sum (map (@length nat) l)). lia.
Qed.

Lemma esize_key s : wf_set s -> s_trie s = false -> s_esize s = key_size (s_key s).
Proof.
  intros W T. rewrite (ws_size _ W). unfold key_size. f_equal. apply map_ext_in. intros t Ht.
  apply comp_size_meta; [apply (ws_in _ W); auto|apply (ws_nets _ W); auto].
Qed.

Lemma set_in_group c m g bit : Forall wf_set (c_sets c) ->
  find_set (N.to_nat (set_id m)) (build_groups (c_sets c)) 0 = Some (g, bit) ->
  exists grp, nth_error (build_groups (c_sets c)) g = Some grp /\ good_group (c_sets c) grp /\
    nth_error grp bit = Some (N.to_nat (set_id m)).
Proof.
  intros W F. apply find_set_spec in F as (_ & grp & G1 & G2). rewrite Nat.sub_0_r in G1.
  exists grp. split; auto. split; auto.
  eapply Forall_forall; [apply build_groups_good; exact W|]. eapply nth_error_In; eauto.
Qed.

Lemma bit_small n k : (Z.of_nat k < 262144)%Z -> (n < k)%nat -> (Z.of_nat (n / 8) < 32768)%Z.
Proof.
  intros Hk Hn. apply Nat2Z.inj_lt in Hn. rewrite Nat2Z.inj_div. change (Z.of_nat 8) with 8%Z.
  apply Z.div_lt_upper_bound; lia.
Qed.

Lemma lookup_code c m g bit jop koff :
  m_op m = OP_IN -> cmp_jmp_ins m = Ok jop -> jop = set_jop (m_neg m) ->
  forall st, set_of (c_sets c) m = Some st ->
  find_set (N.to_nat (set_id m)) (build_groups (c_sets c)) 0 = Some (g, bit) ->
  gen_map_lookup c m koff =
  Ok [I (LdMap R1 (MSet g)); I Pad; MOV64R R2 R10; ADD64I R2 koff; I (Call HMapLookup);
     I (Jmp true JEQ R0 (Im 0) 2);
     I (Ldx SB R0 R0 (i16 (Z.of_nat (bit / 8))));
     I (Alu false AAnd R0 (Im (i32 (2 ^ N.of_nat (bit mod 8)))));
     J (Jmp true (set_jop (m_neg m)) R0 (Im 0) 0)].
Proof.
  intros Hop Hj -> st Hs Hf. unfold gen_map_lookup. rewrite Hs, Hf, Hj. reflexivity.
Qed.

(** ** Hash sets *)
Lemma yields_hash_lookup e c v k0 s m st b :
  (forall g, e_sets e g = set_maps c g) -> inv v k0 s -> Forall wf_set (c_sets c) -> (Z.of_nat (length (c_sets c)) < 262144)%Z ->
  m_op m = OP_IN -> set_of (c_sets c) m = Some st -> s_trie st = false -> (s_esize st <= 64)%nat ->
  rd_stk (stk s) (scr_off (Z.of_nat 0)) (key_size (s_key st)) = map MB (set_key v (s_key st)) ->
  gen_map_lookup c m (scr_off 0) = Ok b ->
  yields e v k0 b s (xorb (m_neg m) (in_set v st)) (wd s).
Proof.
  intros HES Hi W Hn Hop Hs Ht Hsz D1 Hb.
  assert (Wst : wf_set st).
  { rewrite Forall_forall in W. apply W. unfold set_of in Hs. eapply nth_error_In; eauto. }
  pose proof (esize_key _ Wst Ht) as Ek.
  assert (Hf : exists g bit, find_set (N.to_nat (set_id m)) (build_groups (c_sets c)) 0 = Some (g, bit)).
  { unfold gen_map_lookup in Hb. rewrite Hs in Hb.
    destruct (find_set _ _ _) as [[g bit]|]; [eauto|discriminate]. }
  destruct Hf as (g & bit & Hf).
  destruct (cmp_jmp_ins m) as [jop|] eqn:Hj.
  2:{ unfold cmp_jmp_ins in Hj. rewrite Hop in Hj. discriminate. }
  pose proof (jop_in m jop Hop Hj) as Ej.
  rewrite (lookup_code c m g bit jop (scr_off 0) Hop Hj Ej st Hs Hf) in Hb. apply Ok_inj in Hb; subst b.
  destruct (set_in_group c m g bit W Hf) as (grp & G1 & Gg & G2).
  pose proof (group_length _ _ _ G1) as GL.
  assert (GB : (bit < length grp)%nat) by (apply nth_error_Some; congruence).
  assert (In0 : In (N.to_nat (set_id m)) grp) by (eapply nth_error_In; eauto).
  unfold set_of in Hs.
  destruct Gg as [(i & s0 & -> & Hi0 & T0)|(_ & key & Hk)].
  { destruct In0 as [E0|[]]. rewrite E0 in Hi0. congruence. }
  assert (All : forall j, In j grp -> nth_error (c_sets c) j <> None).
  { intros j Hj'. destruct (Hk j Hj') as (x & Hx & _). congruence. }
  pose proof (group_sets_nth _ _ bit _ st All G2 Hs) as NS.
  set (ss := group_sets (c_sets c) grp) in *.
  assert (Sst : In st ss) by (eapply nth_error_In; eauto).
  assert (Key : s_key st = key).
  { destruct (Hk _ In0) as (x & Hx & _ & Hx2). congruence. }
  assert (HD : exists hd rest, ss = hd :: rest /\ s_trie hd = false /\ s_esize hd = key_size key).
  { destruct ss as [|hd rest] eqn:Ess; [destruct Sst|]. exists hd, rest. split; auto.
    assert (Ih : In hd (group_sets (c_sets c) grp)) by (fold ss; rewrite Ess; left; auto).
    unfold group_sets in Ih. apply in_flat_map in Ih as (j & Hj' & Hin).
    destruct (Hk j Hj') as (x & Hx & Tx & Kx). rewrite Hx in Hin. destruct Hin as [->|[]].
    split; auto. rewrite <- Kx. apply esize_key; auto.
    rewrite Forall_forall in W. apply W. eapply nth_error_In; eauto. }
  destruct HD as (hd & rest & Ess & Thd & Ehd).
  set (K := set_key v (s_key st)) in *.
  set (els := dedup [] (flat_map s_elems ss)).
  assert (ES : e_sets e g = Some (false, key_size key, map (fun x => (x, elem_mask ss x)) els)).
  { rewrite HES. unfold set_maps. rewrite G1. unfold group_map. fold ss. fold els.
    rewrite Ess, Thd, Ehd. reflexivity. }
  unfold in_set. rewrite Ht. fold (mem K (s_elems st)). fold K.
  apply yields_lookup with (val := if mem K els then VVal (elem_mask ss K) else VN 0); auto.
  - unfold scr_off, ctx_off, o_scratch, RT_SIZE. lia.
  - intros q Hq. cbn [map_lookup]. rewrite ES.
    assert (OK : stk_ok (scr_off 0) (key_size key) = true).
    { unfold stk_ok. rewrite <- Key, <- Ek. unfold scr_off, ctx_off, o_scratch, RT_SIZE.
      rewrite (proj2 (Z.leb_le _ _)), (proj2 (Z.leb_le _ _)) by lia. reflexivity. }
    rewrite OK, Hq. rewrite <- Key. change (scr_off 0) with (scr_off (Z.of_nat 0)). rewrite D1, all_num_map.
    rewrite hash_find_map. destruct (mem K els); reflexivity.
  - destruct (mem K els) eqn:EM.
    + right. exists (elem_mask ss K). split; auto.
      destruct (elem_mask_bit ss K bit st NS) as [B1 B2]. split; auto. split; auto.
      eapply bit_small; [exact Hn|]. lia.
    + left. split; auto. apply mem_false. apply mem_false in EM. intros Hin. apply EM.
      apply dedup_In. split; [|intros []]. apply in_flat_map. exists st. auto.
Qed.

Lemma yields_set_hash e c v k0 s m st l :
  ready e c v k0 -> inv v k0 s -> Forall wf_set (c_sets c) -> (Z.of_nat (length (c_sets c)) < 262144)%Z ->
  m_op m = OP_IN -> set_of (c_sets c) m = Some st -> s_trie st = false -> (s_esize st <= 64)%nat ->
  (forall t, In t (s_key st) -> there v t) -> gen_set c m = Ok l ->
  yields e v k0 l s (xorb (m_neg m) (in_set v st)) (wd s).
Proof.
  intros Hr Hi W Hn Hop Hs Ht Hsz Hth H. unfold gen_set in H. rewrite Hs, Ht in H.
  assert (Wst : wf_set st).
  { rewrite Forall_forall in W. apply W. unfold set_of in Hs. eapply nth_error_In; eauto. }
  destruct (gen_set_key (s_key st) 0) as [a|] eqn:Ha; [|discriminate]. cbn [bind] in H.
  destruct (gen_map_lookup c m (scr_off 0)) as [b|] eqn:Hb; [|discriminate]. cbn [bind] in H.
  apply Ok_inj in H; subst l.
  pose proof (esize_key _ Wst Ht) as Ek.
  destruct (keeps_set_key e c v k0 Hr (s_key st) 0 s a (ws_in _ Wst) Hth Ha ltac:(lia) Hi)
    as (s1 & K1 & I1 & W1 & D1 & _).
  eapply keeps_yields; [exact K1|]. rewrite <- W1.
  eapply yields_hash_lookup; eauto. apply (rd_sets _ _ _ _ Hr).
Qed.

(** ** Sets of networks *)
Lemma net_facts t : is_net t = true ->
  mt_layer (meta_of t) = L_3 /\
  N.of_nat (mt_size (meta_of t) * 8) = net_bits t /\
  (mt_size (meta_of t) <= 16)%nat /\ (comp_size t = 4 + mt_size (meta_of t) \/ comp_size t = 8 + mt_size (meta_of t))%nat /\
  t <> M_IP4_DSCP /\ t <> M_IP6_DSCP /\
  ((net_bits t + 7) / 8 = N.of_nat (mt_size (meta_of t))) /\ net_bits t < two31.
Proof. destruct t; try discriminate; intros _; cbn; sp; try reflexivity; try lia; try discriminate; auto. Qed.

Lemma existsb_ext_in {A} (f g : A -> bool) l : (forall x, In x l -> f x = g x) -> existsb f l = existsb g l.
Proof.
  induction l as [|x l IH]; intros H; cbn; auto. rewrite H by (left; auto). f_equal. apply IH. intros; apply H; right; auto.
Qed.

Lemma yields_trie_lookup e c v k0 s m st t b :
  (forall g, e_sets e g = set_maps c g) -> inv v k0 s -> Forall wf_set (c_sets c) ->
  m_op m = OP_IN -> set_of (c_sets c) m = Some st -> s_trie st = true -> s_key st = [t] -> is_net t = true ->
  bytes (fld v t) -> length (fld v t) = mt_size (meta_of t) ->
  rd_stk (stk s) (scr_off 4) 4 = map MB (le_enc 4 (net_bits t)) ->
  rd_stk (stk s) (scr_off 8) (mt_size (meta_of t)) = map MB (fld v t) ->
  gen_map_lookup c m (scr_off 4) = Ok b ->
  yields e v k0 b s (xorb (m_neg m) (in_set v st)) (wd s).
Proof.
  intros HES Hi W Hop Hs Ht EK TT BA LA RP D4' Hb.
  assert (Wst : wf_set st).
  { rewrite Forall_forall in W. apply W. unfold set_of in Hs. eapply nth_error_In; eauto. }
  destruct (net_facts t TT) as (L3 & NB & S16 & CS & D4 & D6 & R8 & B31).
  set (mt := meta_of t) in *. set (n := mt_size mt) in *.
  assert (Hf : exists g bit, find_set (N.to_nat (set_id m)) (build_groups (c_sets c)) 0 = Some (g, bit)).
  { unfold gen_map_lookup in Hb. rewrite Hs in Hb.
    destruct (find_set _ _ _) as [[g bit]|]; [eauto|discriminate]. }
  destruct Hf as (g & bit & Hf).
  destruct (cmp_jmp_ins m) as [jop|] eqn:Hj.
  2:{ unfold cmp_jmp_ins in Hj. rewrite Hop in Hj. discriminate. }
  pose proof (jop_in m jop Hop Hj) as Ej.
  rewrite (lookup_code c m g bit jop (scr_off 4) Hop Hj Ej st Hs Hf) in Hb. apply Ok_inj in Hb; subst b.
  destruct (set_in_group c m g bit W Hf) as (grp & G1 & Gg & G2).
  assert (In0 : In (N.to_nat (set_id m)) grp) by (eapply nth_error_In; eauto).
  unfold set_of in Hs.
  destruct Gg as [(i & s0 & -> & Hi0 & T0)|(_ & key & Hk)].
  2:{ destruct (Hk _ In0) as (x & Hx & Hx1 & _). congruence. }
  destruct In0 as [Ei|[]]. rewrite Ei in *. assert (s0 = st) by congruence. subst s0.
  destruct bit as [|bit]; [|destruct bit; discriminate].
  set (els := dedup [] (s_elems st)).
  assert (ES : e_sets e g = Some (true, s_esize st, map (fun x => (x, elem_mask [st] x)) els)).
  { rewrite HES. unfold set_maps. rewrite G1. unfold group_map, group_sets. cbn [flat_map].
    rewrite Hs. cbn [app]. rewrite Ht. cbn [flat_map]. rewrite app_nil_r. reflexivity. }
  set (A := fld v t) in *.
  assert (SK : set_key v [t] = A) by (unfold set_key; cbn [map concat]; rewrite app_nil_r; reflexivity).
  assert (IS : in_set v st = existsb (fun x => lpm_covers x (net_bits t) A) els).
  { unfold in_set. rewrite Ht, EK, SK, LA.
    assert (X : forall x, In x (s_elems st) ->
        in_net (le_dec (firstn 4 x)) (firstn n (skipn 4 x)) A = lpm_covers x (net_bits t) A).
    { intros x Hx. unfold lpm_covers, lpm_plen.
      pose proof (ws_plen _ Wst Ht x t Hx ltac:(rewrite EK; left; auto)) as PL.
      destruct (ws_elems _ Wst x Hx) as [Bx Lx].
      rewrite (proj2 (N.leb_le _ _)) by exact PL. cbn [andb].
      assert (PN : (N.to_nat (le_dec (firstn 4 x)) <= 8 * n)%nat) by lia.
      rewrite <- (bits_agree_firstn (skipn 4 x) A n) by exact PN.
      assert (Lsk : (n <= length (skipn 4 x))%nat).
      { rewrite skipn_length, Lx, (ws_size _ Wst), EK. cbn [map list_sum fold_right]. fold mt n in CS. lia. }
      assert (BF : bytes (firstn n (skipn 4 x))) by (apply bytes_firstn, bytes_skipn, Bx).
      assert (LF : length (firstn n (skipn 4 x)) = n) by (rewrite firstn_length; lia).
      rewrite (bits_agree_net n _ _ _ BF BA LF LA PN).
      rewrite N2Nat.id. reflexivity. }
    rewrite (existsb_ext_in _ _ _ X). apply eq_true_iff_eq. rewrite !existsb_exists.
    split; intros (x & Hx & Hc); exists x; split; auto.
    - apply dedup_In. auto.
    - apply dedup_In in Hx. tauto. }
  assert (R4 : forall q, stk q = stk s -> map_lookup e q (MSet g) (scr_off 4) =
     Some match lpm_find (map (fun x => (x, elem_mask [st] x)) els) (net_bits t) A None with
          | Some (_, w) => VVal w | None => VN 0 end).
  { intros q Hq. cbn [map_lookup]. rewrite ES.
    assert (OK : stk_ok (scr_off 4) (s_esize st) = true).
    { unfold stk_ok. rewrite (ws_size _ Wst), EK. cbn [map list_sum fold_right]. fold mt n in CS.
      unfold scr_off, ctx_off, o_scratch, RT_SIZE.
      rewrite (proj2 (Z.leb_le _ _)), (proj2 (Z.leb_le _ _)) by lia. reflexivity. }
    rewrite OK, Hq.
    rewrite RP, all_num_map, le_dec_enc. rewrite N.mod_small.
    2:{ unfold two31 in B31. change (256 ^ N.of_nat 4) with 4294967296. lia. }
    rewrite R8, Nat2N.id. fold mt n.
    replace (scr_off 4 + 4)%Z with (scr_off 8) by reflexivity. rewrite D4', all_num_map. reflexivity. }
  rewrite IS.
  apply yields_lookup with (val := match lpm_find (map (fun x => (x, elem_mask [st] x)) els) (net_bits t) A None with
          | Some (_, w) => VVal w | None => VN 0 end); auto.
  - unfold scr_off, ctx_off, o_scratch, RT_SIZE. lia.
  - destruct (lpm_find_spec (map (fun x => (x, elem_mask [st] x)) els) (net_bits t) A None)
      as [(p & w & -> & [Hn|(k & Hk & Hc)])|(-> & _ & Hno)]; [discriminate| |].
    + right. apply in_map_iff in Hk as (x & Hx & Hxe). injection Hx as <- <-.
      exists (elem_mask [st] x). split; auto.
      destruct (elem_mask_bit [st] x 0 st eq_refl) as [B1 B2]. split; auto. split; [cbn; lia|].
      rewrite B2.
      assert (M1 : mem x (s_elems st) = true) by (apply mem_In; apply dedup_In in Hxe; tauto).
      assert (M2 : existsb (fun x => lpm_covers x (net_bits t) A) els = true).
      { apply existsb_exists. exists x. auto. }
      congruence.
    + left. split; auto. destruct (existsb _ els) eqn:E; auto. apply existsb_exists in E as (x & Hx & Hc).
      rewrite (Hno x (elem_mask [st] x)) in Hc; [discriminate|]. apply in_map_iff. eauto.
Qed.

Lemma yields_set_trie e c v k0 s m st l :
  ready e c v k0 -> inv v k0 s -> Forall wf_set (c_sets c) ->
  m_op m = OP_IN -> set_of (c_sets c) m = Some st -> s_trie st = true ->
  (forall t, In t (s_key st) -> there v t) -> gen_set c m = Ok l ->
  yields e v k0 l s (xorb (m_neg m) (in_set v st)) (wd s).
Proof.
  intros Hr Hi W Hop Hs Ht Hth H. unfold gen_set in H. rewrite Hs, Ht in H.
  assert (Wst : wf_set st).
  { rewrite Forall_forall in W. apply W. unfold set_of in Hs. eapply nth_error_In; eauto. }
  pose proof (ws_trie _ Wst) as TT. rewrite Ht in TT.
  destruct (s_key st) as [|t [|]] eqn:EK; try discriminate. symmetry in TT.
  destruct (net_facts t TT) as (L3 & NB & S16 & CS & D4 & D6 & R8 & B31).
  assert (HL : mt_layer (meta_of t) <> L_NONE) by (rewrite L3; discriminate).
  assert (Tt : there v t) by (apply Hth; left; auto).
  destruct (load_header (meta_of t) R6) as [a|] eqn:Ha; [|discriminate]. cbn [bind] in H.
  destruct (gen_map_lookup c m (scr_off 4)) as [b|] eqn:Hb; [|discriminate]. cbn [bind] in H.
  apply Ok_inj in H; subst l.
  destruct (keeps_header e c v k0 s t a Hr Hi Tt HL Ha) as [K1 I1].
  set (s1 := setr s R6 _) in *.
  set (mt := meta_of t) in *. set (n := mt_size mt) in *.
  set (P := Z.of_nat (n * 8)).
  set (s2 := setr s1 R1 (VN (imm64 P))).
  set (s3 := sets s2 (wr_stk (stk s2) (scr_off 4) (val_bytes (VN (imm64 P)) 4))).
  assert (I3 : inv v k0 s3).
  { unfold s3. apply inv_scratch; [unfold scr_off, ctx_off, o_scratch, RT_SIZE; lia|]. unfold s2. invs. }
  pose proof (hdr_reads e c v k0 t Hr Tt HL) as RD.
  pose proof (field_len e c v k0 t Hr Tt HL) as FL. fold mt in FL.
  destruct (keeps_copy e v k0 _ _ RD (hdr_bytes e c v k0 _ Hr) n n (mt_off mt)
       (scr_off 8) s3) as (s4 & K4 & I4 & W4 & _ & D4' & O4); auto;
    try (unfold scr_off, ctx_off, o_scratch, RT_SIZE; lia).
  assert (KK : keeps e v k0 (a ++ [MOV64I R1 P; I (Stx SW R10 R1 (scr_off 4))] ++
                 stub_load n (Z.of_nat (mt_off mt)) (scr_off 8) n) s s4).
  { eapply keeps_app; [exact K1|]. eapply keeps_app; [|exact K4].
    intros r. cbn [app]. rewrite fr_mov64i. fold s2. eapply fr_stx.
    change (rg s2 R10) with (rg s R10). rewrite (i_r10 _ _ _ Hi). change (rg s2 R1) with (VN (imm64 P)).
    cbn [mstore]. rewrite Z.add_0_l. reflexivity. }
  replace (a ++ [MOV64I R1 P; I (Stx SW R10 R1 (scr_off 4))] ++
                 stub_load n (Z.of_nat (mt_off mt)) (scr_off 8) n ++ b)
    with ((a ++ [MOV64I R1 P; I (Stx SW R10 R1 (scr_off 4))] ++
                 stub_load n (Z.of_nat (mt_off mt)) (scr_off 8) n) ++ b)
    by (rewrite <- !app_assoc; reflexivity).
  eapply keeps_yields; [exact KK|].
  change (wd s) with (wd s3). rewrite <- W4.
  assert (EP : imm64 P = net_bits t).
  { unfold P. rewrite <- NB. unfold imm64. rewrite Z.mod_small; [rewrite <- nat_N_Z; apply N2Z.id|].
    unfold two31 in B31. split; [lia|]. rewrite <- nat_N_Z, NB.
    change (Z.of_N two64) with 18446744073709551616%Z. lia. }
  apply yields_trie_lookup with (c := c) (t := t); auto.
  - apply (rd_sets _ _ _ _ Hr).
  - rewrite <- (fieldb_fld v t HL D4 D6). apply bytes_sub. eapply hdr_bytes; eauto.
  - rewrite <- (fieldb_fld v t HL D4 D6). apply sub_length. exact FL.
  - rewrite (rd_stk_ext _ (stk s3)) by (intros z Hz; apply O4; unfold scr_off, ctx_off in *; lia).
    unfold s3. cbn [stk sets]. rewrite EP. apply (rd_wr_same _ _ (map MB (le_enc 4 (net_bits t)))).
  - fold mt n. rewrite D4', <- (fieldb_fld v t HL D4 D6). reflexivity.
Qed.

Lemma yields_set e c v k0 s m st l :
  ready e c v k0 -> inv v k0 s -> Forall wf_set (c_sets c) -> (Z.of_nat (length (c_sets c)) < 262144)%Z ->
  m_op m = OP_IN -> set_of (c_sets c) m = Some st -> (s_trie st = false -> (s_esize st <= 64)%nat) ->
  (forall t, In t (s_key st) -> there v t) -> gen_set c m = Ok l ->
  yields e v k0 l s (xorb (m_neg m) (in_set v st)) (wd s).
Proof.
  intros. destruct (s_trie st) eqn:T; [eapply yields_set_trie|eapply yields_set_hash]; eauto.
Qed.
