(** The prologue: network and transport headers (proofs only). *)
From Coq Require Import NArith ZArith List Bool Lia Arith.
From Verif Require Import Bytes Types World BpfModel GenModel PktSpec ViewSpec Wf ViewModel Frag BytesFacts NetFacts
  StepFacts SwichFacts MatcherFacts MatcherFacts2 MatcherFacts4 RuleFacts2 HeadFacts HeadFacts2 HeadFacts3.
Import ListNotations.
Local Open Scope N_scope.

(** A frame for everything known about the network header. *)
Record netst (e : env) (k : stack) (p : val) (h3 : list N) (off : N) : Prop := mkNet {
  ns_holds : holds e k (ctx_off o_l2) p h3;
  ns_slot : stk_load k (ctx_off o_l3hdr) 8 = p;
  ns_off : stk_load k (ctx_off o_l4off) 4 = VN off;
  ns_offb : off < two32;
  ns_len : (length h3 <= 40)%nat;
  ns_bytes : bytes h3
}.

Lemma land15 x : N.land x 15 = x mod 16.
Proof. change 15 with (N.ones 4). rewrite N.land_ones. reflexivity. Qed.

Section H.
  Variables (e : env) (c : chain) (ifx len : N) (w : world) (k : Z).
  Hypothesis Bn : n_rules c < 268435456.
  Hypothesis Ncnt : e_ncnt e = n_rules c + 2.
  Hypothesis By : bytes (e_pkt e).

  Notation hs := (hst c ifx len).
  Notation FAIL a s := (halts e a s (imm64 k) (w_count w (n_rules c + 1) len)).

  Definition l3_sw : code := 
    swich R7 [(swap16 ETH_P_IP, [Alu true AMov R4 (Im 20)]);
            (swap16 ETH_P_IPV6, [Alu true AMov R4 (Im 40)])]
    (Some [Alu true AMov R7 (Im 0)]).
  Definition l3_rest : code :=
     jover (Jmp true JNE R7 (Im (i32 (swap16 ETH_P_IP))))
       [I (Ldx SB R1 R0 0); AND64I R1 15; LSH64I R1 2;
        I (Ldx SW R2 R10 (ctx_off o_l3off)); I (Alu true AAdd R1 (Rg R2));
        I (Stx SW R10 R1 (ctx_off o_l4off)); I (Ldx SB R8 R0 9)] ++
     jover (Jmp true JNE R7 (Im (i32 (swap16 ETH_P_IPV6)))) (parse_ip6 c).

  Lemma parse_l3_eq : parse_l3 c k = l3_sw ++ jover (Jmp true JEQ R7 (Im 0))
    (fetch_hdr c k o_l3size o_l3off o_l2 o_l3hdr ++ l3_rest).
  Proof. reflexivity. Qed.

  Lemma small_l3 : small (fetch_hdr c k o_l3size o_l3off o_l2 o_l3hdr ++ l3_rest).
  Proof. unfold small. reflexivity. Qed.

  Lemma jne7 s a b : rg s R7 = VN (swap16 a) -> a < 65536 -> b < 65536 ->
    do_jmp s true JNE R7 (Im (i32 (swap16 b))) = Some (negb (a =? b)).
  Proof.
    intros E A B. erewrite do_jmp_num64; [|exact E|reflexivity]. cbn [jtest].
    rewrite imm64_i32 by (pose proof (swap16_lt b); unfold two31; lia). rewrite swap16_eqb by auto. reflexivity.
  Qed.

  Lemma stage_l3_other s et : hs 0 w s -> dyn (stk s) -> rg s R7 = VN (swap16 et) -> et < 65536 ->
    et <> ETH_P_IP -> et <> ETH_P_IPV6 ->
    good e (parse_l3 c k) s (fun s' => hs 0 w s' /\ dyn (stk s') /\ rg s' R7 = VN 0 /\ rg s' R8 = rg s R8).
  Proof.
    intros H D E7 Be N1 N2. rewrite parse_l3_eq.
    eapply good_app with (P := fun s' => s' = setr s R7 (VN 0)).
    - eapply good_swich; [exact E7| | | |].
      + repeat constructor.
      + unfold small; reflexivity.
      + unfold swich_pick. cbn [find fst]. rewrite !swap16_eqb by (auto; reflexivity).
        rewrite (proj2 (N.eqb_neq _ _) N1), (proj2 (N.eqb_neq _ _) N2). reflexivity.
      + eexists. split; [|reflexivity]. intros l. reflexivity.
    - intros s' ->. apply good_jover_yes; [reflexivity|apply small_l3|].
      split; [hsts|]. split; [exact D|]. split; reflexivity.
  Qed.

  Lemma stage_l3_ip4 s o3 : hs 0 w s -> dyn (stk s) -> rg s R7 = VN (swap16 ETH_P_IP) ->
    stk_load (stk s) (ctx_off o_l3off) 4 = VN o3 -> o3 <= 14 ->
    match slice (e_pkt e) o3 20 with
    | Some h3 => good e (parse_l3 c k) s (fun s' => exists p, hs 0 w s' /\ dyn (stk s') /\
        rg s' R7 = VN (swap16 ETH_P_IP) /\ rg s' R8 = VN (byte_at h3 9) /\
        netst e (stk s') p h3 (o3 + 4 * (byte_at h3 0 mod 16)))
    | None => FAIL (parse_l3 c k) s
    end.
  Proof.
    intros H D E7 EO Bo. rewrite parse_l3_eq.
    assert (SWI : good e l3_sw s (fun s' => s' = setr s R4 (VN 20))).
    { eapply good_swich; [exact E7| | | |].
      + repeat constructor.
      + unfold small; reflexivity.
      + reflexivity.
      + eexists. split; [|reflexivity]. intros l. reflexivity. }
    set (s1 := setr s R4 (VN 20)) in *.
    assert (S1 : hs 0 w s1) by (unfold s1; hsts).
    assert (J0 : do_jmp s1 true JEQ R7 (Im 0) = Some false).
    { erewrite do_jmp_num64; [|exact E7|reflexivity]. reflexivity. }
    assert (Bo2 : o3 < two32) by (unfold two32; lia).
    assert (HB : (o_l2 = o_l2 /\ 20 <= 40) \/ (o_l2 = o_l4 /\ 20 <= 20)) by (left; split; [reflexivity|lia]).
    pose proof (stage_fetch e c ifx len w k Bn Ncnt o_l3size o_l3off o_l2 o_l3hdr s1 0 20 o3 S1 D
      (or_introl eq_refl) (or_introl eq_refl) HB (or_introl eq_refl) eq_refl EO Bo2) as F.
    destruct (slice (e_pkt e) o3 20) as [h3|] eqn:ES.
    - pose proof (slice_length _ _ _ _ ES) as L3. pose proof (slice_bytes _ _ _ _ By ES) as B3.
      change (N.to_nat 20) with 20%nat in L3.
      eapply good_app; [exact SWI|]. intros s' ->. apply good_jover_no; [exact J0|apply small_l3|].
      eapply good_app; [exact F|]. intros s2 (p & H2 & D2 & E72 & E82 & E02 & Ho & SL & SAME).
      change (rg s1 R7) with (rg s R7) in E72. rewrite E7 in E72.
      assert (EO2 : stk_load (stk s2) (ctx_off o_l3off) 4 = VN o3).
      { rewrite <- EO. apply stk_load_ext. intros z Hz. apply SAME; offs. }
      assert (X0 : byte_at h3 0 < 256) by (apply byte_at_byte; auto).
      set (off := o3 + 4 * (byte_at h3 0 mod 16)).
      assert (BM : byte_at h3 0 mod 16 < 16) by (apply N.mod_upper_bound; discriminate).
      assert (Boff : off < two32) by (unfold off, two32; lia).
      set (s3 := setr (setr (setr (setr (setr s2 R1 (VN (byte_at h3 0))) R1 (VN (byte_at h3 0 mod 16)))
                   R1 (VN (4 * (byte_at h3 0 mod 16)))) R2 (VN o3)) R1 (VN off)).
      set (s4 := sets s3 (wr_stk (stk s3) (ctx_off o_l4off) (val_bytes (VN off) 4))).
      pose proof (same_val (stk s3) (ctx_off o_l4off) (VN off) 4) as SB4. change (stk s3) with (stk s2) in SB4.
      assert (H4 : hs 0 w s4) by (eapply hst_sets; [unfold s3; hsts|exact SB4|lia|unfold clear; offs]).
      assert (Ho4 : holds e (stk s4) (ctx_off o_l2) p h3) by (eapply holds_sb; [exact SB4|rewrite L3; offs|exact Ho]).
      set (s5 := setr s4 R8 (VN (byte_at h3 9))).
      eapply good_app with (P := fun t => t = s5).
      + apply good_jover_no; [|unfold small; reflexivity|].
        { erewrite (jne7 s2 ETH_P_IP); [reflexivity|exact E72|reflexivity|reflexivity]. }
        exists s5. split; [|reflexivity]. intros l. cbn [app].
        rewrite (fr_ldx e _ s2 SB R1 R0 0 (VN (byte_at h3 0))).
        2:{ rewrite E02. apply (holds_byte e _ (ctx_off o_l2) p h3 0%nat Ho); try offs; rewrite L3; offs. }
        unfold AND64I, LSH64I.
        rewrite (fr_alu64 e _ _ AAnd R1 (Im 15) (byte_at h3 0) 15) by (try discriminate; reflexivity).
        cbn [alu64]. rewrite land15.
        rewrite (fr_alu64 e _ _ ALsh R1 (Im 2) (byte_at h3 0 mod 16) 2) by (try discriminate; reflexivity).
        cbn [alu64]. change (2 mod 64) with 2. rewrite N.shiftl_mul_pow2. change (2 ^ 2) with 4.
        rewrite (N.mul_comm _ 4). rewrite (N.mod_small (4 * _)) by (unfold two64; lia).
        rewrite fr_ldx10; [|exact (h_r10 _ _ _ _ _ _ H2)|reflexivity].
        cbn [stk setr szn]. rewrite EO2.
        rewrite (fr_alu64 e _ _ AAdd R1 (Rg R2) (4 * (byte_at h3 0 mod 16)) o3) by (try discriminate; reflexivity).
        cbn [alu64]. rewrite (N.add_comm _ o3). fold off. rewrite (N.mod_small off) by (unfold two64, two32 in *; lia).
        fold s3. rewrite fr_stx10; [|exact (h_r10 _ _ _ _ _ _ H2)|reflexivity].
        change (sets s3 (wr_stk (stk s3) (ctx_off o_l4off) (val_bytes (rg s3 R1) (szn SW)))) with s4.
        apply (fr_ldx e _ s4 SB R8 R0 9 (VN (byte_at h3 9))).
        change (rg s4 R0) with (rg s2 R0). rewrite E02.
        apply (holds_byte e _ (ctx_off o_l2) p h3 9%nat Ho4); try offs; rewrite L3; offs.
      + intros s' ->. apply good_jover_yes; [|unfold small; reflexivity|].
        { erewrite (jne7 s5 ETH_P_IP); [reflexivity|exact E72|reflexivity|reflexivity]. }
        exists p. split; [unfold s5; hsts|]. split.
        { unfold s5, s4. cbn [stk setr sets]. eapply dyn_sb; [exact SB4|lia|right; offs|exact D2]. }
        split; [exact E72|]. split; [reflexivity|]. constructor.
        * exact Ho4.
        * unfold s5, s4. cbn [stk setr sets]. rewrite (sb_ld _ _ _ _ _ _ SB4) by offs. exact SL.
        * unfold s5, s4. cbn [stk setr sets]. apply load_store_num. exact Boff.
        * exact Boff.
        * rewrite L3. lia.
        * exact B3.
    - eapply good_halts; [exact SWI|]. intros s' ->. apply halts_jover_no; [exact J0|apply small_l3|].
      apply halts_app. exact F.
  Qed.

  Lemma stage_l3_ip6 s o3 : hs 0 w s -> dyn (stk s) -> rg s R7 = VN (swap16 ETH_P_IPV6) ->
    stk_load (stk s) (ctx_off o_l3off) 4 = VN o3 -> o3 <= 14 ->
    match slice (e_pkt e) o3 40 with
    | Some h3 => 
      match code_walk e (c_nexthdr c) (e_pkt e) (byte_at h3 6) (o3 + 40) with
      | (proto, off, eh) => good e (parse_l3 c k) s (fun s' => exists p m, hs m w s' /\ m < 64 /\ dyn (stk s') /\
        rg s' R7 = VN (swap16 ETH_P_IPV6) /\ rg s' R8 = VN proto /\ proto < 256 /\
        netst e (stk s') p h3 off /\ 
        (c_nexthdr c = true -> forall t, eh t = negb (N.land m (eh_bit t) =? 0)))
      end
    | None => FAIL (parse_l3 c k) s
    end.
  Proof.
    intros H D E7 EO Bo. rewrite parse_l3_eq.
    assert (SWI : good e l3_sw s (fun s' => s' = setr s R4 (VN 40))).
    { eapply good_swich; [exact E7| | | |].
      + repeat constructor.
      + unfold small; reflexivity.
      + reflexivity.
      + eexists. split; [|reflexivity]. intros l. reflexivity. }
    set (s1 := setr s R4 (VN 40)) in *.
    assert (S1 : hs 0 w s1) by (unfold s1; hsts).
    assert (J0 : do_jmp s1 true JEQ R7 (Im 0) = Some false).
    { erewrite do_jmp_num64; [|exact E7|reflexivity]. reflexivity. }
    assert (Bo2 : o3 < two32) by (unfold two32; lia).
    assert (HB : (o_l2 = o_l2 /\ 40 <= 40) \/ (o_l2 = o_l4 /\ 40 <= 20)) by (left; split; [reflexivity|lia]).
    pose proof (stage_fetch e c ifx len w k Bn Ncnt o_l3size o_l3off o_l2 o_l3hdr s1 0 40 o3 S1 D
      (or_introl eq_refl) (or_introl eq_refl) HB (or_introl eq_refl) eq_refl EO Bo2) as F.
    destruct (slice (e_pkt e) o3 40) as [h3|] eqn:ES.
    - pose proof (slice_length _ _ _ _ ES) as L3. pose proof (slice_bytes _ _ _ _ By ES) as B3.
      change (N.to_nat 40) with 40%nat in L3.
      destruct (code_walk e (c_nexthdr c) (e_pkt e) (byte_at h3 6) (o3 + 40)) as [[proto off] eh] eqn:CW.
      eapply good_app; [exact SWI|]. intros s' ->. apply good_jover_no; [exact J0|apply small_l3|].
      eapply good_app; [exact F|]. intros s2 (p & H2 & D2 & E72 & E82 & E02 & Ho & SL & SAME).
      change (rg s1 R7) with (rg s R7) in E72. rewrite E7 in E72.
      assert (EO2 : stk_load (stk s2) (ctx_off o_l3off) 4 = VN o3).
      { rewrite <- EO. apply stk_load_ext. intros z Hz. apply SAME; offs. }
      eapply good_app with (P := fun t => t = s2).
      { apply good_jover_yes; [|unfold small; reflexivity|reflexivity].
        erewrite (jne7 s2 ETH_P_IPV6); [reflexivity|exact E72|reflexivity|reflexivity]. }
      intros s' ->. apply good_jover_no; [|unfold small; reflexivity|].
      { erewrite (jne7 s2 ETH_P_IPV6); [reflexivity|exact E72|reflexivity|reflexivity]. }
      pose proof (stage_ip6 e c ifx len w Bn Ncnt s2 p h3 o3 H2 D2 E02 Ho L3 B3 SL EO2 Bo) as G. rewrite CW in G.
      eapply good_weaken; [exact G|]. intros s3 (m & A1 & A2 & A3 & A4 & A5 & A6 & A7 & A8 & A9 & A10 & A11).
      exists p, m. split; [exact A1|]. split; [exact A2|]. split; [exact A3|]. split; [congruence|].
      split; [exact A5|]. split; [exact A6|]. split; [|exact A11].
      constructor; auto. rewrite L3. lia.
    - eapply good_halts; [exact SWI|]. intros s' ->. apply halts_jover_no; [exact J0|apply small_l3|].
      apply halts_app. exact F.
  Qed.

  Definition l4_sw : code :=
    swich R8 [(IPPROTO_TCP, [Alu true AMov R4 (Im 20)]);
            (IPPROTO_UDP, [Alu true AMov R4 (Im 8)]);
            (IPPROTO_ICMP, [Alu true AMov R4 (Im 8)]);
            (IPPROTO_ICMPV6, [Alu true AMov R4 (Im 8)])]
    (Some [Alu true AMov R8 (Im 0)]).

  Lemma parse_l4_eq : parse_l4 c k = l4_sw ++ jover (Jmp true JEQ R8 (Im 0)) (fetch_hdr c k o_l4size o_l4off o_l4 o_l4hdr).
  Proof. reflexivity. Qed.

  Lemma small_l4 : small (fetch_hdr c k o_l4size o_l4off o_l4 o_l4hdr).
  Proof. unfold small; reflexivity. Qed.

  (** No supported transport protocol. *)
  Lemma stage_l4_none s m x : hs m w s -> dyn (stk s) -> rg s R8 = VN x -> l4_size x = 0 ->
    good e (parse_l4 c k) s (fun s' => hs m w s' /\ stk s' = stk s /\ rg s' R7 = rg s R7 /\ rg s' R8 = VN 0).
  Proof.
    intros H D E8 Z. rewrite parse_l4_eq.
    eapply good_app with (P := fun s' => s' = setr s R8 (VN 0)).
    - eapply good_swich; [exact E8| | | |].
      + repeat constructor.
      + unfold small; reflexivity.
      + unfold swich_pick. cbn [find fst]. unfold l4_size in Z. 
        unfold IPPROTO_TCP, IPPROTO_UDP, IPPROTO_ICMP, IPPROTO_ICMPV6.
        destruct (x =? 6); [discriminate|]. destruct (x =? 17); [discriminate|]. destruct (x =? 1); [discriminate|].
        destruct (x =? 58); [discriminate|]. reflexivity.
      + eexists. split; [|reflexivity]. intros l. reflexivity.
    - intros s' ->. apply good_jover_yes; [reflexivity|apply small_l4|].
      split; [hsts|]. repeat split.
  Qed.

  Lemma stage_l4 s m x p h3 off : hs m w s -> dyn (stk s) -> rg s R8 = VN x -> l4_size x <> 0 ->
    netst e (stk s) p h3 off ->
    match slice (e_pkt e) off (l4_size x) with
    | Some h4 => good e (parse_l4 c k) s (fun s' => exists p4, hs m w s' /\
        rg s' R7 = rg s R7 /\ rg s' R8 = VN x /\ holds e (stk s') (ctx_off o_l2) p h3 /\
        stk_load (stk s') (ctx_off o_l3hdr) 8 = p /\
        holds e (stk s') (ctx_off o_l4) p4 h4 /\ stk_load (stk s') (ctx_off o_l4hdr) 8 = p4)
    | None => FAIL (parse_l4 c k) s
    end.
  Proof.
    intros H D E8 Z [N1 N2 N3 N4 N5 N6]. rewrite parse_l4_eq.
    assert (SZ : l4_size x = 20 \/ l4_size x = 8).
    { unfold l4_size in *. destruct (x =? 6); auto. destruct (_ || _); auto. congruence. }
    assert (SWI : good e l4_sw s (fun s' => s' = setr s R4 (VN (l4_size x)))).
    { eapply good_swich; [exact E8| | |reflexivity|].
      + repeat constructor.
      + unfold small; reflexivity.
      + unfold swich_pick. cbn [find fst]. unfold l4_size in *. 
        unfold IPPROTO_TCP, IPPROTO_UDP, IPPROTO_ICMP, IPPROTO_ICMPV6.
        destruct (x =? 6); [eexists; split; [|reflexivity]; intros l; reflexivity|].
        destruct (x =? 17); [eexists; split; [|reflexivity]; intros l; reflexivity|].
        destruct (x =? 1); [eexists; split; [|reflexivity]; intros l; reflexivity|].
        destruct (x =? 58); [eexists; split; [|reflexivity]; intros l; reflexivity|].
        cbn in Z. congruence. }
    set (s1 := setr s R4 (VN (l4_size x))) in *.
    assert (S1 : hs m w s1) by (unfold s1; hsts).
    assert (J0 : do_jmp s1 true JEQ R8 (Im 0) = Some false).
    { erewrite do_jmp_num64; [|exact E8|reflexivity]. cbn [jtest]. change (imm64 0) with 0.
      destruct (N.eqb_spec x 0) as [->|]; [exfalso; apply Z; reflexivity|reflexivity]. }
    assert (HB : (o_l4 = o_l2 /\ l4_size x <= 40) \/ (o_l4 = o_l4 /\ l4_size x <= 20)) by (right; split; [reflexivity|lia]).
    pose proof (stage_fetch e c ifx len w k Bn Ncnt o_l4size o_l4off o_l4 o_l4hdr s1 m (l4_size x) off S1 D
      (or_intror eq_refl) (or_intror eq_refl) HB (or_intror eq_refl) eq_refl N3 N4) as F.
    destruct (slice (e_pkt e) off (l4_size x)) as [h4|] eqn:ES.
    - pose proof (slice_length _ _ _ _ ES) as L4.
      eapply good_app; [exact SWI|]. intros s' ->. apply good_jover_no; [exact J0|apply small_l4|].
      eapply good_weaken; [exact F|]. intros s2 (p4 & H2 & D2 & E72 & E82 & E02 & Ho & SL & SAME).
      exists p4. split; [exact H2|]. split; [exact E72|]. split; [rewrite E82; exact E8|].
      split; [|split; [|split; [exact Ho|exact SL]]].
      + destruct N1 as [N1|[N1a N1b]]; [left; exact N1|right; split; auto].
        rewrite <- N1b. apply rd_stk_ext. intros z Hz. apply SAME; offs.
      + rewrite <- N2. apply stk_load_ext. intros z Hz. apply SAME; offs.
    - eapply good_halts; [exact SWI|]. intros s' ->. apply halts_jover_no; [exact J0|apply small_l4|]. exact F.
  Qed.
End H.
