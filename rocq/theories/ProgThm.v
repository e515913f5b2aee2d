(** The whole program (proofs only). *)
From Coq Require Import NArith ZArith List Bool Lia Arith.
From Verif Require Import Bytes Types World BpfModel GenModel PktSpec ViewSpec Wf ViewModel Frag BytesFacts NetFacts
  StepFacts SwichFacts MatcherFacts MatcherFacts2 MatcherFacts4 RuleFacts2 RuleFacts3 ProgFacts
  HeadFacts HeadFacts2 HeadFacts3 HeadFacts4 HeadFacts5 HeadFacts6 SockHead.
Import ListNotations.
Local Open Scope N_scope.

Lemma land_low m x b : m < 256 -> b < 256 -> N.land (m + 256 * x) b = N.land m b.
Proof.
  intros Hm Hb. apply N.bits_inj. intros n. rewrite !N.land_spec.
  destruct (N.ltb_spec n 8) as [L|L].
  - replace (N.testbit (m + 256 * x) n) with (N.testbit m n); auto.
    rewrite <- (N.mod_pow2_bits_low (m + 256 * x) 8 n L).
    change (2 ^ 8) with 256. rewrite N.mul_comm, N.mod_add by discriminate.
    rewrite N.mod_small by auto. reflexivity.
  - replace (N.testbit b n) with false; [rewrite !andb_false_r; reflexivity|].
    symmetry. destruct (N.eq_dec b 0) as [->|Nb]; [apply N.bits_0|]. apply N.bits_above_log2.
    apply N.log2_lt_pow2; [lia|]. eapply N.lt_le_trans; [exact Hb|]. change 256 with (2 ^ 8). apply N.pow_le_mono_r; lia.
Qed.

Lemma eh_bit_lt t : eh_bit t < 256.
Proof. unfold eh_bit. repeat (destruct (_ =? _); [reflexivity|]). reflexivity. Qed.

Section T.
  Variables (e : env) (c : chain).
  Hypothesis We : wf_env c e.
  Notation pk := (packet_of e (c_hook c)).

  Lemma view_ready v w m s : hook_flavor (c_hook c) <> F_SOCK_ADDR -> viewok v pk -> viewst e c v w m s ->
    (c_ratelimit c = true -> stk_load (stk s) (ctx_off o_statemap) 8 = VSt 0) ->
    v_l4 v < 256 -> ready e c v (stk s).
  Proof.
    intros NSA VO V HS L4. destruct V as [V1 Vm V2 V3 V4 V5 V6]. destruct V1 as [H1 [B1 B2 B3] [M1 M2] HW].
    destruct VO as [O1 O2 O3 O4 O5 O6 O7 O8 O9 O10 O11].
    assert (L3 : v_l3 v <> 0 -> (length (v_h3 v) <= 40)%nat).
    { intros N3. destruct O3 as [Q|[Q|Q]]; [rewrite (O4 Q)|rewrite (O5 Q)|congruence]; lia. }
    assert (L4' : v_l4 v <> 0 -> (length (v_h4 v) <= 20)%nat).
    { intros N4. destruct (O6 N4) as [Q _]. rewrite Q. unfold l4_size. destruct (_ =? 6); [cbn; lia|]. destruct (_ || _); cbn; lia. }
    constructor; auto.
    - intros NH I6. destruct (B3 NH) as [bs E]. exists (le_dec (m :: bs)). split.
      + unfold stk_load. rewrite E, all_num_map. reflexivity.
      + intros p Hp. rewrite (V4 NH I6 p). cbn [le_dec]. rewrite land_low; [reflexivity|lia|apply eh_bit_lt].
    - intros N3. destruct (V5 N3) as (p & A & <-). eapply holds_reads; [exact A|offs|]. specialize (L3 N3). offs.
    - intros N4. destruct (V6 N4) as (p & A & <-). eapply holds_reads; [exact A|offs|]. specialize (L4' N4). offs.
    - intros E. assert (N4 : v_l4 v <> 0) by (rewrite E; discriminate). destruct (O6 N4) as [Q _]. rewrite Q, E. reflexivity.
    - intros E. assert (N4 : v_l4 v <> 0) by (destruct E as [E|[E|E]]; rewrite E; discriminate).
      destruct (O6 N4) as [Q _]. rewrite Q. destruct E as [E|[E|E]]; rewrite E; reflexivity.
    - destruct O3 as [->|[->| ->]]; reflexivity.
    - rewrite O7. unfold packet_of; cbn [p_if]. pose proof (we_if _ _ We). pose proof (we_ifo _ _ We).
      destruct (hook_flavor _); auto. destruct (nf_ingress _); auto.
    - rewrite O8. unfold packet_of; cbn [p_len]. pose proof (we_len _ _ We) as L. unfold two32, two64 in *.
      destruct (has_link _); [lia|]. destruct (is_sock_addr _); lia.
    - rewrite O9. apply (we_hash _ _ We).
    - apply (we_flavor _ _ We).
    - apply (we_sets _ _ We).
    - apply (we_ncnt _ _ We).
    - apply (we_nstate _ _ We).
    - apply (we_rand _ _ We).
  Qed.

  Lemma transport_l4 l3 h3 proto off eh v : proto < 256 ->
    with_transport view_hash pk l3 h3 proto off eh = Some v -> v_l4 v < 256.
  Proof.
    intros B H. unfold with_transport in H. destruct (l4_size proto =? 0).
    - injection H as <-. reflexivity.
    - destruct (slice _ _ _); [|discriminate]. injection H as <-. exact B.
  Qed.

  Lemma parse_l4_lt v f : parse (code_walk e (c_nexthdr c)) view_hash f pk = Some v -> v_l4 v < 256.
  Proof.
    intros H. pose proof (we_bytes _ _ We) as By. unfold parse in H. destruct (network f pk) as [[et o3]|]; [|discriminate].
    assert (BB : forall h i, bytes h -> byte_at h i < 256).
    { intros h i Hh. unfold byte_at. destruct (Nat.ltb_spec i (length h)) as [L|L].
      - unfold bytes in Hh. rewrite Forall_forall in Hh. apply Hh. apply nth_In. exact L.
      - rewrite nth_overflow by auto. reflexivity. }
    destruct (et =? 0x0800).
    { destruct (slice (p_data pk) o3 20) as [h3|] eqn:ES; [|discriminate].
      eapply transport_l4; [|exact H]. apply BB. exact (slice_bytes _ _ _ _ By ES). }
    destruct (et =? 0x86DD).
    { destruct (slice (p_data pk) o3 40) as [h3|] eqn:ES; [|discriminate].
      destruct (code_walk e (c_nexthdr c) (p_data pk) (byte_at h3 6) (o3 + 40)) as [[proto off] eh] eqn:EW.
      eapply transport_l4; [|exact H]. unfold code_walk in EW. destruct (calls_stub _).
      - destruct (c_nexthdr c).
        + destruct (ip6_nh_loop _ _ _ _ _) as [[q o] m]. injection EW as <- _ _. apply N.mod_lt. discriminate.
        + destruct (ip6_eh_loop _ _ _ _) as [q o]. injection EW as <- _ _. apply N.mod_lt. discriminate.
      - injection EW as <- _ _. apply BB. exact (slice_bytes _ _ _ _ By ES). }
    injection H as <-. reflexivity.
  Qed.

  Lemma head_split h : gen_head c = Ok h -> exists p, gen_prologue c = Ok p /\ h = entry_code c ++ p ++ rate_code c.
  Proof.
    unfold gen_head. intros H. destruct (gen_prologue c) as [p|]; [|discriminate]. cbn [bind] in H.
    apply Ok_inj in H. exists p. split; auto. rewrite <- H. unfold entry_code, rate_code. rewrite <- !app_assoc. reflexivity.
  Qed.

  Lemma head_shape h : gen_head c = Ok h -> wfix h = true /\ small h.
  Proof.
    intros H. unfold gen_head, gen_prologue in H.
    destruct (hook_flavor (c_hook c)) eqn:EF; cbn [get_verdict bind] in H; try discriminate H;
      apply Ok_inj in H; subst h; destruct (c_log c), (c_nexthdr c) eqn:EN, (c_ratelimit c), (nf_ingress (c_hook c));
      unfold small, parse_l3, parse_ip6; rewrite ?EN; (split; vm_compute; reflexivity).
  Qed.

  (** What a packet, or a socket operation, is read as: nothing when the kernel could
      not even build the packet's dynptr. *)
  Definition seen : option view :=
    if is_sock_addr (c_hook c) then Some (sock_view (c_hook c) (e_pkt e))
    else if e_dynptr e =? 0 then parse (code_walk e (c_nexthdr c)) view_hash (hook_flavor (c_hook c)) pk else None.

  Lemma run_program prog w : wf_chain c -> fits c -> gen_program c = Ok prog ->
    (forall r m, In r (c_rules c) -> In m (r_matchers r) -> key_fits c m) ->
    exists k w3, run e prog (length prog) 0 (start w) = Done k w3 /\
    match seen with
    | Some v =>
        let '(d, w') := eval_chain Generated prob_threshold (e_or e) (c_sets c) v (c_policy c) (c_rules c) w in
        finish (hook_flavor (c_hook c)) (e_or e) d w' = Some (k, w3)
    | None => kernel_code (hook_flavor (c_hook c)) V_ACCEPT = Some k /\ w3 = w_count w (n_rules c + 1) (p_len pk)
    end.
  Proof.
    intros Wc Fc G Q. unfold gen_program in G.
    destruct (gen_head c) as [h|] eqn:Eh; [|discriminate]. cbn [bind] in G.
    destruct (gen_rules c (c_rules c)) as [codes|] eqn:Er; [|discriminate]. cbn [bind] in G.
    destruct (gen_tail c) as [t|] eqn:Et; [|discriminate]. cbn [bind] in G.
    apply Ok_inj in G. subst prog. set (prog := resolve h ++ concat codes ++ resolve t).
    destruct (head_shape h Eh) as [WF SM]. apply wfix_well in WF.
    destruct (head_split h Eh) as (p & Ep & Hh).
    assert (Bn : n_rules c < 268435456) by apply (wc_nrules _ Wc).
    assert (Gk : exists k, get_verdict (hook_flavor (c_hook c)) V_ACCEPT = Ok k) by (destruct (hook_flavor _); eexists; reflexivity).
    destruct Gk as [k Gk].
    assert (LEN : length prog = (length h + (length (concat codes) + length t))%nat)
      by (unfold prog; rewrite !app_length, !resolve_length; reflexivity).
    pose proof (stage_entry e c w) as SE.
    assert (FAILS : halts e (entry_code c ++ p ++ rate_code c) (start w) (imm64 k) (w_count w (n_rules c + 1) (p_len pk)) ->
       exists k0 w3, run e prog (length prog) 0 (start w) = Done k0 w3 /\
       (kernel_code (hook_flavor (c_hook c)) V_ACCEPT = Some k0 /\ w3 = w_count w (n_rules c + 1) (p_len pk))).
    { rewrite <- Hh. intros (s' & R & W). specialize (R []). rewrite app_nil_r in R.
      destruct (run_frag e h [] (concat codes ++ resolve t) (start w) WF SM) as (n & Hn & Rn); [rewrite R; discriminate|].
      exists (imm64 k), (wd s'). split; [|split; [apply verdict_code_ok; exact Gk|exact W]].
      replace (length prog) with (n + (length prog - n))%nat by lia.
      etransitivity; [apply Rn|]. rewrite R. reflexivity. }
    assert (SUCCEEDS : forall v, good e h (start w) (fun s => rdy e c v (stk s) /\ inv v (stk s) s /\ wd s = w) ->
       exists k0 w3, run e prog (length prog) 0 (start w) = Done k0 w3 /\
       let '(d, w') := eval_chain Generated prob_threshold (e_or e) (c_sets c) v (c_policy c) (c_rules c) w in
       finish (hook_flavor (c_hook c)) (e_or e) d w' = Some (k0, w3)).
    { intros v GH.
      destruct GH as (s' & R & RD & IV & W). specialize (R []). rewrite app_nil_r in R.
      destruct (run_frag e h [] (concat codes ++ resolve t) (start w) WF SM) as (n & Hn & Rn); [rewrite R; discriminate|].
      destruct (run_body e c v (stk s') RD Wc Fc Q prog (resolve h) codes t s' Er Et eq_refl IV)
        as (k0 & w3 & E & n2 & Hn2 & Rn2).
      exists k0, w3. split.
      - replace (length prog) with (n + (n2 + (length prog - n - n2)))%nat by lia.
        etransitivity; [apply Rn|]. rewrite R. cbn [after frun app length Nat.add].
        rewrite <- (resolve_length h). apply Rn2.
      - rewrite W in E. exact E. }
    unfold seen in *. destruct (is_sock_addr (c_hook c)) eqn:EI.
    { assert (SA : hook_flavor (c_hook c) = F_SOCK_ADDR) by (unfold is_sock_addr in EI; destruct (hook_flavor _); congruence).
      apply SUCCEEDS. rewrite Hh. eapply good_app; [exact SE|]. intros s (A1 & A2 & A3 & A4 & A5 & A6).
      eapply good_app; [apply (stage_sock e c w We SA); auto|]. intros s1 SS.
      eapply good_weaken; [apply (stage_sock_rate e c w We SA); exact SS|]. intros s2 (B1 & B2 & B3).
      split; [apply Rdy_sock; exact B1|]. auto. }
    assert (NSA : hook_flavor (c_hook c) <> F_SOCK_ADDR) by (intros Q0; unfold is_sock_addr in EI; rewrite Q0 in EI; discriminate).
    assert (SF := fun s => stage_flavor e c w k Bn We s p NSA Ep Gk).
    destruct (e_dynptr e =? 0) eqn:ED.
    2: { apply FAILS. eapply good_halts; [exact SE|]. intros s (A1 & A2 & A3 & A4 & A5 & A6).
         apply halts_app. apply SF; auto. }
    destruct (parse (code_walk e (c_nexthdr c)) view_hash (hook_flavor (c_hook c)) pk) as [v|] eqn:EP.
    2: { apply FAILS. eapply good_halts; [exact SE|]. intros s (A1 & A2 & A3 & A4 & A5 & A6).
         apply halts_app. apply SF; auto. }
    pose proof (parse_ok _ _ pk _ (we_bytes _ _ We) EP) as VO.
    pose proof (parse_l4_lt _ _ EP) as L4.
    apply SUCCEEDS.
    { rewrite Hh. eapply good_app; [exact SE|]. intros s (A1 & A2 & A3 & A4 & A5 & A6).
      eapply good_app; [apply SF; auto|]. clear s A1 A2 A3 A4 A5 A6. intros s (m & V).
      eapply good_weaken; [eapply stage_rate; eauto|]. intros s' (V' & ST).
      split; [apply Rdy_pkt; eapply view_ready; eauto|]. destruct V' as [[H1 H2 H3 H4] H5 H6 H7 H8 H9 H10]. split; [|exact H4].
      constructor; auto; [intros z Hz; reflexivity|]. intros C. contradiction C. apply VO. }
  Qed.
End T.
