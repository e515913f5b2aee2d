(** The whole prologue (proofs only). *)
From Coq Require Import NArith ZArith List Bool Lia Arith.
From Verif Require Import Bytes Types World BpfModel GenModel PktSpec ViewSpec Wf ViewModel Frag BytesFacts NetFacts
  StepFacts SwichFacts MatcherFacts MatcherFacts2 MatcherFacts4 RuleFacts2 HeadFacts HeadFacts2 HeadFacts3 HeadFacts4.
Import ListNotations.
Local Open Scope N_scope.

(** The flow hash as a function of the view (flow_hash.bpf.c). *)
Definition view_hash (l3 l4 : N) (h3 h4 : list N) : N := flow_hash (swap16 l3) l4 h3 h4.

(** What is known after the last header. *)
Record viewst (e : env) (c : chain) (v : view) (w : world) (m : N) (s : st) : Prop := mkVS {
  vs_h : hst c (v_if v) (v_len v) m w s;
  vs_mb : m < 64;
  vs_r7 : rg s R7 = VN (swap16 (v_l3 v));
  vs_r8 : rg s R8 = VN (v_l4 v);
  vs_eh : c_nexthdr c = true -> v_l3 v = ETH_P_IPV6 -> forall t, v_eh v t = negb (N.land m (eh_bit t) =? 0);
  vs_h3 : v_l3 v <> 0 -> exists p, holds e (stk s) (ctx_off o_l2) p (v_h3 v) /\ stk_load (stk s) (ctx_off o_l3hdr) 8 = p;
  vs_h4 : v_l4 v <> 0 -> exists p, holds e (stk s) (ctx_off o_l4) p (v_h4 v) /\ stk_load (stk s) (ctx_off o_l4hdr) 8 = p;
}.

(** Properties of the view that do not depend on the machine. *)
Record viewok (v : view) (p : packet) : Prop := mkVO {
  vo_b3 : bytes (v_h3 v);
  vo_b4 : bytes (v_h4 v);
  vo_l3 : v_l3 v = ETH_P_IP \/ v_l3 v = ETH_P_IPV6 \/ v_l3 v = 0;
  vo_n3 : v_l3 v = ETH_P_IP -> length (v_h3 v) = 20%nat;
  vo_n6 : v_l3 v = ETH_P_IPV6 -> length (v_h3 v) = 40%nat;
  vo_l4 : v_l4 v <> 0 -> length (v_h4 v) = N.to_nat (l4_size (v_l4 v)) /\ l4_size (v_l4 v) <> 0;
  vo_if : v_if v = p_if p;
  vo_len : v_len v = p_len p;
  vo_hash : v_hash v = p_hash p;
  vo_fhash : v_fhash v = view_hash (v_l3 v) (v_l4 v) (v_h3 v) (v_h4 v);
  vo_sock : v_sock v = None
}.

Lemma l4_size_zero : l4_size 0 = 0.
Proof. reflexivity. Qed.

Lemma with_transport_ok p l3 h3 proto off eh v : bytes (p_data p) -> bytes h3 ->
  (l3 = ETH_P_IP /\ length h3 = 20%nat) \/ (l3 = ETH_P_IPV6 /\ length h3 = 40%nat) ->
  with_transport view_hash p l3 h3 proto off eh = Some v -> viewok v p.
Proof.
  intros B B3 L H. unfold with_transport in H. destruct (N.eqb_spec (l4_size proto) 0) as [Z|Z].
  - injection H as <-. constructor; cbn [v_l3 v_l4 v_h3 v_h4 v_if v_len v_hash v_fhash v_sock]; try reflexivity.
    + exact B3.
    + apply Forall_nil.
    + destruct L as [[-> _]|[-> _]]; auto.
    + destruct L as [[-> ?]|[-> ?]]; [auto|discriminate].
    + destruct L as [[-> ?]|[-> ?]]; [discriminate|auto].
    + congruence.
  - destruct (slice (p_data p) off (l4_size proto)) as [h4|] eqn:ES; [|discriminate].
    injection H as <-. constructor; cbn [v_l3 v_l4 v_h3 v_h4 v_if v_len v_hash v_fhash v_sock]; try reflexivity.
    + exact B3.
    + exact (slice_bytes _ _ _ _ B ES).
    + destruct L as [[-> _]|[-> _]]; auto.
    + destruct L as [[-> ?]|[-> ?]]; [auto|discriminate].
    + destruct L as [[-> ?]|[-> ?]]; [discriminate|auto].
    + intros _. split; auto. eapply slice_length; eauto.
Qed.

Lemma parse_ok walk f p v : bytes (p_data p) -> parse walk view_hash f p = Some v -> viewok v p.
Proof.
  intros B H. unfold parse in H. destruct (network f p) as [[et o3]|]; [|discriminate].
  destruct (N.eqb_spec et 0x0800) as [->|N1].
  { destruct (slice (p_data p) o3 20) as [h3|] eqn:ES; [|discriminate].
    eapply with_transport_ok; [exact B|exact (slice_bytes _ _ _ _ B ES)| |exact H].
    left. split; [reflexivity|]. apply slice_length in ES. exact ES. }
  destruct (N.eqb_spec et 0x86DD) as [->|N2].
  { destruct (slice (p_data p) o3 40) as [h3|] eqn:ES; [|discriminate].
    destruct (walk (p_data p) (byte_at h3 6) (o3 + 40)) as [[proto off] eh].
    eapply with_transport_ok; [exact B|exact (slice_bytes _ _ _ _ B ES)| |exact H].
    right. split; [reflexivity|]. apply slice_length in ES. exact ES. }
  injection H as <-. constructor; cbn [v_l3 v_l4 v_h3 v_h4 v_if v_len v_hash v_fhash v_sock]; try reflexivity; try discriminate;
    try apply Forall_nil; auto; congruence.
Qed.

Definition parse_from (walk : walker) (p : packet) (et o3 : N) : option view :=
  if et =? 0x0800 then
    match slice (p_data p) o3 20 with
    | Some h3 => with_transport view_hash p et h3 (byte_at h3 9) (o3 + 4 * (byte_at h3 0 mod 16)) (fun _ => false)
    | None => None
    end
  else if et =? 0x86DD then
    match slice (p_data p) o3 40 with
    | Some h3 =>
        let '(proto, off, eh) := walk (p_data p) (byte_at h3 6) (o3 + 40) in
        with_transport view_hash p et h3 proto off eh
    | None => None
    end
  else Some (mkV 0 0 [] [] (fun _ => false) (p_if p) (p_len p) (p_hash p) (view_hash 0 0 [] []) None).

Section H.
  Variables (e : env) (c : chain) (w : world) (k : Z).
  Hypothesis Bn : n_rules c < 268435456.
  Hypothesis We : wf_env c e.

  Notation pk := (packet_of e (c_hook c)).
  Notation ifx := (p_if pk).
  Notation len := (p_len pk).
  Notation hs := (hst c ifx len).
  Notation FAIL a s := (halts e a s (imm64 k) (w_count w (n_rules c + 1) len)).

  Let Ncnt := we_ncnt _ _ We.
  Let By := we_bytes _ _ We.

  Lemma stage_transport s l3 h3 proto off eh m p : hs m w s -> m < 64 -> dyn (stk s) -> rg s R7 = VN (swap16 l3) ->
    l3 <> 0 -> rg s R8 = VN proto -> netst e (stk s) p h3 off ->
    (c_nexthdr c = true -> l3 = ETH_P_IPV6 -> forall t, eh t = negb (N.land m (eh_bit t) =? 0)) ->
    match with_transport view_hash pk l3 h3 proto off eh with
    | Some v => good e (parse_l4 c k) s (viewst e c v w m)
    | None => FAIL (parse_l4 c k) s
    end.
  Proof.
    intros H Bm D E7 N3 E8 NS EH. unfold with_transport. destruct (N.eqb_spec (l4_size proto) 0) as [Z|Z].
    - eapply good_weaken; [eapply stage_l4_none; eauto|]. intros s' (A1 & A2 & A3 & A4).
      constructor; cbn; auto.
      + rewrite A3. exact E7.
      + intros _. rewrite A2. exists p. split; [apply (ns_holds _ _ _ _ _ NS)|apply (ns_slot _ _ _ _ _ NS)].
      + congruence.
    - pose proof (stage_l4 e c ifx len w k Bn Ncnt s m proto p h3 off H D E8 Z NS) as G.
      change (p_data pk) with (e_pkt e).
      destruct (slice (e_pkt e) off (l4_size proto)) as [h4|]; [|exact G].
      eapply good_weaken; [exact G|]. intros s' (p4 & A1 & A2 & A3 & A4 & A5 & A6 & A7).
      constructor; cbn; auto.
      + rewrite A2. exact E7.
      + intros _. exists p. auto.
      + intros _. exists p4. auto.
  Qed.

  Lemma stage_34 s et o3 : hs 0 w s -> dyn (stk s) -> rg s R7 = VN (swap16 et) -> rg s R8 = VN 0 ->
    stk_load (stk s) (ctx_off o_l3off) 4 = VN o3 -> o3 <= 14 -> et < 65536 ->
    match parse_from (code_walk e (c_nexthdr c)) pk et o3 with
    | Some v => good e (parse_l3 c k ++ parse_l4 c k) s (fun s' => exists m, viewst e c v w m s')
    | None => FAIL (parse_l3 c k ++ parse_l4 c k) s
    end.
  Proof.
    intros H D E7 E8 EO Bo Be. unfold parse_from. change (p_data pk) with (e_pkt e).
    destruct (N.eqb_spec et 0x0800) as [->|N1].
    { pose proof (stage_l3_ip4 e c ifx len w k Bn Ncnt By s o3 H D E7 EO Bo) as G.
      destruct (slice (e_pkt e) o3 20) as [h3|] eqn:ES; [|apply halts_app; exact G].
      assert (T : forall s', (exists p, hs 0 w s' /\ dyn (stk s') /\
        rg s' R7 = VN (swap16 ETH_P_IP) /\ rg s' R8 = VN (byte_at h3 9) /\
        netst e (stk s') p h3 (o3 + 4 * (byte_at h3 0 mod 16))) -> 
        match with_transport view_hash pk 0x0800 h3 (byte_at h3 9) (o3 + 4 * (byte_at h3 0 mod 16)) (fun _ => false) with
        | Some v => good e (parse_l4 c k) s' (viewst e c v w 0)
        | None => FAIL (parse_l4 c k) s'
        end).
      { intros s' (p & A1 & A2 & A3 & A4 & A5). eapply stage_transport; eauto; discriminate. }
      destruct (with_transport view_hash pk 0x0800 h3 (byte_at h3 9) (o3 + 4 * (byte_at h3 0 mod 16)) (fun _ => false)) as [v|].
      - eapply good_app; [exact G|]. intros s' Hs'. eapply good_weaken; [exact (T s' Hs')|]. intros s2 V. exists 0. exact V.
      - eapply good_halts; [exact G|]. exact T. }
    destruct (N.eqb_spec et 0x86DD) as [->|N2].
    { pose proof (stage_l3_ip6 e c ifx len w k Bn Ncnt By s o3 H D E7 EO Bo) as G.
      destruct (slice (e_pkt e) o3 40) as [h3|] eqn:ES; [|apply halts_app; exact G].
      destruct (code_walk e (c_nexthdr c) (e_pkt e) (byte_at h3 6) (o3 + 40)) as [[proto off] eh].
      assert (T : forall s', (exists p m, hs m w s' /\ m < 64 /\ dyn (stk s') /\
        rg s' R7 = VN (swap16 ETH_P_IPV6) /\ rg s' R8 = VN proto /\ proto < 256 /\
        netst e (stk s') p h3 off /\ 
        (c_nexthdr c = true -> forall t, eh t = negb (N.land m (eh_bit t) =? 0))) -> exists m,
        match with_transport view_hash pk 0x86DD h3 proto off eh with
        | Some v => good e (parse_l4 c k) s' (viewst e c v w m)
        | None => FAIL (parse_l4 c k) s'
        end).
      { intros s' (p & m & A1 & A2 & A3 & A4 & A5 & A6 & A7 & A8). exists m. eapply stage_transport; eauto; try discriminate. }
      destruct (with_transport view_hash pk 0x86DD h3 proto off eh) as [v|].
      - eapply good_app; [exact G|]. intros s' Hs'. destruct (T s' Hs') as (m & T').
        eapply good_weaken; [exact T'|]. intros s2 V. exists m. exact V.
      - eapply good_halts; [exact G|]. intros s' Hs'. destruct (T s' Hs') as (m & T'). exact T'. }
    eapply good_app; [apply (stage_l3_other e c ifx len w k s et H D E7 Be N1 N2)|].
    intros s' (A1 & A2 & A3 & A4). rewrite E8 in A4.
    eapply good_weaken; [eapply stage_l4_none; eauto; reflexivity|]. intros s2 (B1 & B2 & B3 & B4).
    exists 0. constructor; cbn; auto; try congruence; try discriminate. reflexivity.
  Qed.

  (** Dynptr, then (with a link header) its parsing, then the rest. *)
  Definition rest_code : code := (if has_link (hook_flavor (c_hook c)) then parse_l2 c k else []) ++ parse_l3 c k ++ parse_l4 c k.

  Lemma stage_rest kf s : hs 0 w s -> dyn_call e kf (rg s R1) -> rg s R8 = VN 0 ->
    (has_link (hook_flavor (c_hook c)) = false ->
      rg s R7 = VN (swap16 (if e_family e =? 2 then 0x0800 else if e_family e =? 10 then 0x86DD else 0)) /\
      stk_load (stk s) (ctx_off o_l3off) 4 = VN 0) ->
    if e_dynptr e =? 0 then
      match parse (code_walk e (c_nexthdr c)) view_hash (hook_flavor (c_hook c)) pk with
      | Some v => good e (make_dynptr c kf k ++ rest_code) s (fun s' => exists m, viewst e c v w m s')
      | None => FAIL (make_dynptr c kf k ++ rest_code) s
      end
    else FAIL (make_dynptr c kf k ++ rest_code) s.
  Proof.
    intros H DC E8 NL. pose proof (stage_dyn e c ifx len w k Bn Ncnt kf s 0 H DC) as G.
    destruct (e_dynptr e =? 0); [|apply halts_app; exact G].
    unfold parse, network, rest_code. change (p_data pk) with (e_pkt e). change (p_family pk) with (e_family e).
    destruct (has_link (hook_flavor (c_hook c))) eqn:HL.
    - pose proof (fun s' m => stage_l2 e c ifx len w k Bn Ncnt s' m) as G2.
      destruct (slice (e_pkt e) 0 14) as [h2|] eqn:ES.
      + assert (Be : be_dec (sub h2 12 2) < 65536).
        { pose proof (slice_bytes _ _ _ _ By ES) as B2. pose proof (slice_length _ _ _ _ ES) as L2.
          pose proof (be_dec_bound (sub h2 12 2) (bytes_sub _ _ _ B2)) as BB.
          rewrite sub_length in BB by (rewrite L2; cbn; lia). exact BB. }
        assert (T : forall s', (hs 0 w s' /\ dyn (stk s') /\ rg s' R7 = VN (swap16 (be_dec (sub h2 12 2))) /\ rg s' R8 = VN 0 /\
           stk_load (stk s') (ctx_off o_l3off) 4 = VN 14) ->
           match parse_from (code_walk e (c_nexthdr c)) pk (be_dec (sub h2 12 2)) 14 with
           | Some v => good e (parse_l3 c k ++ parse_l4 c k) s' (fun s' => exists m, viewst e c v w m s')
           | None => FAIL (parse_l3 c k ++ parse_l4 c k) s'
           end).
        { intros s' (A1 & A2 & A3 & A4 & A5). apply stage_34; auto. lia. }
        change (match parse_from (code_walk e (c_nexthdr c)) pk (be_dec (sub h2 12 2)) 14 with
           | Some v => good e (make_dynptr c kf k ++ parse_l2 c k ++ parse_l3 c k ++ parse_l4 c k) s (fun s' => exists m, viewst e c v w m s')
           | None => FAIL (make_dynptr c kf k ++ parse_l2 c k ++ parse_l3 c k ++ parse_l4 c k) s
           end).
        assert (P : forall s', hs 0 w s' /\ dyn (stk s') /\ rg s' R7 = rg s R7 /\ rg s' R8 = rg s R8 /\
           same_but (ctx_off o_dynptr) 16 (stk s) (stk s') -> good e (parse_l2 c k) s' (fun s' => hs 0 w s' /\ dyn (stk s') /\ rg s' R7 = VN (swap16 (be_dec (sub h2 12 2))) /\ rg s' R8 = VN 0 /\
           stk_load (stk s') (ctx_off o_l3off) 4 = VN 14)).
        { intros s' (A1 & A2 & A3 & A4 & A5). eapply good_weaken; [apply (G2 s' 0 A1 A2 By)|].
          intros s2 (B1 & B2 & B3 & B4 & B5). rewrite A4, E8 in B4. auto. }
        destruct (parse_from (code_walk e (c_nexthdr c)) pk (be_dec (sub h2 12 2)) 14) as [v|].
        * eapply good_app; [exact G|]. intros s' Hs'. eapply good_app; [exact (P s' Hs')|]. exact T.
        * eapply good_halts; [exact G|]. intros s' Hs'. eapply good_halts; [exact (P s' Hs')|]. exact T.
      + eapply good_halts; [exact G|]. intros s' (A1 & A2 & A3 & A4 & A5). apply halts_app. apply (G2 s' 0 A1 A2 By).
    - destruct (NL eq_refl) as [E7 EO]. clear NL.
      set (et := if e_family e =? 2 then 0x0800 else if e_family e =? 10 then 0x86DD else 0) in *.
      assert (Be : et < 65536) by (unfold et; destruct (_ =? 2); [reflexivity|destruct (_ =? 10); reflexivity]).
      change (match parse_from (code_walk e (c_nexthdr c)) pk et 0 with
           | Some v => good e (make_dynptr c kf k ++ [] ++ parse_l3 c k ++ parse_l4 c k) s (fun s' => exists m, viewst e c v w m s')
           | None => FAIL (make_dynptr c kf k ++ [] ++ parse_l3 c k ++ parse_l4 c k) s
           end).
      cbn [app].
      assert (T : forall s', hs 0 w s' /\ dyn (stk s') /\ rg s' R7 = rg s R7 /\ rg s' R8 = rg s R8 /\
           same_but (ctx_off o_dynptr) 16 (stk s) (stk s') ->
           match parse_from (code_walk e (c_nexthdr c)) pk et 0 with
           | Some v => good e (parse_l3 c k ++ parse_l4 c k) s' (fun s' => exists m, viewst e c v w m s')
           | None => FAIL (parse_l3 c k ++ parse_l4 c k) s'
           end).
      { intros s' (A1 & A2 & A3 & A4 & A5). apply stage_34; auto; try congruence; try lia.
        rewrite (sb_ld _ _ _ _ _ _ A5) by offs. exact EO. }
      destruct (parse_from (code_walk e (c_nexthdr c)) pk et 0) as [v|].
      + eapply good_app; [exact G|]. exact T.
      + eapply good_halts; [exact G|]. exact T.
  Qed.
End H.
