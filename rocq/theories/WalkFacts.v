(** The walk of the generated code finds the transport header of RFC 8200. *)
From Coq Require Import NArith ZArith List Bool Lia.
From Verif Require Import Bytes Types World BpfModel GenModel PktSpec ViewSpec Wf BytesFacts ViewModel ProgThm EvalSpec Deploy ChainSpec WalkSpec
  OneFacts OneFacts2 ChainFacts.
Import ListNotations.
Local Open Scope N_scope.

Lemma ext_cases t : In t ext_types -> t = 0 \/ t = 43 \/ t = 44 \/ t = 51 \/ t = 60 \/ t = 135.
Proof. cbn. intuition. Qed.

Lemma octet_byte d o : bytes d -> octet d o < 256.
Proof.
  intros B. unfold octet. destruct (Nat.lt_ge_cases (N.to_nat o) (length d)) as [L|L].
  - unfold bytes in B. rewrite Forall_forall in B. apply B. apply nth_In. exact L.
  - rewrite nth_overflow by lia. reflexivity.
Qed.

Lemma ext_size_small d t o : bytes d -> ext_size d t o <= 2048.
Proof.
  intros B. pose proof (octet_byte d (o + 1) B). unfold ext_size.
  destruct (t =? 44); [lia|]. destruct (t =? 51); lia.
Qed.

Lemma not_ext t : ~ In t ext_types -> eh_common t = false /\ (t =? 51) = false /\ (t =? 44) = false.
Proof.
  intros H. unfold eh_common. rewrite !orb_false_iff, !N.eqb_neq. cbn in H. repeat split; intros ->; apply H; tauto.
Qed.

Section Walk.
  Variable e : env.
  Hypothesis HB : bytes (e_pkt e).

  Lemma eh_follows t o hs p q : transport_at (e_pkt e) t o hs p q ->
    forall n, (length hs <= n)%nat -> reserved_zero (e_pkt e) hs -> q + 2 <= N.of_nat (length (e_pkt e)) ->
      o + 2048 * N.of_nat (length hs) < two32 ->
      ip6_eh_loop e n t o = (p, q).
  Proof.
    induction 1 as [t o E|t o hs p q I L T IH]; intros n Hn R Q B.
    - destruct n; [reflexivity|]. cbn [ip6_eh_loop]. destruct (not_ext _ E) as (-> & -> & ->).
      destruct (_ <=? _) eqn:X; [reflexivity|]. apply N.leb_gt in X. lia.
    - cbn [length] in Hn, B. destruct n as [|n]; [lia|]. cbn [ip6_eh_loop].
      replace (o + 2 <=? N.of_nat (length (e_pkt e))) with true by (symmetry; apply N.leb_le; exact L).
      change (pkt_byte e) with (octet (e_pkt e)).
      pose proof (ext_size_small (e_pkt e) t o HB) as S.
      assert (IH' : ip6_eh_loop e n (octet (e_pkt e) o) (o + ext_size (e_pkt e) t o) = (p, q)).
      { apply IH; [lia| |exact Q|lia]. intros x Hx. apply R. right. exact Hx. }
      destruct (ext_cases _ I) as [-> | [-> | [-> | [-> | [-> | ->]]]]];
        cbn [eh_common N.eqb Pos.eqb orb]; cbn [ext_size N.eqb Pos.eqb] in IH', S |- *;
        unfold ext_size in IH', S; cbn [N.eqb Pos.eqb] in IH', S;
        try (rewrite N.mod_small by lia; exact IH').
      rewrite (R o (or_introl eq_refl)). rewrite N.mod_small by lia. replace (o + 0 + 8) with (o + 8) by lia. exact IH'.
  Qed.

  Lemma nh_follows t o hs p q : transport_at (e_pkt e) t o hs p q ->
    forall n m, (length hs <= n)%nat -> reserved_zero (e_pkt e) hs ->
      o + 2048 * N.of_nat (length hs) < two32 ->
      ip6_nh_loop e n t o m = (p, q, fold_left (fun a h => N.lor a (eh_bit (fst h))) hs m).
  Proof.
    induction 1 as [t o E|t o hs p q I L T IH]; intros n m Hn R B.
    - destruct n; [reflexivity|]. cbn [ip6_nh_loop fold_left]. destruct (not_ext _ E) as (-> & -> & ->).
      destruct (_ <=? _) eqn:X; reflexivity.
    - cbn [length] in Hn, B. destruct n as [|n]; [lia|]. cbn [ip6_nh_loop fold_left fst].
      replace (o + 2 <=? N.of_nat (length (e_pkt e))) with true by (symmetry; apply N.leb_le; exact L).
      change (pkt_byte e) with (octet (e_pkt e)).
      pose proof (ext_size_small (e_pkt e) t o HB) as S.
      assert (IH' : ip6_nh_loop e n (octet (e_pkt e) o) (o + ext_size (e_pkt e) t o) (N.lor m (eh_bit t)) =
                    (p, q, fold_left (fun a h => N.lor a (eh_bit (fst h))) hs (N.lor m (eh_bit t)))).
      { apply IH; [lia| |lia]. intros x Hx. apply R. right. exact Hx. }
      destruct (ext_cases _ I) as [-> | [-> | [-> | [-> | [-> | ->]]]]];
        cbn [eh_common N.eqb Pos.eqb orb];
        unfold ext_size in IH', S; cbn [N.eqb Pos.eqb] in IH', S;
        try (rewrite N.mod_small by lia; exact IH').
      rewrite (R o (or_introl eq_refl)). rewrite N.mod_small by lia. replace (o + (0 + 8)) with (o + 8) by lia. exact IH'.
  Qed.

  Lemma land_lor_0 a b c : negb (N.land (N.lor a b) c =? 0) = negb (N.land a c =? 0) || negb (N.land b c =? 0).
  Proof.
    rewrite N.land_lor_distr_l. 
    destruct (N.eqb_spec (N.land a c) 0) as [->|A].
    - rewrite N.lor_0_l. reflexivity.
    - cbn [negb orb]. destruct (N.eqb_spec (N.lor (N.land a c) (N.land b c)) 0) as [X|X]; [|reflexivity].
      apply N.lor_eq_0_iff in X. tauto.
  Qed.

  Lemma mask_has t hs : In t ext_types -> Forall (fun h => In (fst h) ext_types) hs -> forall m,
    negb (N.land (fold_left (fun a h => N.lor a (eh_bit (fst h))) hs m) (eh_bit t) =? 0) =
    negb (N.land m (eh_bit t) =? 0) || has_ext t hs.
  Proof.
    intros I. induction 1 as [|h hs Ih F IH]; intros m; cbn [fold_left has_ext existsb].
    - rewrite orb_false_r. reflexivity.
    - rewrite IH, land_lor_0, <- orb_assoc. f_equal. fold (has_ext t hs). f_equal.
      destruct (ext_cases _ I) as [-> | [-> | [-> | [-> | [-> | ->]]]]];
        destruct (ext_cases _ Ih) as [-> | [-> | [-> | [-> | [-> | ->]]]]]; reflexivity.
  Qed.

  Lemma walk_types t o hs p q : transport_at (e_pkt e) t o hs p q -> Forall (fun h => In (fst h) ext_types) hs.
  Proof. induction 1; constructor; auto. Qed.

  Lemma walk_follows nh t o hs p q : transport_at (e_pkt e) t o hs p q ->
    ~ In t [43; 44; 51] -> (length hs <= 6)%nat -> reserved_zero (e_pkt e) hs -> q + 2 <= N.of_nat (length (e_pkt e)) ->
    o <= 1000 -> p < 256 ->
    exists eh, code_walk e nh (e_pkt e) t o = (p, q, eh) /\ (nh = true -> forall x, In x ext_types -> eh x = has_ext x hs).
  Proof.
    intros T F L R Q O P. unfold code_walk.
    assert (B : o + 2048 * N.of_nat (length hs) < two32) by (unfold two32; lia).
    destruct (calls_stub t) eqn:C.
    - destruct nh.
      + rewrite (nh_follows _ _ _ _ _ T EXT_MAX_CHAIN 0) by (auto; exact L).
        rewrite N.mod_small by exact P. eexists. split; [reflexivity|]. intros _ x Hx.
        cbv beta. rewrite mask_has by (auto; eapply walk_types; eauto). reflexivity.
      + rewrite (eh_follows _ _ _ _ _ T EXT_MAX_CHAIN) by (auto; exact L).
        rewrite N.mod_small by exact P. eexists. split; [reflexivity|]. discriminate.
    - exists (fun _ => false). inversion T as [t' o' E|t' o' hs' p' q' I L' T']; subst.
      + split; [reflexivity|]. intros _ x _. reflexivity.
      + exfalso. destruct (ext_cases _ I) as [-> | [-> | [-> | [-> | [-> | ->]]]]]; try (vm_compute in C; discriminate); apply F; cbn; tauto.
  Qed.
End Walk.

Lemma l4_size_2 p : l4_size p <> 0 -> 8 <= l4_size p /\ p < 256.
Proof.
  unfold l4_size. destruct (N.eqb_spec p 6) as [->|]; [split; [vm_compute|]; try reflexivity; discriminate|].
  destruct ((p =? 17) || (p =? 1) || (p =? 58)) eqn:E; [|tauto]. rewrite !orb_true_iff, !N.eqb_eq in E.
  intros _. split; [lia|]. destruct E as [[-> | ->] | ->]; reflexivity.
Qed.

Definition ip6_at (c : chain) (e : env) (o : N) (h3 : list N) : Prop :=
  is_sock_addr (c_hook c) = false /\ network (hook_flavor (c_hook c)) (packet_of e (c_hook c)) = Some (0x86DD, o) /\ slice (e_pkt e) o 40 = Some h3.

Lemma transport_found c prog e o3 h3 hs p q h4 :
  deployed c prog e -> e_dynptr e = 0 -> ip6_at c e o3 h3 ->
  transport_at (e_pkt e) (byte_at h3 6) (o3 + 40) hs p q ->
  ~ In (byte_at h3 6) [43; 44; 51] -> (length hs <= 6)%nat -> reserved_zero (e_pkt e) hs ->
  l4_size p <> 0 -> slice (e_pkt e) q (l4_size p) = Some h4 ->
  exists v, view_of e c = Some v /\ v_l3 v = 0x86DD /\ v_l4 v = p /\ v_h3 v = h3 /\ v_h4 v = h4 /\
    (c_nexthdr c = true -> forall t, In t ext_types -> v_eh v t = has_ext t hs).
Proof.
  intros D DY [NS [HN H3]] T F L R P S4.
  pose proof (we_bytes _ _ (dp_env _ _ _ D)) as HB.
  destruct (l4_size_2 _ P) as [P8 P256].
  assert (Q : q + 2 <= N.of_nat (length (e_pkt e))).
  { unfold slice in S4. destruct (_ <=? _) eqn:X; [|discriminate]. apply N.leb_le in X. lia. }
  assert (O : o3 + 40 <= 1000).
  { unfold network in HN. destruct (has_link _); [destruct (slice _ 0 14); [|discriminate]|]; injection HN as _ <-; lia. }
  destruct (walk_follows e HB (c_nexthdr c) _ _ _ _ _ T F L R Q O P256) as (eh & W & E).
  unfold view_of, seen. rewrite NS, DY. cbn [N.eqb]. unfold parse. rewrite HN. cbn [N.eqb Pos.eqb].
  change (p_data (packet_of e (c_hook c))) with (e_pkt e).
  change (0x86DD =? 0x0800) with false. change (0x86DD =? 0x86DD) with true. cbv iota.
  rewrite H3, W. unfold with_transport. apply N.eqb_neq in P. rewrite P.
  change (p_data (packet_of e (c_hook c))) with (e_pkt e). rewrite S4.
  eexists. split; [reflexivity|]. cbn [v_l3 v_l4 v_h3 v_h4 v_eh]. auto.
Qed.

Lemma port_found c prog e m o3 h3 hs p q h4 :
  deployed c prog e -> e_dynptr e = 0 -> tests c m -> ip6_at c e o3 h3 ->
  transport_at (e_pkt e) (byte_at h3 6) (o3 + 40) hs p q ->
  ~ In (byte_at h3 6) [43; 44; 51] -> (length hs <= 6)%nat -> reserved_zero (e_pkt e) hs ->
  (m_type m = M_TCP_DPORT /\ p = 6 \/ m_type m = M_UDP_DPORT /\ p = 17) -> m_op m = OP_EQ ->
  slice (e_pkt e) q (l4_size p) = Some h4 ->
  forall w, drops_when c e prog w (xorb (m_neg m) (bytes_eqb (sub h4 2 2) (m_pay m))).
Proof.
  intros D DY Tm I T F L R MP OP S4 w.
  assert (P : l4_size p <> 0) by (destruct MP as [[_ ->]|[_ ->]]; discriminate).
  destruct (transport_found _ _ _ _ _ _ _ _ _ D DY I T F L R P S4) as (v & V & L3 & L4 & H3 & H4 & _).
  pose proof (one_exact c prog e m v D Tm V) as X.
  assert (In (m_type m) [M_IP4_SADDR; M_IP4_DADDR; M_IP4_PROTO; M_IP6_SADDR; M_IP6_DADDR; M_ICMP_TYPE; M_ICMP_CODE;
                 M_ICMPV6_TYPE; M_ICMPV6_CODE; M_TCP_SPORT; M_TCP_DPORT; M_UDP_SPORT; M_UDP_DPORT; M_TCP_FLAGS]) as IN.
  { destruct MP as [[-> _]|[-> _]]; cbn; tauto. }
  specialize (X IN OP w).
  destruct MP as [[M ->]|[M ->]]; rewrite M in X; cbv [present fld has_tcp has_udp] in X;
    rewrite ?L4, ?H4 in X; cbn [N.eqb Pos.eqb andb] in X; exact X.
Qed.
