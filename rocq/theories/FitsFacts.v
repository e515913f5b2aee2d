(** Rules of bounded size fit in the jump offsets (proofs only). *)
From Coq Require Import NArith ZArith List Bool Lia Arith.
From Verif Require Import Bytes Types World BpfModel GenModel PktSpec Wf Frag StepFacts MatcherFacts2 ProgFacts.
Import ListNotations.
Local Open Scope nat_scope.

Ltac ok1 H := match type of H with
  | bind ?x _ = Ok _ => destruct x eqn:?; cbn [bind] in H; [|discriminate H]
  | (match ?x with _ => _ end) = Ok _ => destruct x eqn:?; try discriminate H
  | (if ?x then _ else _) = Ok _ => destruct x eqn:?; try discriminate H
  | Er _ = Ok _ => discriminate H
  end.
Ltac oks H := repeat ok1 H; try (apply Ok_inj in H; subst).

Lemma len_stub_load : forall fuel a b n, length (stub_load fuel a b n) <= 2 * fuel.
Proof.
  induction fuel as [|f IH]; intros a b n; cbn [stub_load]; [cbn; lia|].
  destruct n; [cbn; lia|]. rewrite app_length. cbn [length]. specialize (IH (a + Z.of_nat (szn (load_unit a b (S n))))%Z (b + Z.of_nat (szn (load_unit a b (S n))))%Z (S n - szn (load_unit a b (S n)))). lia.
Qed.

Lemma len_cmp_halves j r lo hi : length (cmp_halves j r lo hi) <= 11.
Proof. destruct j; cbn; lia. Qed.

Lemma len_cmp_value m ref n r l : cmp_value m ref n r = Ok l -> length l <= 11.
Proof.
  unfold cmp_value. intros H. destruct (m_op m); try discriminate. ok1 H.
  do 17 (try destruct n as [|n]); try discriminate; apply Ok_inj in H; subst; try (cbn; lia). apply len_cmp_halves.
Qed.

Lemma len_cmp_masked m ref p n r l : cmp_masked m ref p n r = Ok l -> length l <= 30.
Proof.
  unfold cmp_masked. intros H. destruct (m_op m); try discriminate. ok1 H.
  do 17 (try destruct n as [|n]); try discriminate; apply Ok_inj in H; subst; rewrite !app_length.
  - destruct (_ =? _)%N; cbn; lia.
  - match goal with |- context [cmp_halves ?a ?b ?c ?d] => pose proof (len_cmp_halves a b c d) end.
    destruct (_ =? _)%N; cbn [length app build_imm64]; lia.
Qed.

Lemma len_range m a b r : length (cmp_range m a b r) <= 3.
Proof. unfold cmp_range. destruct (m_neg m); cbn; lia. Qed.

Lemma len_header mt r l : load_header mt r = Ok l -> length l = 1.
Proof. unfold load_header. intros H. oks H; reflexivity. Qed.

Lemma len_load mt r l : pkt_load mt r = Ok l -> length l <= 3.
Proof.
  unfold pkt_load. intros H. ok1 H. ok1 H. apply Ok_inj in H; subst. apply len_header in Heqr0. rewrite app_length, Heqr0.
  unfold load_field in Heqr1. generalize dependent (mt_size mt). intros n Heqr1.
  do 17 (try destruct n as [|n]); try discriminate; apply Ok_inj in Heqr1; subst; cbn; lia.
Qed.

Lemma size_le t : mt_size (meta_of t) <= 16.
Proof. destruct t; cbn; lia. Qed.

Lemma len_set_key : forall key o l, gen_set_key key o = Ok l -> length l <= 33 * length key.
Proof.
  induction key as [|t key IH]; intros o l H; cbn [gen_set_key] in H.
  - apply Ok_inj in H; subst. cbn. lia.
  - ok1 H. ok1 H. apply Ok_inj in H; subst. apply len_header in Heqr. apply IH in Heqr0.
    rewrite !app_length, Heqr. unfold stx_payload. pose proof (len_stub_load (mt_size (meta_of t)) (Z.of_nat (mt_off (meta_of t))) (scr_off (Z.of_nat o)) (mt_size (meta_of t))).
    pose proof (size_le t). cbn [length]. lia.
Qed.

Lemma len_lookup c m k l : gen_map_lookup c m k = Ok l -> length l = 9.
Proof. unfold gen_map_lookup. intros H. oks H. reflexivity. Qed.

Lemma len_set c m l : Forall wf_set (c_sets c) -> gen_set c m = Ok l -> length l <= 280.
Proof.
  intros W H. unfold gen_set in H. destruct (set_of (c_sets c) m) as [s|] eqn:Es; [|discriminate].
  assert (Ws : wf_set s) by (rewrite Forall_forall in W; apply W; eapply nth_error_In; exact Es).
  destruct (s_trie s).
  - destruct (s_key s) as [|t r]; [discriminate|]. ok1 H. ok1 H. apply Ok_inj in H; subst.
    apply len_header in Heqr0. apply len_lookup in Heqr1. rewrite !app_length, Heqr0, Heqr1. cbn [length].
    pose proof (len_stub_load (mt_size (meta_of t)) (Z.of_nat (mt_off (meta_of t))) (scr_off 8) (mt_size (meta_of t))).
    pose proof (size_le t). lia.
  - ok1 H. ok1 H. apply Ok_inj in H; subst. apply len_set_key in Heqr. apply len_lookup in Heqr0.
    rewrite app_length, Heqr0. pose proof (ws_max _ Ws). lia.
Qed.

Lemma len_sa_load o n l : sa_load o n = Ok l -> length l <= 8.
Proof.
  unfold sa_load. intros H. do 17 (try destruct n as [|n]); try discriminate; [|destruct (_ =? _)];
    apply Ok_inj in H; subst; cbn; lia.
Qed.

Lemma len_sa_set_key : forall key o l, sa_set_key key o = Ok l -> length l <= 33 * length key.
Proof.
  induction key as [|t key IH]; intros o l H; cbn [sa_set_key] in H.
  - apply Ok_inj in H; subst. cbn. lia.
  - ok1 H. ok1 H. apply Ok_inj in H; subst. apply IH in Heqr0. rewrite app_length.
    pose proof (len_stub_load (mt_size (meta_of t)) (Z.of_nat a) (scr_off (Z.of_nat o)) (mt_size (meta_of t))).
    pose proof (size_le t). cbn [length].
    assert (length (match t with M_IP4_PROTO => [I (Stx SB R10 R8 (scr_off (Z.of_nat o)))]
      | _ => stub_load (mt_size (meta_of t)) (Z.of_nat a) (scr_off (Z.of_nat o)) (mt_size (meta_of t)) end) <= 33)
      by (destruct t; cbn [length]; lia).
    lia.
Qed.

Lemma len_sa_set c m l : Forall wf_set (c_sets c) -> sa_set c m = Ok l -> length l <= 280.
Proof.
  intros W H. unfold sa_set in H. destruct (set_of (c_sets c) m) as [s|] eqn:Es; [|discriminate].
  assert (Ws : wf_set s) by (rewrite Forall_forall in W; apply W; eapply nth_error_In; exact Es).
  destruct (s_trie s).
  - destruct (s_key s) as [|t r]; [discriminate|]. ok1 H. ok1 H. apply Ok_inj in H; subst.
    apply len_lookup in Heqr1. rewrite !app_length, Heqr1. cbn [length].
    pose proof (len_stub_load (mt_size (meta_of t)) (Z.of_nat a) (scr_off 8) (mt_size (meta_of t))).
    pose proof (size_le t). lia.
  - ok1 H. ok1 H. apply Ok_inj in H; subst. apply len_sa_set_key in Heqr. apply len_lookup in Heqr0.
    rewrite app_length, Heqr0. pose proof (ws_max _ Ws). lia.
Qed.

Lemma len_sa c m l : Forall wf_set (c_sets c) -> sa_matcher c m = Ok l -> length l <= 280.
Proof.
  intros W H. unfold sa_matcher in H. destruct (m_type m) eqn:Et; try discriminate;
    unfold gen_meta, sa_load_cmp, sa_net, sa_port in H; try rewrite Et in H;
      unfold gen_probability in H;
      try (apply len_sa_set in H; auto; lia); repeat ok1 H; try (apply Ok_inj in H; subst);
      repeat match goal with
      | H : sa_load _ _ = Ok _ |- _ => apply len_sa_load in H
      | H : cmp_value _ _ _ _ = Ok _ |- _ => apply len_cmp_value in H
      | H : cmp_masked _ _ _ _ _ = Ok _ |- _ => apply len_cmp_masked in H
      | |- context [cmp_range ?a ?b ?c ?d] => pose proof (len_range a b c d); generalize dependent (cmp_range a b c d); intros
      end; rewrite ?app_length; cbn [length app] in *; rewrite ?app_length; cbn [length]; try lia.
Qed.

Lemma len_gen_log h r : length (gen_log h r) <= 40.
Proof. destruct h; cbn; lia. Qed.

Lemma len_matcher c m l : Forall wf_set (c_sets c) -> gen_matcher c m = Ok l -> length l <= 280.
Proof.
  intros W H.
  assert (P : forall l, gen_packet_matcher c m = Ok l -> length l <= 280).
  { clear l H. intros l H. unfold gen_packet_matcher in H. destruct (m_type m) eqn:Et; try discriminate;
    unfold gen_meta, gen_load_cmp, gen_net, gen_port, gen_tcp_flags, gen_ip4_dscp, gen_ip6_dscp, gen_nexthdr in H; try rewrite Et in H;
      unfold gen_iface, gen_probability, gen_flow_probability, gen_meta_port in H;
      try (apply len_set in H; auto; lia); repeat ok1 H; try (apply Ok_inj in H; subst);
      repeat match goal with
      | H : pkt_load _ _ = Ok _ |- _ => apply len_load in H
      | H : load_header _ _ = Ok _ |- _ => apply len_header in H
      | H : cmp_value _ _ _ _ = Ok _ |- _ => apply len_cmp_value in H
      | H : cmp_masked _ _ _ _ _ = Ok _ |- _ => apply len_cmp_masked in H
      | H : cmp_bitfield _ _ _ = Ok _ |- _ => unfold cmp_bitfield in H; oks H
      | |- context [cmp_range ?a ?b ?c ?d] => pose proof (len_range a b c d); generalize dependent (cmp_range a b c d); intros
      end; rewrite ?app_length; cbn [length swich swich_tests swich_bodies map app Nat.add] in *; rewrite ?app_length; cbn [length]; try lia. }
  unfold gen_matcher in H. destruct (hook_flavor (c_hook c)); try (apply P; exact H); try (apply (len_sa c m l W H)); destruct (m_type m); try (apply P; exact H); try discriminate;
    repeat ok1 H; try (apply Ok_inj in H; subst);
      repeat match goal with
      | H : cmp_value _ _ _ _ = Ok _ |- _ => apply len_cmp_value in H
      | |- context [cmp_range ?a ?b ?c ?d] => pose proof (len_range a b c d); generalize dependent (cmp_range a b c d); intros
      end; rewrite ?app_length; cbn [length app] in *; lia.
Qed.

Lemma len_matchers c : Forall wf_set (c_sets c) -> forall ms l, gen_matchers c ms = Ok l -> length l <= 280 * length ms.
Proof.
  intros W. induction ms as [|m ms IH]; intros l H; cbn [gen_matchers] in H.
  - apply Ok_inj in H; subst. cbn. lia.
  - ok1 H. ok1 H. apply Ok_inj in H; subst. apply len_matcher in Heqr; auto. specialize (IH _ eq_refl).
    rewrite app_length. cbn [length]. lia.
Qed.

Lemma len_protos : forall ts ck g ck', check_protos ts ck = Ok (g, ck') -> length g <= length ts.
Proof.
  induction ts as [|t ts IH]; intros ck g ck' H; cbn [check_protos] in H.
  - apply Ok_inj in H. injection H as <- <-. cbn. lia.
  - ok1 H. ok1 H. destruct a as [a cka], a0 as [b ckb]. cbn [fst snd] in *. apply Ok_inj in H. injection H as <- <-.
    apply IH in Heqr0. rewrite app_length. cbn [length]. assert (length a <= 1); [|lia].
    unfold check_proto in Heqr. destruct (checked_get _ _); [apply Ok_inj in Heqr; injection Heqr as <- <-; cbn; lia|].
    destruct (mt_layer (meta_of t)) eqn:EL; [apply Ok_inj in Heqr; injection Heqr as <- <-; cbn; lia| |];
    unfold check_protocol in Heqr; rewrite EL in Heqr; apply Ok_inj in Heqr; injection Heqr as <- <-; cbn; lia.
Qed.

Lemma len_guards c : Forall wf_set (c_sets c) -> forall ms ck l, gen_guards c ms ck = Ok l -> length l <= 8 * length ms.
Proof.
  intros W. induction ms as [|m ms IH]; intros ck l H; cbn [gen_guards] in H.
  - apply Ok_inj in H; subst. cbn. lia.
  - destruct (matcher_types c m) as [ts|] eqn:Et; [|discriminate]. cbn [bind] in H.
    destruct (check_protos ts ck) as [[a cka]|] eqn:Ea; [|discriminate]. cbn [bind fst snd] in H.
    ok1 H. apply Ok_inj in H; subst. apply IH in Heqr. apply len_protos in Ea. rewrite app_length. cbn [length].
    assert (length ts <= 8); [|lia]. unfold matcher_types in Et.
    destruct (m_type m); try (apply Ok_inj in Et; subst; cbn; lia).
    destruct (set_of (c_sets c) m) as [s|] eqn:Es; [|discriminate]. apply Ok_inj in Et; subst.
    apply ws_max. rewrite Forall_forall in W. apply W. eapply nth_error_In; exact Es.
Qed.

(** 100 matchers per rule always fit. *)
Lemma fits_100 c : Forall wf_set (c_sets c) -> (forall r, In r (c_rules c) -> length (r_matchers r) <= 100) -> fits c.
Proof.
  intros W B r l Hr H. specialize (B r Hr). unfold gen_rule in H. destruct (r_disabled r); [apply Ok_inj in H; subst; reflexivity|].
  ok1 H. ok1 H. ok1 H. ok1 H. apply Ok_inj in H; subst.
  apply (len_guards c W) in Heqr0. apply (len_matchers c W) in Heqr1.
  assert (X1 : length a1 <= 3).
  { destruct (mark_is_set r); [|apply Ok_inj in Heqr2; subst; cbn; lia]. unfold gen_set_mark in Heqr2. oks Heqr2; cbn; lia. }
  assert (X2 : length (gen_rule_log (c_hook c) r) <= 60).
  { pose proof (len_gen_log (c_hook c) r) as L. unfold gen_rule_log. destruct (_ =? _)%N; [cbn; lia|]. destruct (_ =? _)%N; [lia|].
    unfold jover. rewrite !app_length. cbn [length app]. rewrite ?app_length. destruct (_ =? _)%N; cbn [length app]; rewrite ?app_length; cbn [length]; lia. }
  assert (X3 : length (if r_counters r then gen_count (r_index r) else []) <= 6) by (destruct (r_counters r); cbn; lia).
  assert (X4 : length a2 <= 4).
  { unfold gen_rule_verdict, gen_redirect in Heqr3. oks Heqr3; cbn; lia. }
  unfold small. rewrite !app_length. lia.
Qed.
