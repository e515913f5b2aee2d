(** Rules and policy in program order (proofs only). *)
From Coq Require Import NArith ZArith List Bool Lia Arith.
From Verif Require Import Bytes Types World BpfModel GenModel PktSpec ViewSpec Wf ViewModel Frag BytesFacts NetFacts StepFacts
  SwichFacts SetFacts MatcherFacts MatcherFacts2 MatcherFacts3 MatcherFacts4 MatcherFacts5 MatcherFacts6
  RuleFacts SockFacts RuleFacts2 RuleFacts3.
Import ListNotations.
Local Open Scope N_scope.

(** ** Only jumps carry a next-rule fixup *)
Definition jfix (it : item) : bool := match it with J i => jumpish i | I _ => true end.
Definition wfix (l : code) : bool := forallb jfix l.

Lemma wfix_well l : wfix l = true -> well_fixed l.
Proof. intros H i Hi. unfold wfix in H. rewrite forallb_forall in H. apply (H (J i) Hi). Qed.

Lemma wfix_app a b : wfix (a ++ b) = wfix a && wfix b.
Proof. apply forallb_app. Qed.

Lemma wfix_map l : wfix (map I l) = true.
Proof. induction l; auto. Qed.

Lemma wfix_jover mk b : wfix (jover mk b) = wfix b.
Proof. reflexivity. Qed.

Lemma wfix_stub f : forall a b n, wfix (stub_load f a b n) = true.
Proof. induction f; intros a b [|n]; cbn [stub_load]; auto. rewrite wfix_app, IHf. reflexivity. Qed.

Lemma wfix_bodies o d : wfix (swich_bodies o d) = true.
Proof.
  induction o as [|[n b] o IH]; cbn [swich_bodies]; [apply wfix_map|].
  rewrite wfix_app, wfix_map. cbn. exact IH.
Qed.

Lemma wfix_tests r o d : forall n, wfix (swich_tests r o d n) = true.
Proof. induction o as [|[i b] o IH]; intros n; cbn [swich_tests]; [destruct d; reflexivity|]. cbn. apply IH. Qed.

Lemma wfix_swich r o d : wfix (swich r o d) = true.
Proof. unfold swich. destruct d; rewrite wfix_app, wfix_tests, wfix_bodies; reflexivity. Qed.

Ltac wf1 H :=
  repeat match type of H with
    | bind ?x _ = Ok _ => let E := fresh "E" in destruct x eqn:E; [cbn [bind] in H|discriminate H]
    | match ?x with _ => _ end = Ok _ => destruct x eqn:?; try discriminate H
    | (if ?x then _ else _) = Ok _ => destruct x eqn:?; try discriminate H
    end; try discriminate H.

Ltac wfin H := apply Ok_inj in H; subst; rewrite ?wfix_app, ?wfix_jover, ?wfix_stub, ?wfix_swich; cbn [wfix forallb jfix jumpish andb]; auto.

Lemma wfix_range m a b r : wfix (cmp_range m a b r) = true.
Proof. unfold cmp_range. destruct (m_neg m); reflexivity. Qed.

Lemma wfix_halves j r a b : wfix (cmp_halves j r a b) = true.
Proof. unfold cmp_halves. destruct j; reflexivity. Qed.

Lemma wfix_cmp_value m a n r l : cmp_value m a n r = Ok l -> wfix l = true.
Proof. unfold cmp_value. intros H. wf1 H; wfin H. apply wfix_halves. Qed.

Lemma wfix_cmp_masked m a p n r l : cmp_masked m a p n r = Ok l -> wfix l = true.
Proof.
  unfold cmp_masked. intros H. wf1 H; wfin H.
  - destruct (_ =? _); reflexivity.
  - rewrite wfix_halves. destruct (_ =? _); reflexivity.
Qed.

Lemma wfix_header mt r l : load_header mt r = Ok l -> wfix l = true.
Proof. unfold load_header. intros H. wf1 H; wfin H. Qed.

Lemma wfix_load mt r l : pkt_load mt r = Ok l -> wfix l = true.
Proof.
  unfold pkt_load. intros H. wf1 H. apply wfix_header in E.
  wfin H. rewrite E. unfold load_field in E0. wf1 E0; apply Ok_inj in E0; subst; reflexivity.
Qed.

Lemma wfix_key key : forall o l, gen_set_key key o = Ok l -> wfix l = true.
Proof.
  induction key as [|t key IH]; intros o l H; cbn [gen_set_key] in H; [wfin H|].
  wf1 H. apply wfix_header in E. apply IH in E0. wfin H. unfold stx_payload. rewrite wfix_stub, E, E0. reflexivity.
Qed.

Lemma wfix_lookup c m o l : gen_map_lookup c m o = Ok l -> wfix l = true.
Proof. unfold gen_map_lookup. intros H. wf1 H. wfin H. Qed.

Lemma wfix_sload o n l : sa_load o n = Ok l -> wfix l = true.
Proof. unfold sa_load. intros H. wf1 H; apply Ok_inj in H; subst; reflexivity. Qed.

Lemma wfix_skey key : forall o l, sa_set_key key o = Ok l -> wfix l = true.
Proof.
  induction key as [|t key IH]; intros o l H; cbn [sa_set_key] in H; [wfin H|].
  wf1 H. apply IH in E0. wfin H. rewrite E0, andb_true_r. destruct t; rewrite ?wfix_stub; reflexivity.
Qed.

Lemma wfix_log h r : wfix (gen_log h r) = true.
Proof. destruct h; reflexivity. Qed.

Lemma wfix_matcher c m l : gen_matcher c m = Ok l -> wfix l = true.
Proof.
  intros H.
  assert (P : gen_packet_matcher c m = Ok l -> wfix l = true).
  { clear H. intros H. unfold gen_packet_matcher in H.
    destruct (m_type m); try discriminate H;
      unfold gen_meta, gen_iface, gen_probability, gen_meta_port, gen_flow_probability, gen_load_cmp, gen_net, gen_port,
        gen_tcp_flags, gen_nexthdr, gen_ip4_dscp, gen_ip6_dscp, gen_set in H;
      repeat match type of H with match m_type m with _ => _ end = _ => destruct (m_type m); try discriminate H end;
      wf1 H;
      repeat match goal with
        | E : cmp_value _ _ _ _ = Ok _ |- _ => apply wfix_cmp_value in E
        | E : cmp_masked _ _ _ _ _ = Ok _ |- _ => apply wfix_cmp_masked in E
        | E : pkt_load _ _ = Ok _ |- _ => apply wfix_load in E
        | E : load_header _ _ = Ok _ |- _ => apply wfix_header in E
        | E : gen_set_key _ _ = Ok _ |- _ => apply wfix_key in E
        | E : gen_map_lookup _ _ _ = Ok _ |- _ => apply wfix_lookup in E
        | E : cmp_bitfield _ _ _ = Ok _ |- _ => unfold cmp_bitfield in E; wf1 E; apply Ok_inj in E; subst
        end;
      try (wfin H; rewrite ?wfix_range;
           repeat match goal with E : wfix ?a = true |- context [wfix ?a] => rewrite E end; reflexivity);
      assumption. }
  assert (Q : sa_matcher c m = Ok l -> wfix l = true).
  { clear H P. intros H. unfold sa_matcher in H.
    destruct (m_type m) eqn:Em; try discriminate H;
      unfold gen_meta, gen_probability, sa_load_cmp, sa_net, sa_port, sa_set in H;
      rewrite ?Em in H;
      wf1 H;
      repeat match goal with
        | E : cmp_value _ _ _ _ = Ok _ |- _ => apply wfix_cmp_value in E
        | E : cmp_masked _ _ _ _ _ = Ok _ |- _ => apply wfix_cmp_masked in E
        | E : sa_load _ _ = Ok _ |- _ => apply wfix_sload in E
        | E : sa_set_key _ _ = Ok _ |- _ => apply wfix_skey in E
        | E : gen_map_lookup _ _ _ = Ok _ |- _ => apply wfix_lookup in E
        end;
      try (wfin H; rewrite ?wfix_range;
           repeat match goal with E : wfix ?a = true |- context [wfix ?a] => rewrite E end; reflexivity);
      assumption. }
  unfold gen_matcher in H.
  destruct (hook_flavor (c_hook c)); try discriminate H; try (apply Q; exact H); destruct (m_type m) eqn:Et; try (apply P; exact H);
    wf1 H; repeat match goal with E : cmp_value _ _ _ _ = Ok _ |- _ => apply wfix_cmp_value in E end;
    wfin H; rewrite ?wfix_range;
    repeat match goal with E : wfix ?a = true |- context [wfix ?a] => rewrite E end; reflexivity.
Qed.

Lemma wfix_matchers c ms : forall l, gen_matchers c ms = Ok l -> wfix l = true.
Proof.
  induction ms as [|m ms IH]; intros l H; cbn [gen_matchers] in H; [wfin H|].
  wf1 H. apply wfix_matcher in E. specialize (IH _ eq_refl). wfin H. rewrite E, IH. reflexivity.
Qed.

Lemma wfix_protos ts : forall ck g ck', check_protos ts ck = Ok (g, ck') -> wfix g = true.
Proof.
  induction ts as [|t ts IH]; intros ck g ck' H; cbn [check_protos] in H.
  - apply Ok_inj in H. injection H as <- <-. reflexivity.
  - wf1 H. destruct a as [a cka], a0 as [b ckb]. cbn [fst snd] in *. apply Ok_inj in H. injection H as <- <-.
    apply IH in E0. rewrite wfix_app, E0. rewrite andb_true_r.
    unfold check_proto in E. wf1 E; apply Ok_inj in E; injection E as <- <-; auto;
      unfold check_protocol in *; wf1 E1; apply Ok_inj in E1; subst; reflexivity.
Qed.

Lemma wfix_rule c r l : gen_rule c r = Ok l -> wfix l = true.
Proof.
  unfold gen_rule. intros H. destruct (r_disabled r); [wfin H|]. wf1 H.
  apply Ok_inj in H; subst.
  destruct (gen_guards_flat c _ _ _ E) as [ck' G]. apply wfix_protos in G. apply wfix_matchers in E0.
  rewrite !wfix_app, G, E0. cbn [andb].
  assert (X1 : wfix a1 = true).
  { unfold gen_set_mark in E1. wf1 E1; apply Ok_inj in E1; subst; reflexivity. }
  assert (X2 : wfix (gen_rule_log (c_hook c) r) = true).
  { unfold gen_rule_log. destruct (r_log r =? 0); auto. pose proof (wfix_log (c_hook c) r) as WL.
    destruct (r_log_rate r =? 0); auto.
    rewrite wfix_app, wfix_jover, !wfix_app, wfix_jover, wfix_app, WL.
    destruct (r_index r =? 0); reflexivity. }
  assert (X3 : wfix (if r_counters r then gen_count (r_index r) else []) = true) by (destruct (r_counters r); reflexivity).
  assert (X4 : wfix a2 = true).
  { unfold gen_rule_verdict, gen_redirect in E2. wf1 E2; apply Ok_inj in E2; subst; reflexivity. }
  rewrite X1, X2, X4, andb_true_r. exact X3.
Qed.

(** ** All rules *)
(** Every rule fits in the 16-bit jump offsets (see finding F7). *)
Definition fits (c : chain) : Prop := forall r l, In r (c_rules c) -> gen_rule c r = Ok l -> small l.

Section P.
  Variables (e : env) (c : chain) (v : view) (k0 : stack).
  Hypothesis Hr : rdy e c v k0.
  Hypothesis Wc : wf_chain c.
  Hypothesis Fc : fits c.
  Hypothesis Qc : forall r m, In r (c_rules c) -> In m (r_matchers r) -> key_fits c m.

  Notation evalr := (eval_rules Generated prob_threshold (e_or e) (c_sets c)).

  Lemma run_rules prog post : forall rs codes pre s, (forall r, In r rs -> In r (c_rules c)) ->
    gen_rules c rs = Ok codes -> prog = pre ++ concat codes ++ post -> inv v k0 s ->
    match evalr v rs (wd s) with
    | (Some d, w') => exists k w3, finish (hook_flavor (c_hook c)) (e_or e) d w' = Some (k, w3) /\
        exists n, (n <= length (concat codes))%nat /\
        forall fuel, run e prog (n + fuel) (Z.of_nat (length pre)) s = Done k w3
    | (None, w') => exists s', inv v k0 s' /\ wd s' = w' /\
        exists n, (n <= length (concat codes))%nat /\
        forall fuel, run e prog (n + fuel) (Z.of_nat (length pre)) s =
                     run e prog fuel (Z.of_nat (length pre + length (concat codes))) s'
    end.
  Proof.
    induction rs as [|r rs IH]; intros codes pre s Hin H Hp Hi; cbn [gen_rules eval_rules] in *.
    - apply Ok_inj in H; subst codes. exists s. split; auto. split; auto. exists 0%nat. cbn [concat length].
      split; [lia|]. intros. rewrite Nat.add_0_r. reflexivity.
    - destruct (gen_rule c r) as [a|] eqn:Ea; [|discriminate]. cbn [bind] in H.
      destruct (gen_rules c rs) as [b|] eqn:Eb; [|discriminate]. cbn [bind] in H.
      apply Ok_inj in H; subst codes. cbn [concat] in *.
      assert (Ir : In r (c_rules c)) by (apply Hin; left; auto).
      assert (Hin' : forall r0, In r0 rs -> In r0 (c_rules c)) by (intros; apply Hin; right; auto).
      assert (Wr : wf_rule c r) by (pose proof (wc_rules _ Wc) as W; rewrite Forall_forall in W; auto).
      assert (Hp2 : prog = (pre ++ resolve a) ++ concat b ++ post) by (rewrite Hp, <- !app_assoc; reflexivity).
      assert (Hl : length (pre ++ resolve a) = (length pre + length a)%nat) by (rewrite app_length, resolve_length; reflexivity).
      assert (HL : length (resolve a ++ concat b) = (length a + length (concat b))%nat) by (rewrite app_length, resolve_length; reflexivity).
      (* continue with the remaining rules from state s1 *)
      assert (CONT : forall s1 n1, inv v k0 s1 -> (n1 <= length a)%nat ->
        (forall fuel, run e prog (n1 + fuel) (Z.of_nat (length pre)) s =
                      run e prog fuel (Z.of_nat (length pre + length a)) s1) ->
        match evalr v rs (wd s1) with
        | (Some d, w') => exists k w3, finish (hook_flavor (c_hook c)) (e_or e) d w' = Some (k, w3) /\
            exists n, (n <= length (resolve a ++ concat b))%nat /\
            forall fuel, run e prog (n + fuel) (Z.of_nat (length pre)) s = Done k w3
        | (None, w') => exists s', inv v k0 s' /\ wd s' = w' /\
            exists n, (n <= length (resolve a ++ concat b))%nat /\
            forall fuel, run e prog (n + fuel) (Z.of_nat (length pre)) s =
                         run e prog fuel (Z.of_nat (length pre + length (resolve a ++ concat b))) s'
        end).
      { intros s1 n1 I1 Hn1 R1. pose proof (IH b (pre ++ resolve a) s1 Hin' eq_refl Hp2 I1) as X.
        rewrite Hl in X. destruct (evalr v rs (wd s1)) as [[d|] w'].
        - destruct X as (k & w3 & Fi & n & Hn & Rn). exists k, w3. split; auto. exists (n1 + n)%nat.
          split; [rewrite HL; lia|]. intros fuel. rewrite <- Nat.add_assoc, R1. apply Rn.
        - destruct X as (s' & I' & W' & n & Hn & Rn). exists s'. split; auto. split; auto. exists (n1 + n)%nat.
          split; [rewrite HL; lia|]. intros fuel. rewrite <- Nat.add_assoc, R1, Rn. do 2 f_equal. rewrite HL. lia. }
      destruct (r_disabled r) eqn:Ed.
      { unfold gen_rule in Ea. rewrite Ed in Ea. apply Ok_inj in Ea; subst a.
        apply (CONT s 0%nat); auto. intros fuel. cbn [Nat.add length]. rewrite Nat.add_0_r. reflexivity. }
      pose proof (run_rule e c v k0 Hr Wc r a s Wr (fun m => Qc r m Ir) Ed Ea Hi) as RS.
      unfold rule_spec in RS.
      pose proof (wfix_well _ (wfix_rule _ _ _ Ea)) as WF. pose proof (Fc r a Ir Ea) as SM.
      assert (FR : frun e a 0 s <> FErr -> exists n, (n <= length a)%nat /\ forall fuel,
        run e prog (n + fuel) (Z.of_nat (length pre)) s =
        after e prog fuel (Z.of_nat (length pre + length a)) (frun e a 0 s)).
      { intros NE. destruct (run_frag e a pre (concat b ++ post) s WF SM NE) as (n & Hn & Rn).
        exists n. split; auto. intros fuel. rewrite Hp, <- app_assoc. apply Rn. }
      destruct (rule_matches Generated prob_threshold (e_or e) (c_sets c) v r (wd s)) as [bm w1].
      destruct bm.
      + destruct (decision_of r) as [d|] eqn:Ede.
        * destruct RS as (k & w3 & s' & Fi & Fr & W3). exists k, w3. split; auto.
          destruct FR as (n & Hn & Rn); [rewrite Fr; discriminate|]. exists n. split; [rewrite HL; lia|].
          intros fuel. rewrite Rn, Fr. cbn [after]. rewrite W3. reflexivity.
        * destruct RS as (s' & Fr & I' & W'). destruct FR as (n & Hn & Rn); [rewrite Fr; discriminate|].
          rewrite <- W'. apply (CONT s' n); auto. intros fuel. rewrite Rn, Fr. reflexivity.
      + destruct RS as (s' & Fr & I' & W'). destruct FR as (n & Hn & Rn); [rewrite Fr; discriminate|].
        rewrite <- W'. apply (CONT s' n); auto. intros fuel. rewrite Rn, Fr. reflexivity.
  Qed.

  (** The policy. *)
  Lemma run_tail t s : gen_tail c = Ok t -> inv v k0 s ->
    exists k s', kernel_code (hook_flavor (c_hook c)) (c_policy c) = Some k /\
      frun e t 0 s = FHalt k s' /\ wd s' = w_count (wd s) (n_rules c) (v_len v).
  Proof.
    intros H Hi. unfold gen_tail in H.
    destruct (get_verdict (hook_flavor (c_hook c)) (c_policy c)) as [k|] eqn:Eg; [|discriminate]. cbn [bind] in H.
    apply Ok_inj in H; subst t.
    pose proof (wc_nrules _ Wc) as Bn.
    destruct (does_count e c v k0 Hr (n_rules c) s Hi ltac:(lia) ltac:(unfold two32; lia)) as (s1 & K1 & I1 & W1).
    exists (imm64 k), (setr s1 R0 (VN (imm64 k))). split; [apply verdict_code_ok; exact Eg|].
    rewrite K1. split; [reflexivity|]. cbn [wd setr]. exact W1.
  Qed.

  Lemma wfix_tail t : gen_tail c = Ok t -> wfix t = true.
  Proof. unfold gen_tail. intros H. wf1 H. apply Ok_inj in H; subst. reflexivity. Qed.

  (** Rules and policy together. *)
  Lemma run_body prog pre codes t s : gen_rules c (c_rules c) = Ok codes -> gen_tail c = Ok t ->
    prog = pre ++ concat codes ++ resolve t -> inv v k0 s ->
    exists k w3,
      (let '(d, w') := eval_chain Generated prob_threshold (e_or e) (c_sets c) v (c_policy c) (c_rules c) (wd s) in
       finish (hook_flavor (c_hook c)) (e_or e) d w' = Some (k, w3)) /\
      exists n, (n <= length (concat codes) + length t)%nat /\
      forall fuel, run e prog (n + fuel) (Z.of_nat (length pre)) s = Done k w3.
  Proof.
    intros Hc Ht Hp Hi.
    pose proof (run_rules prog (resolve t) (c_rules c) codes pre s (fun r H => H) Hc Hp Hi) as R.
    unfold eval_chain. destruct (evalr v (c_rules c) (wd s)) as [[d|] w'].
    - destruct R as (k & w3 & Fi & n & Hn & Rn). exists k, w3. split; auto. exists n. split; auto. lia.
    - destruct R as (s' & I' & W' & n & Hn & Rn).
      destruct (run_tail t s' Ht I') as (k & s2 & Kc & Fr & W2).
      exists k, (wd s2). split.
      { cbn [finish]. rewrite Kc. rewrite W2, W'. reflexivity. }
      pose proof (wfix_well _ (wfix_tail t Ht)) as WF.
      assert (SM : small t).
      { unfold gen_tail in Ht. destruct (get_verdict _ _); [|discriminate]. cbn [bind] in Ht.
        apply Ok_inj in Ht; subst t. unfold small. reflexivity. }
      destruct (run_frag e t (pre ++ concat codes) [] s' WF SM) as (n2 & Hn2 & Rn2); [rewrite Fr; discriminate|].
      exists (n + n2)%nat. split; [lia|]. intros fuel. rewrite <- Nat.add_assoc, Rn.
      assert (E : (pre ++ concat codes) ++ resolve t ++ [] = prog) by (rewrite app_nil_r, <- app_assoc, Hp; reflexivity).
      rewrite E in Rn2. rewrite app_length in Rn2. rewrite Rn2, Fr. reflexivity.
  Qed.
End P.
