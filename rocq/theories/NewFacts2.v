(** Chains that were accepted: disabled rules, well-formedness, generation. *)
From Coq Require Import NArith ZArith List Bool Lia.
From Verif Require Import Bytes Types World BpfModel GenModel PktSpec ViewSpec Wf BytesFacts ViewModel ProgThm EvalSpec EvalFacts Deploy DeployFacts ChainSpec
  MapFacts ChainModel NewSpec NewFacts.
Import ListNotations.
Local Open Scope N_scope.
Local Open Scope res_scope.

Section Never.
  Variable D : dialect.
  Variable thr : list N -> option N.
  Variable or : oracle.
  Variable sets : list bset.
  Variable v : view.

  Lemma in_set_empty s : s_elems s = [] -> in_set v s = false.
  Proof. unfold in_set. intros ->. destruct (s_trie s); reflexivity. Qed.

  Lemma match_all_false m : (forall w, fst (match1 D thr or sets v m w) = false) -> forall ms w, In m ms ->
    fst (match_all D thr or sets v ms w) = false.
  Proof.
    intros F ms. induction ms as [|x ms IH]; intros w H; [destruct H|]. destruct H as [->|H]; cbn [match_all].
    - destruct (applies _ _ _); [|reflexivity]. specialize (F w). destruct (match1 D thr or sets v m w) as [b w']. cbn [fst] in F. subst b. reflexivity.
    - destruct (applies _ _ _); [|reflexivity]. destruct (match1 D thr or sets v x w) as [[] w']; [|reflexivity]. apply IH. exact H.
  Qed.

  Lemma present_layer t : mt_layer (meta_of t) <> L_NONE -> present v t = true ->
    match mt_layer (meta_of t) with L_3 => v_l3 v = mt_hdr (meta_of t) | L_4 => v_l4 v = mt_hdr (meta_of t) | L_NONE => True end.
  Proof.
    intros N P. destruct t; cbn in N; try congruence; cbn in P |- *;
      unfold has_ip4, has_ip6, has_tcp, has_udp, has_icmp, has_icmp6 in P; apply N.eqb_eq in P; exact P.
  Qed.

  Lemma layer_not_late t : mt_layer (meta_of t) <> L_NONE -> late t = false.
  Proof. destruct t; cbn; congruence. Qed.

  Lemma unmatchable r : uses_empty_set sets r \/ mixes_protocols sets r -> ~ negates_empty_set sets r -> forall w,
    fst (rule_matches D thr or sets v r w) = false.
  Proof.
    intros [U|M] N w; unfold rule_matches.
    - destruct (guards _ _ _); [|reflexivity]. destruct U as (m & s & Hm & Em & Es & El).
      apply match_all_false with m; auto. intros w'. unfold match1. rewrite Em. cbn [fst]. unfold cond. rewrite Em, Es, in_set_empty by exact El.
      destruct (m_neg m) eqn:Ng.
      + exfalso. apply N. exists m, s. auto.
      + destruct (m_op m); reflexivity.
    - destruct (guards sets v (r_matchers r)) eqn:G; [|reflexivity]. exfalso.
      destruct M as (t & t' & (m & Hm & Ht) & (m' & Hm' & Ht') & L & NL & NE).
      unfold guards in G. rewrite forallb_forall in G.
      pose proof (G m Hm) as A. pose proof (G m' Hm') as B. rewrite forallb_forall in A, B.
      specialize (A t Ht). specialize (B t' Ht').
      rewrite layer_not_late in A by exact NL. rewrite layer_not_late in B by congruence. cbn [orb] in A, B.
      pose proof (present_layer t NL A) as PA. assert (NL' : mt_layer (meta_of t') <> L_NONE) by congruence.
      pose proof (present_layer t' NL' B) as PB. rewrite <- L in PB. destruct (mt_layer (meta_of t)); congruence.
  Qed.
End Never.

Lemma enable_steady r : steady r -> steady (enable r).
Proof. intros H; exact H. Qed.

Lemma enable_matches D thr or sets v r w : rule_matches D thr or sets v (enable r) w = rule_matches D thr or sets v r w.
Proof. reflexivity. Qed.

Lemma eval_enabled D thr or sets v rs : Forall wf_set sets ->
  (forall r, In r rs -> steady r) ->
  (forall r, In r rs -> r_disabled r = true -> forall w, fst (rule_matches D thr or sets v r w) = false) -> forall w,
  eval_rules D thr or sets v (map enable rs) w = eval_rules D thr or sets v rs w.
Proof.
  intros W. induction rs as [|r rs IH]; intros S N w; [reflexivity|]. cbn [map eval_rules].
  assert (IH' := IH (fun q Hq => S q (or_intror Hq)) (fun q Hq => N q (or_intror Hq))). clear IH.
  change (r_disabled (enable r)) with false. cbv iota. rewrite enable_matches.
  destruct (r_disabled r) eqn:Dr.
  - pose proof (N r (or_introl eq_refl) Dr w) as F. rewrite (steady_rule D thr or sets v W r w (S r (or_introl eq_refl))) in F |- *.
    cbn [fst] in F. rewrite F. apply IH'.
  - destruct (rule_matches D thr or sets v r w) as [[] w1]; [|apply IH'].
    change (decision_of (enable r)) with (decision_of r). change (effects or v (enable r) w1) with (effects or v r w1).
    destruct (decision_of r); [reflexivity|apply IH'].
Qed.

Lemma in_rules_new hk pk sets rs c r' : chain_new hk pk sets rs = Ok c -> In r' (c_rules c) ->
  exists r, In r rs /\ same_options r r' /\ (r_disabled r' = true <-> uses_empty_set sets r \/ mixes_protocols sets r) /\ rule_ok (c_hook c) sets r /\
    r_index r' < n_rules c.
Proof.
  intros H I. pose proof (chain_new_result _ _ _ _ _ H) as (A & _ & _ & L & K). apply In_nth_error in I as (k & Hk).
  pose proof (chain_new_inv _ _ _ _ _ H) as (_ & _ & _ & _ & CR). apply check_rules_ok in CR as (F & _).
  assert (Lk : (k < length rs)%nat) by (rewrite <- L; apply nth_error_Some; congruence).
  destruct (nth_error rs k) as [r|] eqn:Er; [|apply nth_error_None in Er; lia].
  destruct (K k r Er) as (r'' & E & S & Ix & Di). rewrite Hk in E. injection E as <-.
  exists r. split; [eapply nth_error_In; eauto|]. split; [exact S|]. split; [exact Di|]. split.
  - rewrite Forall_forall in F. apply F. eapply nth_error_In; eauto.
  - unfold n_rules. rewrite L, Ix. lia.
Qed.

Lemma uses_same sets r r' : same_options r r' -> uses_empty_set sets r -> uses_empty_set sets r'.
Proof. intros S. unfold uses_empty_set. rewrite (so_matchers _ _ S). auto. Qed.
Lemma mixes_same sets r r' : same_options r r' -> mixes_protocols sets r -> mixes_protocols sets r'.
Proof. intros S. unfold mixes_protocols, talks_about. rewrite (so_matchers _ _ S). auto. Qed.

Lemma disabled_never hk pk sets rs c r' : chain_new hk pk sets rs = Ok c -> In r' (c_rules c) -> r_disabled r' = true -> ~ negates_empty_set sets r' ->
  forall D thr or v w, fst (rule_matches D thr or sets v (enable r') w) = false.
Proof.
  intros H I Dr N D thr or v w. rewrite enable_matches. destruct (in_rules_new _ _ _ _ _ _ H I) as (r & _ & S & Di & _).
  apply unmatchable; [|exact N]. apply Di in Dr. destruct Dr as [U|M]; [left; eapply uses_same; eauto|right; eapply mixes_same; eauto].
Qed.

Lemma same_result hk pk sets rs c prog e v : chain_new hk pk sets rs = Ok c -> deployed c prog e ->
  (forall r, In r (c_rules c) -> steady r) -> (forall r, In r (c_rules c) -> ~ negates_empty_set sets r) -> view_of e c = Some v ->
  forall w, exists k w3, exec e prog w = Done k w3 /\
    let '(d, w') := eval_chain Generated prob_threshold (e_or e) (c_sets c) v (c_policy c) (map enable (c_rules c)) w in
    finish (hook_flavor (c_hook c)) (e_or e) d w' = Some (k, w3).
Proof.
  intros H Dp S N V w. destruct (deployed_run c prog e Dp w) as (k & w3 & R & X). exists k, w3. split; [exact R|]. rewrite V in X.
  pose proof (chain_new_result _ _ _ _ _ H) as (_ & _ & Es & _). 
  unfold eval_chain. rewrite (eval_enabled _ _ _ _ _ _ (wc_sets _ (dp_chain _ _ _ Dp)) S).
  - rewrite map_length. exact X.
  - intros r I Dr w'. rewrite Es. exact (disabled_never _ _ _ _ _ _ H I Dr (N r I) Generated prob_threshold (e_or e) v w').
Qed.

(** ** Accepted chains are well formed *)
Record rule_range (r : rule) : Prop := mkRange {
  rr_matchers : Forall wf_matcher (r_matchers r);
  rr_log : r_log r < 256;
  rr_rate : r_log_rate r < two64;
  rr_mark : r_mark r < two64;
  rr_if : r_rd_ifindex r < two32
}.

Lemma existsb_in {A} (f : A -> bool) l x : In x l -> f x = true -> existsb f l = true.
Proof. intros H E. apply existsb_exists. eauto. Qed.

Lemma rule_types h sets r m t : rule_ok h sets r -> In m (r_matchers r) -> In t (types_of sets m) -> unsupported t h = false.
Proof.
  intros Ro Hm Ht. pose proof (ro_types _ _ _ Ro m Hm) as U. unfold types_of in Ht.
  destruct (mtype_eq_dec (m_type m) M_SET) as [Em|Em].
  - rewrite Em in Ht. destruct (set_of sets m) as [s|] eqn:Ess; [|destruct Ht]. eapply (ro_comps _ _ _ Ro); eauto.
  - assert (Ht' : In t [m_type m]) by (destruct (m_type m); auto; congruence). destruct Ht' as [<-|[]]. exact U.
Qed.

Lemma accepted_wf hk pk sets rs c : chain_new hk pk sets rs = Ok c ->
  Forall wf_set sets -> (Z.of_nat (length sets) < 262144)%Z -> N.of_nat (length rs) < 268435456 -> Forall rule_range rs -> wf_chain c.
Proof.
  intros H Ws Ls Lr Rr. pose proof (chain_new_result _ _ _ _ _ H) as (_ & _ & Es & Lc & _).
  pose proof (chain_new_inv _ _ _ _ _ H) as (_ & _ & _ & _ & CR). apply check_rules_ok in CR as (_ & _ & _ & F1 & F2 & F3).
  cbn [f_log f_rate f_nexthdr orb] in F1, F2, F3.
  constructor.
  - rewrite Es. exact Ws.
  - rewrite Es. exact Ls.
  - unfold n_rules. rewrite Lc. exact Lr.
  - apply Forall_forall. intros r' I. destruct (in_rules_new _ _ _ _ _ _ H I) as (r & Ir & S & Di & Ro & Ix).
    rewrite Forall_forall in Rr. destruct (Rr r Ir) as [A1 A2 A3 A4 A5]. destruct S as [S1 S2 S3 S4 S5 S6 S7 S8].
    constructor; rewrite ?S1, ?S2, ?S3, ?S4, ?S7; auto.
    + intros Dr. rewrite Es. intros t t' Ht Ht' L NL. destruct (N.eq_dec (mt_hdr (meta_of t)) (mt_hdr (meta_of t'))) as [E|E]; auto. exfalso.
      assert (M : mixes_protocols sets r).
      { apply in_flat_map in Ht as (m & Hm & Ht), Ht' as (m' & Hm' & Ht'). exists t, t'. split; [exists m; auto|]. split; [exists m'; auto|]. auto. }
      rewrite (proj2 Di (or_intror M)) in Dr. discriminate.
    + intros Dr Lg. rewrite F1. apply existsb_in with r'; auto. rewrite Dr, S2. apply N.eqb_neq in Lg. rewrite Lg. reflexivity.
    + intros Dr Lg Lrt. rewrite F2. apply existsb_in with r'; auto. rewrite Dr, S2, S3. apply N.eqb_neq in Lg, Lrt. rewrite Lg, Lrt. reflexivity.
    + intros Dr m Hm Em. rewrite F3. apply existsb_in with r'; auto. rewrite Dr. cbn [negb andb]. apply existsb_in with m; [rewrite S1; exact Hm|]. rewrite Em. reflexivity.
    + intros _ _ m t Hm Ht. rewrite Es in Ht. eapply rule_types; eauto.
Qed.

(** ** Code is generated for every accepted chain of a packet hook *)
Definition has_threshold (m : matcher) : Prop :=
  m_type m = M_PROBABILITY \/ m_type m = M_FLOW_PROBABILITY -> prob_threshold (m_pay m) <> None.

Definition can_redirect (h : hook) (r : rule) : Prop :=
  r_verdict r = V_REDIRECT -> hook_flavor h = F_TC \/ hook_flavor h = F_XDP /\ r_rd_dir r = D_EGRESS.

Definition isok {A} (x : res A) : Prop := exists a, x = Ok a.
Lemma isok_bind {A B} (x : res A) (k : A -> res B) : isok x -> (forall a, isok (k a)) -> isok (bind x k).
Proof. intros (a & ->) H. cbn [bind]. apply H. Qed.
Lemma isok_ok {A} (a : A) : isok (Ok a).
Proof. exists a. reflexivity. Qed.

Lemma jmp_isok m : m_op m <> OP_RANGE -> isok (cmp_jmp_ins m).
Proof. unfold cmp_jmp_ins. destruct (m_op m); intros H; try apply isok_ok. congruence. Qed.

Lemma value_isok m ref n r : m_op m = OP_EQ -> In n [1;2;4;8;16]%nat -> isok (cmp_value m ref n r).
Proof.
  intros E H. unfold cmp_value, cmp_jmp_ins. rewrite E. cbn [bind]. destruct H as [<-|[<-|[<-|[<-|[<-|[]]]]]]; apply isok_ok.
Qed.

Lemma load_isok t r : mt_layer (meta_of t) <> L_NONE -> isok (pkt_load (meta_of t) r).
Proof. intros H. destruct t; cbn in H; try congruence; unfold pkt_load; cbn; apply isok_ok. Qed.

Lemma check_proto_isok t ck : isok (check_proto t ck).
Proof. unfold check_proto. destruct (checked_get _ _); [apply isok_ok|]. destruct t; cbn; apply isok_ok. Qed.

Lemma check_protos_isok ts : forall ck, isok (check_protos ts ck).
Proof.
  induction ts as [|t ts IH]; intros ck; cbn [check_protos]; [apply isok_ok|].
  apply isok_bind; [apply check_proto_isok|]. intros a. apply isok_bind; [apply IH|]. intros. apply isok_ok.
Qed.

Lemma set_key_isok key : (forall t, In t key -> mt_layer (meta_of t) <> L_NONE) -> forall o, isok (gen_set_key key o).
Proof.
  induction key as [|t key IH]; intros H o; cbn [gen_set_key]; [apply isok_ok|].
  apply isok_bind.
  - pose proof (H t (or_introl eq_refl)) as L. unfold load_header. destruct (mt_layer (meta_of t)); try congruence; apply isok_ok.
  - intros a. apply isok_bind; [apply IH; intros; apply H; right; auto|]. intros. apply isok_ok.
Qed.

Lemma in_layer t : ops_size t OP_IN <> None -> mt_layer (meta_of t) <> L_NONE.
Proof. destruct t; cbn; congruence. Qed.

Section Gen.
  Variable c : chain.
  Hypothesis Ws : Forall wf_set (c_sets c).

  Lemma set_isok m : m_type m = M_SET -> m_op m = OP_IN -> (exists s, set_of (c_sets c) m = Some s /\ s_elems s <> []) -> isok (gen_set c m).
  Proof.
    intros Em Eo (s & Es & El). unfold gen_set. rewrite Es.
    assert (W : wf_set s) by (rewrite Forall_forall in Ws; apply Ws; eapply nth_error_In; exact Es).
    assert (LK : forall o, isok (gen_map_lookup c m o)).
    { intros o. unfold gen_map_lookup. rewrite Es.
      destruct (map_bits (c_sets c) (N.to_nat (set_id m)) s Ws Es El) as (g & b & grp & els & F & _). rewrite F.
      apply isok_bind; [apply jmp_isok; congruence|]. intros. apply isok_ok. }
    assert (KL : forall t, In t (s_key s) -> mt_layer (meta_of t) <> L_NONE) by (intros t Ht; apply in_layer; apply (ws_in _ W t Ht)).
    destruct (s_trie s).
    - pose proof (ws_key _ W) as NK. destruct (s_key s) as [|t key]; [congruence|]. cbv zeta. apply isok_bind.
      + pose proof (KL t (or_introl eq_refl)) as L. unfold load_header. destruct (mt_layer (meta_of t)); try congruence; apply isok_ok.
      + intros a. apply isok_bind; [apply LK|]. intros. apply isok_ok.
    - apply isok_bind; [apply set_key_isok; exact KL|]. intros a. apply isok_bind; [apply LK|]. intros. apply isok_ok.
  Qed.

  (** Socket hooks. *)
  Lemma sa_offset_isok t h : hook_flavor h = F_SOCK_ADDR -> unsupported t h = false -> ops_size t OP_IN <> None ->
    isok (sa_offset t).
  Proof. intros F U I. destruct h; try discriminate F; destruct t; try discriminate U; cbn in *; try congruence; apply isok_ok. Qed.

  Lemma sa_key_isok key : (forall t, In t key -> isok (sa_offset t)) -> forall o, isok (sa_set_key key o).
  Proof.
    induction key as [|t key IH]; intros H o; cbn [sa_set_key]; [apply isok_ok|].
    apply isok_bind; [apply H; left; auto|]. intros a. apply isok_bind; [apply IH; intros; apply H; right; auto|]. intros. apply isok_ok.
  Qed.

  Lemma sa_set_isok m : hook_flavor (c_hook c) = F_SOCK_ADDR -> m_type m = M_SET -> m_op m = OP_IN ->
    (exists s, set_of (c_sets c) m = Some s /\ s_elems s <> []) ->
    (forall t, In t (types_of (c_sets c) m) -> unsupported t (c_hook c) = false) -> isok (sa_set c m).
  Proof.
    intros F Em Eo (s & Es & El) U. unfold sa_set. unfold types_of in U. rewrite Em in U. rewrite Es in U |- *.
    assert (W : wf_set s) by (rewrite Forall_forall in Ws; apply Ws; eapply nth_error_In; exact Es).
    assert (LK : forall o, isok (gen_map_lookup c m o)).
    { intros o. unfold gen_map_lookup. rewrite Es.
      destruct (map_bits (c_sets c) (N.to_nat (set_id m)) s Ws Es El) as (g & b & grp & els & F' & _). rewrite F'.
      apply isok_bind; [apply jmp_isok; congruence|]. intros. apply isok_ok. }
    assert (KO : forall t, In t (s_key s) -> isok (sa_offset t)).
    { intros t Ht. eapply sa_offset_isok; [exact F|apply U; exact Ht|apply (ws_in _ W t Ht)]. }
    destruct (s_trie s).
    - pose proof (ws_key _ W) as NK. destruct (s_key s) as [|t key]; [congruence|]. cbv zeta. apply isok_bind; [apply KO; left; auto|].
      intros a. apply isok_bind; [apply LK|]. intros. apply isok_ok.
    - apply isok_bind; [apply sa_key_isok; exact KO|]. intros a. apply isok_bind; [apply LK|]. intros. apply isok_ok.
  Qed.

  Lemma sa_isok m : hook_flavor (c_hook c) = F_SOCK_ADDR -> wf_matcher m -> has_threshold m ->
    (forall t, In t (types_of (c_sets c) m) -> unsupported t (c_hook c) = false) ->
    (m_type m = M_SET -> exists s, set_of (c_sets c) m = Some s /\ s_elems s <> []) -> isok (sa_matcher c m).
  Proof.
    intros F W T U S. pose proof (wm_op _ W) as O.
    destruct (mtype_eq_dec (m_type m) M_SET) as [Em|Em].
    { unfold sa_matcher. rewrite Em in O |- *. apply sa_set_isok; auto. apply O. }
    assert (U' : unsupported (m_type m) (c_hook c) = false).
    { apply U. unfold types_of. destruct (m_type m); try (left; reflexivity). congruence. }
    clear U S. unfold sa_matcher, gen_meta, gen_probability, sa_load_cmp, sa_net, sa_port. unfold has_threshold in T.
    destruct (c_hook c); try discriminate F;
    destruct (m_type m) eqn:Et; try discriminate U'; try congruence; destruct (m_op m) eqn:Eo; cbn in O; destruct O as [O1 O2]; try congruence;
      repeat (first
          [ apply isok_ok
          | apply value_isok; [exact Eo|cbn; tauto]
          | apply jmp_isok; congruence
          | apply isok_bind; [|intros]
          | unfold cmp_masked; rewrite Eo
          | match goal with |- isok (match prob_threshold ?p with _ => _ end) => destruct (prob_threshold p); [|exfalso; apply T; auto; fail] end
          | match goal with |- isok (if ?b then _ else _) => destruct b end ]).
  Qed.

  Lemma matcher_isok m : wf_matcher m -> has_threshold m ->
    (forall t, In t (types_of (c_sets c) m) -> unsupported t (c_hook c) = false) -> unsupported (m_type m) (c_hook c) = false ->
    (m_type m = M_SET -> exists s, set_of (c_sets c) m = Some s /\ s_elems s <> []) -> isok (gen_matcher c m).
  Proof.
    intros W T UT U S. assert (FD : {hook_flavor (c_hook c) = F_SOCK_ADDR} + {hook_flavor (c_hook c) <> F_SOCK_ADDR}) by (destruct (hook_flavor (c_hook c)); ((left; reflexivity) || (right; discriminate))).
    destruct FD as [SA|NS].
    { unfold gen_matcher. rewrite SA. apply sa_isok; auto. }
    pose proof (wm_op _ W) as O.
    assert (Q : m_type m <> M_MARK -> m_type m <> M_FLOW_HASH -> isok (gen_packet_matcher c m)).
    { intros N1 N2. unfold gen_packet_matcher, gen_meta, gen_load_cmp, gen_net, gen_port, gen_tcp_flags, gen_iface, gen_probability, gen_meta_port,
        gen_flow_probability, gen_ip4_dscp, gen_ip6_dscp, gen_nexthdr. unfold has_threshold in T.
      destruct (m_type m) eqn:Em; try congruence; destruct (m_op m) eqn:Eo; cbn in O; destruct O as [O1 O2]; try congruence;
        try (apply set_isok; auto; fail);
        repeat (first
          [ apply isok_ok
          | apply value_isok; [exact Eo|cbn; tauto]
          | apply load_isok; discriminate
          | apply jmp_isok; congruence
          | apply isok_bind; [|intros]
          | apply isok_ok; fail
          | unfold cmp_masked; rewrite Eo; cbn [mt_size meta_of]
          | unfold cmp_bitfield; rewrite Eo
          | match goal with |- isok (match prob_threshold ?p with _ => _ end) => destruct (prob_threshold p); [|exfalso; apply T; auto; fail] end
          | match goal with |- isok (if ?b then _ else _) => destruct b end
          | match goal with |- isok (load_header _ _) => cbn; apply isok_ok end]). }
    unfold gen_matcher. destruct (mtype_eq_dec (m_type m) M_MARK) as [Em|Em]; [|destruct (mtype_eq_dec (m_type m) M_FLOW_HASH) as [Ef|Ef]].
    - rewrite Em in O |- *. rewrite Em in U. assert (Eo : m_op m = OP_EQ) by (destruct (m_op m), O as [O1 O2]; cbn in O2; congruence).
      destruct (hook_flavor (c_hook c)) eqn:F; try congruence; try (apply isok_bind; [apply value_isok; [exact Eo|cbn; tauto]|intros; apply isok_ok]).
      destruct (c_hook c); cbn in F, U; congruence.
    - rewrite Ef in O |- *. rewrite Ef in U. 
      destruct (hook_flavor (c_hook c)) eqn:F; try (destruct (c_hook c); cbn in F, U; congruence).
      cbv zeta. destruct (m_op m) eqn:Eo; destruct O as [O1 O2]; cbn in O2; try congruence; [|apply isok_ok].
      apply isok_bind; [apply value_isok; [exact Eo|cbn; tauto]|intros; apply isok_ok].
    - specialize (Q Em Ef). destruct (hook_flavor (c_hook c)) eqn:F; try congruence; destruct (m_type m); try congruence; exact Q.
  Qed.

  Lemma guards_isok ms : (forall m, In m ms -> m_type m = M_SET -> exists s, set_of (c_sets c) m = Some s /\ s_elems s <> []) -> forall ck, isok (gen_guards c ms ck).
  Proof.
    induction ms as [|m ms IH]; intros S ck; cbn [gen_guards]; [apply isok_ok|]. apply isok_bind.
    - unfold matcher_types. destruct (mtype_eq_dec (m_type m) M_SET) as [E|E].
      + rewrite E. destruct (S m (or_introl eq_refl) E) as (s & -> & _). apply isok_ok.
      + destruct (m_type m); try congruence; apply isok_ok.
    - intros ts. apply isok_bind; [apply check_protos_isok|]. intros a. apply isok_bind; [apply IH; intros; apply S; auto; right; auto|]. intros. apply isok_ok.
  Qed.

  Lemma matchers_isok ms : (forall m, In m ms -> isok (gen_matcher c m)) -> isok (gen_matchers c ms).
  Proof.
    induction ms as [|m ms IH]; intros H; cbn [gen_matchers]; [apply isok_ok|]. apply isok_bind; [apply H; left; auto|].
    intros. apply isok_bind; [apply IH; intros; apply H; right; auto|]. intros. apply isok_ok.
  Qed.
End Gen.

Lemma accepted_generates hk pk sets rs c : chain_new hk pk sets rs = Ok c ->
  Forall wf_set sets -> Forall rule_range rs ->
  (forall r m, In r rs -> In m (r_matchers r) -> has_threshold m) -> (forall r, In r rs -> can_redirect (c_hook c) r) ->
  exists prog, gen_program c = Ok prog.
Proof.
  intros H Ws Rr T CR. pose proof (chain_new_result _ _ _ _ _ H) as (_ & _ & Es & _ & _).
  pose proof (chain_new_inv _ _ _ _ _ H) as (_ & _ & VP & _).
  change (isok (gen_program c)). unfold gen_program. apply isok_bind; [|intros hd; apply isok_bind; [|intros bd; apply isok_bind; [|intros; apply isok_ok]]].
  - unfold gen_head. apply isok_bind; [|intros; apply isok_ok]. unfold gen_prologue.
    apply isok_bind; [destruct (hook_flavor (c_hook c)); try congruence; apply isok_ok|]. intros k.
    destruct (hook_flavor (c_hook c)); try congruence; apply isok_ok.
  - assert (X : forall l, (forall r, In r l -> In r (c_rules c)) -> isok (gen_rules c l)).
    { induction l as [|r' l IH]; intros HI; cbn [gen_rules]; [apply isok_ok|].
      apply isok_bind; [|intros; apply isok_bind; [apply IH; intros; apply HI; right; auto|intros; apply isok_ok]]. 
      destruct (in_rules_new _ _ _ _ _ _ H (HI r' (or_introl eq_refl))) as (r & Ir & S & Di & Ro & _).
      unfold gen_rule. destruct (r_disabled r') eqn:Dr; [apply isok_ok|]. cbv zeta.
      assert (SE : forall m, In m (r_matchers r') -> m_type m = M_SET -> exists s, set_of (c_sets c) m = Some s /\ s_elems s <> []).
      { rewrite Es, (so_matchers _ _ S). intros m Hm Em. destruct (ro_refs _ _ _ Ro m Hm Em) as (s & Hs). exists s. split; auto. intros E0.
        discriminate (proj2 Di (or_introl (ex_intro _ m (ex_intro _ s (conj Hm (conj Em (conj Hs E0))))))). }
      rewrite Forall_forall in Rr. pose proof (Rr r Ir) as RR.
      apply isok_bind; [apply guards_isok; exact SE|]. intros g. apply isok_bind.
      { apply matchers_isok. intros m Hm. pose proof Hm as Hm'. rewrite (so_matchers _ _ S) in Hm'. apply matcher_isok; auto.
        - rewrite Es. exact Ws.
        - pose proof (rr_matchers _ RR) as FM. rewrite Forall_forall in FM. auto.
        - eapply T; eauto.
        - intros t Ht. rewrite Es in Ht. eapply rule_types; eauto.
        - apply (ro_types _ _ _ Ro). exact Hm'. }
      intros ms. apply isok_bind.
      { destruct (mark_is_set r') eqn:M; [|apply isok_ok]. apply mark_set_iff in M. rewrite (so_mark _ _ S) in M. unfold gen_set_mark.
        destruct (ro_mark _ _ _ Ro M) as [-> | ->]; apply isok_ok. }
      intros mk. apply isok_bind; [|intros; apply isok_ok]. unfold gen_rule_verdict.
      pose proof (CR r Ir) as C1. unfold can_redirect in C1. rewrite <- (so_verdict _ _ S), <- (so_dir _ _ S) in C1.
      destruct (r_verdict r') eqn:V; try apply isok_ok;
        try (apply isok_bind; [destruct (hook_flavor (c_hook c)); try congruence; apply isok_ok|intros; apply isok_ok]).
      unfold gen_redirect. destruct (C1 eq_refl) as [-> | [-> ->]]; apply isok_ok. }
    apply X. auto.
  - unfold gen_tail. apply isok_bind; [|intros; apply isok_ok]. destruct (c_policy c); cbn in VP; try discriminate;
      destruct (hook_flavor (c_hook c)); try congruence; apply isok_ok.
Qed.

Lemma accepted_deploys hk pk sets rs c e : chain_new hk pk sets rs = Ok c ->
  Forall wf_set sets -> (Z.of_nat (length sets) < 262144)%Z -> N.of_nat (length rs) < 268435456 -> Forall rule_range rs ->
  (forall r m, In r rs -> In m (r_matchers r) -> has_threshold m) -> (forall r, In r rs -> can_redirect (c_hook c) r) ->
  (forall r, In r rs -> (length (r_matchers r) <= 100)%nat) ->
  (forall r m, In r rs -> In m (r_matchers r) -> key_fits c m) -> wf_env c e ->
  exists prog, deployed c prog e.
Proof.
  intros H Ws Ls Lr Rr T CR L100 KF We. destruct (accepted_generates _ _ _ _ _ H Ws Rr T CR) as (prog & G). exists prog. constructor; auto.
  - eapply accepted_wf; eauto.
  - intros r' I. destruct (in_rules_new _ _ _ _ _ _ H I) as (r & Ir & S & _). rewrite (so_matchers _ _ S). auto.
  - intros r' m I. destruct (in_rules_new _ _ _ _ _ _ H I) as (r & Ir & S & _). rewrite (so_matchers _ _ S). eauto.
Qed.

Lemma add_rule_result c r :
  ((exists c', chain_add_rule c r = Ok c') <-> rule_ok (c_hook c) (c_sets c) r) /\
  (forall c', chain_add_rule c r = Ok c' ->
    c_hook c' = c_hook c /\ c_policy c' = c_policy c /\ c_sets c' = c_sets c /\
    exists r', c_rules c' = c_rules c ++ [r'] /\ same_options r r' /\ r_index r' = N.of_nat (length (c_rules c)) /\
      (r_disabled r' = true <-> uses_empty_set (c_sets c) r \/ mixes_protocols (c_sets c) r)).
Proof.
  unfold chain_add_rule. set (fl := mkF _ _ _). split; [split|].
  - intros (c' & H). binv H. destruct a as [r' fl']. apply check_rule_ok in E as (A & _). eapply rule_ok_index; eauto.
  - intros H. apply (rule_ok_index _ _ r (n_rules c)) in H. destruct (check_rule_def _ _ fl _ H) as (r' & fl' & ->). cbn [bind]. eauto.
  - intros c' H. binv H. destruct a as [r' fl']. apply Ok_inj in H. subst c'. cbn [c_hook c_policy c_sets c_rules fst].
    apply check_rule_ok in E as (A & B & C & Di & _). split; [reflexivity|]. split; [reflexivity|]. split; [reflexivity|].
    exists r'. split; [reflexivity|]. split; [destruct B; constructor; assumption|]. split; [rewrite C; reflexivity|exact Di].
Qed.
