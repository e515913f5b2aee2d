(** Socket hooks: consequences (proofs only). *)
From Coq Require Import NArith ZArith List Bool Lia Arith.
From Verif Require Import Bytes Types World BpfModel GenModel PktSpec ViewSpec Wf ViewModel HeadFacts5 ProgFacts ProgThm
  BytesFacts NetFacts FitsFacts EvalSpec EvalFacts Deploy DeployFacts ChainSpec ChainFacts ChainFacts2 OneFacts OneFacts2 MatcherFacts2 SockFacts SockSpec.
Import ListNotations.
Local Open Scope N_scope.

Section S.
  Variables (c : chain) (prog : list insn) (e : env) (o : sockop).
  Hypothesis Dp : deployed c prog e.
  Hypothesis SA : is_sock_addr (c_hook c) = true.
  Hypothesis L : laid_out (c_hook c) (e_pkt e) o.
  Notation v := (sock_view (c_hook c) (e_pkt e)).

  Lemma sock_seen : view_of e c = Some v.
  Proof. unfold view_of, seen. rewrite SA. reflexivity. Qed.

  Lemma op_small : so_proto o < 256.
  Proof. rewrite <- (lo_proto _ _ _ L). apply (we_sock _ _ (dp_env _ _ _ Dp) SA). Qed.

  Lemma op_l3_ok : v_l3 v = op_l3 o.
  Proof. unfold op_l3. rewrite <- (lo_family _ _ _ L). reflexivity. Qed.

  Lemma op_has_ok t : unsupported t (c_hook c) = false -> present v t = op_has o t.
  Proof.
    intros U. unfold present, has_ip4, has_ip6, has_tcp, has_udp. rewrite op_l3_ok.
    assert (L4 : v_l4 v = so_proto o) by (rewrite <- (lo_proto _ _ _ L); reflexivity). rewrite L4.
    assert (E2 : (op_l3 o =? 0x0800) = (so_family o =? 2)).
    { unfold op_l3. destruct (so_family o =? 2); [reflexivity|]. destruct (so_family o =? 10); reflexivity. }
    assert (E6 : (op_l3 o =? 0x86DD) = (so_family o =? 10)).
    { unfold op_l3. destruct (N.eqb_spec (so_family o) 2) as [->|]; [reflexivity|]. destruct (so_family o =? 10); reflexivity. }
    destruct t; cbn [op_has]; auto; exfalso; cbn in U; rewrite SA in U; rewrite ?orb_true_r in U; discriminate U.
  Qed.

  Lemma op_field_ok t : unsupported t (c_hook c) = false ->
    In t [M_IP4_SADDR; M_IP4_SNET; M_IP4_DADDR; M_IP4_DNET; M_IP4_PROTO; M_IP6_SADDR; M_IP6_SNET; M_IP6_DADDR; M_IP6_DNET;
          M_TCP_DPORT; M_UDP_DPORT; M_DPORT] -> fld v t = op_field o t.
  Proof.
    intros U I. assert (HF : hook_flavor (c_hook c) = F_SOCK_ADDR) by (unfold is_sock_addr in SA; destruct (hook_flavor _); congruence).
    destruct (mtype_eq_dec t M_IP4_PROTO) as [->|NP].
    - cbn [op_field]. pose proof op_small as P. rewrite <- (lo_proto _ _ _ L) in P |- *.
      unfold sock_proto. cbn in U. destruct (c_hook c); try discriminate U; try discriminate SA;
        cbn [sock_view fld v_h3 sock_addr_ip4]; unfold sock_proto; cbn; unfold sub; cbn; rewrite N.mod_small by exact P; reflexivity.
    - destruct (mtype_eq_dec t M_DPORT) as [->|ND].
      { change (fld v M_DPORT) with (fld v M_UDP_DPORT).
        destruct (sock_field (c_hook c) M_UDP_DPORT _ (e_pkt e) HF eq_refl eq_refl ltac:(discriminate) (lo_size _ _ _ L)) as (_ & _ & ->).
        exact (lo_port _ _ _ L). }
      assert (E : exists a, sa_offset t = Ok a) by (destruct t; cbn in I; try (exfalso; intuition discriminate); try (exfalso; congruence); eexists; reflexivity).
      destruct E as [a E]. destruct (sock_field (c_hook c) t a (e_pkt e) HF U E NP (lo_size _ _ _ L)) as (_ & _ & ->).
      pose proof (lo_dst _ _ _ L) as LD. pose proof (lo_src _ _ _ L) as LS. pose proof (lo_port _ _ _ L) as LP.
      destruct (c_hook c); try discriminate SA; destruct t; try discriminate U; try discriminate E; try congruence;
        cbn [op_field]; apply Ok_inj in E; subst a; try rewrite LS; first [exact LD|exact LP|reflexivity].
  Qed.

  Variable m : matcher.
  Hypothesis T : tests c m.

  Lemma op_sup : m_type m <> M_SET -> unsupported (m_type m) (c_hook c) = false.
  Proof. intros N. apply (one_supported c prog e Dp m (m_type m) T SA). rewrite types_other by exact N. left. reflexivity. Qed.

  Lemma op_exact : In (m_type m) [M_IP4_SADDR; M_IP4_DADDR; M_IP4_PROTO; M_IP6_SADDR; M_IP6_DADDR; M_TCP_DPORT; M_UDP_DPORT] ->
    m_op m = OP_EQ -> forall w,
    drops_when c e prog w (op_has o (m_type m) && xorb (m_neg m) (bytes_eqb (op_field o (m_type m)) (m_pay m))).
  Proof.
    intros I O w. assert (N : m_type m <> M_SET) by (intros E; rewrite E in I; cbn in I; intuition discriminate).
    rewrite <- (op_has_ok _ (op_sup N)), <- (op_field_ok _ (op_sup N)) by (cbn in I |- *; intuition).
    apply (one_exact c prog e m v Dp T sock_seen); auto. cbn in I |- *. intuition.
  Qed.

  Lemma op_range : In (m_type m) [M_TCP_DPORT; M_UDP_DPORT] -> m_op m = OP_RANGE -> forall w,
    drops_when c e prog w (op_has o (m_type m) && xorb (m_neg m)
      ((le_dec (sub (m_pay m) 0 2) <=? be_dec (so_port o)) && (be_dec (so_port o) <=? le_dec (sub (m_pay m) 2 2)))).
  Proof.
    intros I O w. assert (N : m_type m <> M_SET) by (intros E; rewrite E in I; cbn in I; intuition discriminate).
    pose proof (one_range c prog e m v Dp T sock_seen ltac:(cbn in I |- *; intuition) O w) as X.
    rewrite (op_has_ok _ (op_sup N)), (op_field_ok _ (op_sup N)) in X by (cbn in I |- *; intuition).
    replace (op_field o (m_type m)) with (so_port o) in X; [exact X|]. destruct I as [<-|[<-|[]]]; reflexivity.
  Qed.

  Lemma op_net : In (m_type m) [M_IP4_SNET; M_IP4_DNET; M_IP6_SNET; M_IP6_DNET] -> m_op m = OP_EQ -> exists b,
    (forall w, drops_when c e prog w (op_has o (m_type m) && xorb (m_neg m) b)) /\
    (op_has o (m_type m) = true ->
      (b = true <-> same_prefix (net_plen (m_pay m)) (net_addr (addr_len (m_type m)) (m_pay m)) (op_field o (m_type m)))).
  Proof.
    intros I O. assert (N : m_type m <> M_SET) by (intros E; rewrite E in I; cbn in I; intuition discriminate).
    rewrite <- (op_has_ok _ (op_sup N)), <- (op_field_ok _ (op_sup N)) by (cbn in I |- *; intuition).
    apply (one_net c prog e m v Dp T sock_seen); auto. destruct (m_type m); cbn in I; try (exfalso; intuition discriminate); reflexivity.
  Qed.

  Lemma op_proto : In (m_type m) [M_L3_PROTO; M_L4_PROTO] -> m_op m = OP_EQ -> forall w,
    drops_when c e prog w (xorb (m_neg m)
      (if mtype_eq_dec (m_type m) M_L3_PROTO then op_l3 o =? le_dec (m_pay m) else so_proto o =? byte_at (m_pay m) 0)).
  Proof.
    intros I O w. rewrite <- op_l3_ok, <- (lo_proto _ _ _ L). 
    pose proof (one_plain c prog e m v Dp T sock_seen w) as X. unfold cond in X. rewrite O in X.
    destruct I as [E|[E|[]]]; symmetry in E; rewrite E in X |- *;
      (specialize (X ltac:(discriminate) ltac:(discriminate) ltac:(discriminate) eq_refl)); exact X.
  Qed.

  (** Whatever the transport protocol: finding F45. *)
  Lemma op_meta_port : m_type m = M_DPORT -> forall w,
    drops_when c e prog w (xorb (m_neg m)
      (match m_op m with
       | OP_RANGE => (le_dec (sub (m_pay m) 0 2) <=? be_dec (so_port o)) && (be_dec (so_port o) <=? le_dec (sub (m_pay m) 2 2))
       | _ => bytes_eqb (so_port o) (m_pay m)
       end)).
  Proof.
    intros E w. pose proof (one_sock_port c prog e m v Dp T sock_seen SA E w) as X.
    rewrite (op_field_ok M_DPORT) in X; [exact X| |cbn; tauto]. rewrite <- E. apply op_sup. rewrite E. discriminate.
  Qed.

  Lemma op_set s : m_type m = M_SET -> set_of (c_sets c) m = Some s -> s_trie s = false ->
    (forall t, In t (s_key s) -> In t [M_IP4_SADDR; M_IP4_DADDR; M_IP4_PROTO; M_IP6_SADDR; M_IP6_DADDR; M_TCP_DPORT; M_UDP_DPORT]) ->
    exists b, (forall w, drops_when c e prog w (forallb (op_has o) (s_key s) && xorb (m_neg m) b)) /\
      (b = true <-> In (concat (map (op_field o) (s_key s))) (s_elems s)).
  Proof.
    intros M S Tr K. exists (in_set v s).
    assert (U : forall t, In t (s_key s) -> unsupported t (c_hook c) = false).
    { intros t Ht. apply (one_supported c prog e Dp m t T SA). unfold types_of. rewrite M, S. exact Ht. }
    split.
    - intros w. pose proof (one_set c prog e m v s Dp T sock_seen M S w) as X.
      replace (forallb (present v) (s_key s)) with (forallb (op_has o) (s_key s)) in X; [exact X|].
      clear - U L SA. induction (s_key s) as [|t l IH]; [reflexivity|]. cbn [forallb]. rewrite IH by (intros; apply U; right; auto).
      rewrite (op_has_ok t) by (apply U; left; auto). reflexivity.
    - rewrite in_set_plain by exact Tr. replace (map (op_field o) (s_key s)) with (map (fld v) (s_key s)); [reflexivity|].
      apply map_ext_in. intros t Ht. apply op_field_ok; auto. pose proof (K t Ht) as I. cbn in I |- *. intuition.
  Qed.

  Lemma op_net_set s t : m_type m = M_SET -> set_of (c_sets c) m = Some s -> s_trie s = true -> s_key s = [t] ->
    In t [M_IP4_SNET; M_IP4_DNET; M_IP6_SNET; M_IP6_DNET] ->
    exists b, (forall w, drops_when c e prog w (op_has o t && xorb (m_neg m) b)) /\
      (op_has o t = true -> (b = true <-> exists x, In x (s_elems s) /\ same_prefix (net_plen x) (net_addr (addr_len t) x) (op_field o t))).
  Proof.
    intros M S Tr K I.
    assert (U : unsupported t (c_hook c) = false).
    { apply (one_supported c prog e Dp m t T SA). unfold types_of. rewrite M, S, K. left. reflexivity. }
    rewrite <- (op_has_ok _ U), <- (op_field_ok _ U) by (cbn in I |- *; intuition).
    exists (in_set v s). split.
    - intros w. pose proof (one_set c prog e m v s Dp T sock_seen M S w) as X. rewrite K in X. cbn [forallb] in X. rewrite andb_true_r in X. exact X.
    - intros P. refine (in_set_nets v s t (fun N => net_field c prog e m v t Dp T sock_seen _ N P) _ Tr K P).
      { unfold types_of. rewrite M, S, K. left. reflexivity. }
      pose proof (wc_sets _ (dp_chain _ _ _ Dp)) as W. rewrite Forall_forall in W. apply W. eapply nth_error_In. exact S.
  Qed.
End S.

(** ** Verdicts, counters, logs *)
Lemma redirect_hooks c prog r : gen_program c = Ok prog -> In r (c_rules c) -> r_disabled r = false -> r_verdict r = V_REDIRECT ->
  hook_flavor (c_hook c) = F_TC \/ hook_flavor (c_hook c) = F_XDP.
Proof.
  intros G H D M. destruct (gen_program_rule _ _ _ G H) as [x X]. unfold gen_rule in X. rewrite D in X.
  destruct (gen_guards _ _ _); [|discriminate]. cbn [bind] in X. destruct (gen_matchers _ _); [|discriminate]. cbn [bind] in X.
  destruct (if mark_is_set r then _ else _); [|discriminate]. cbn [bind] in X.
  unfold gen_rule_verdict, gen_redirect in X. rewrite M in X. destruct (hook_flavor (c_hook c)); auto; discriminate X.
Qed.

Lemma sr_same n P w w' : w_cnt w' = w_cnt w -> w_mark w' = w_mark w -> w_redir w' = w_redir w -> w_log w' = w_log w -> sock_run n P w w'.
Proof.
  intros A B C D. constructor; auto; try (intros; rewrite A; reflexivity). exists []. split; [exact D|constructor].
Qed.

Lemma sr_trans n P w1 w2 w3 : sock_run n P w1 w2 -> sock_run n P w2 w3 -> sock_run n P w1 w3.
Proof.
  intros [A1 B1 C1 D1 (n1 & E1 & F1)] [A2 B2 C2 D2 (n2 & E2 & F2)]. constructor.
  - intros i. rewrite A2. apply A1.
  - intros i Hi. rewrite B2, B1; auto.
  - congruence.
  - congruence.
  - exists (n2 ++ n1). rewrite E2, E1, app_assoc. split; [reflexivity|]. apply Forall_app. auto.
Qed.

Lemma sr_count n P w i : i <= n -> sock_run n P w (w_count w i 0).
Proof.
  intros Hi. unfold w_count. destruct (w_cnt w i) as [a b] eqn:E.
  constructor; cbn [w_cnt w_mark w_redir w_log]; auto.
  - intros j. unfold updN. destruct (N.eqb_spec j i) as [->|]; [|reflexivity]. rewrite E. cbn [snd].
    rewrite N.add_0_r. apply N.mod_mod. discriminate.
  - intros j Hj. unfold updN. destruct (N.eqb_spec j i) as [->|]; [lia|reflexivity].
  - exists []. split; [reflexivity|constructor].
Qed.

Section R.
  Variables (c : chain) (prog : list insn) (e : env) (o : sockop).
  Hypothesis Dp : deployed c prog e.
  Hypothesis SA : is_sock_addr (c_hook c) = true.
  Hypothesis L : laid_out (c_hook c) (e_pkt e) o.
  Notation v := (sock_view (c_hook c) (e_pkt e)).

  Notation op_logged := (op_logged c o).

  Lemma op_info : sock_info (c_hook c) (e_pkt e) = mkSk (option_map op_pad (so_src o)) (op_pad (so_dst o)) (be_dec (so_port o)).
  Proof.
    unfold sock_info, sock_src, sock_dst. pose proof (lo_dst _ _ _ L) as D. pose proof (lo_src _ _ _ L) as S.
    rewrite (lo_port _ _ _ L). destruct (c_hook c); try discriminate SA; cbn [sock_addr_ip4]; rewrite S, D; reflexivity.
  Qed.

  Lemma sr_match D thr or ms w : sock_run (n_rules c) op_logged w (snd (match_all D thr or (c_sets c) v ms w)).
  Proof.
    revert w. induction ms as [|m ms IH]; intros w; cbn [match_all]; [apply sr_same; reflexivity|].
    destruct (applies D v (m_type m)); [|apply sr_same; reflexivity].
    assert (X : sock_run (n_rules c) op_logged w (snd (match1 D thr or (c_sets c) v m w))).
    { unfold match1. destruct (m_type m); apply sr_same; reflexivity. }
    destruct (match1 D thr or (c_sets c) v m w) as [b w1]. cbn [snd] in X.
    destruct b; [|exact X]. eapply sr_trans; [exact X|apply IH].
  Qed.

  Lemma sr_logp or r w : In r (c_rules c) -> r_disabled r = false -> sock_run (n_rules c) op_logged w (log_packet or v r w).
  Proof.
    intros Hr Hd. unfold log_packet. destruct (o_ring or (w_rings w)); [|apply sr_same; reflexivity].
    constructor; try (intros; reflexivity). eexists [_]. split; [reflexivity|]. constructor; [|constructor].
    unfold SockSpec.op_logged. cbn [lg_l3 lg_l4 lg_size lg_sock lg_rule lg_verdict].
    split; [apply op_l3_ok; auto|]. split; [exact (lo_proto _ _ _ L)|]. split; [reflexivity|]. split; [cbn [sock_view v_sock]; rewrite op_info; reflexivity|].
    exists r. auto.
  Qed.

  Lemma sr_effects or r w : In r (c_rules c) -> r_disabled r = false -> sock_run (n_rules c) op_logged w (effects or v r w).
  Proof.
    intros Hr Hd. unfold effects.
    assert (NM : mark_is_set r = false).
    { destruct (mark_is_set r) eqn:M; [|reflexivity]. destruct (mark_hooks c prog r (dp_gen _ _ _ Dp) Hr Hd M) as [X|X];
        unfold is_sock_addr in SA; rewrite X in SA; discriminate. }
    rewrite NM. apply sr_trans with (do_log or v r w).
    - unfold do_log. destruct (r_log r =? 0); [apply sr_same; reflexivity|].
      destruct (r_log_rate r =? 0); [apply sr_logp; auto|].
      destruct (since _ _ <? _); [apply sr_same; reflexivity|].
      eapply sr_trans; [|apply sr_logp; auto]. apply sr_same; reflexivity.
    - destruct (r_counters r); [|apply sr_same; reflexivity]. apply sr_count.
      pose proof (wc_rules _ (dp_chain _ _ _ Dp)) as W. rewrite Forall_forall in W. pose proof (wr_index _ _ (W r Hr)). lia.
  Qed.

  Lemma sr_rules D thr or rs w d w' : incl rs (c_rules c) -> eval_rules D thr or (c_sets c) v rs w = (d, w') ->
    sock_run (n_rules c) op_logged w w' /\ forall x, d = Some x -> exists vd, x = DVerdict vd.
  Proof.
    revert w. induction rs as [|r rs IH]; intros w Hi; cbn [eval_rules]; intros E.
    - injection E as <- <-. split; [apply sr_same; reflexivity|discriminate].
    - assert (Hr : In r (c_rules c)) by (apply Hi; left; auto).
      assert (Hi' : incl rs (c_rules c)) by (intros x Hx; apply Hi; right; auto).
      destruct (r_disabled r) eqn:Dr; [apply IH; auto|].
      assert (X : sock_run (n_rules c) op_logged w (snd (rule_matches D thr or (c_sets c) v r w))).
      { unfold rule_matches. destruct (guards _ _ _); [apply sr_match|apply sr_same; reflexivity]. }
      destruct (rule_matches D thr or (c_sets c) v r w) as [b w1]. cbn [snd] in X.
      destruct b.
      + assert (X2 : sock_run (n_rules c) op_logged w (effects or v r w1)) by (eapply sr_trans; [exact X|apply sr_effects; auto]).
        destruct (decision_of r) as [x|] eqn:Dc.
        * injection E as <- <-. split; [exact X2|]. intros y Ey. injection Ey as <-. unfold decision_of in Dc.
          destruct (r_verdict r) eqn:V; try discriminate Dc; try (injection Dc as <-; eauto).
          destruct (redirect_hooks c prog r (dp_gen _ _ _ Dp) Hr Dr V) as [Y|Y]; unfold is_sock_addr in SA; rewrite Y in SA; discriminate.
        * destruct (IH _ Hi' E) as [A B]. split; [eapply sr_trans; eauto|exact B].
      + destruct (IH _ Hi' E) as [A B]. split; [eapply sr_trans; eauto|exact B].
  Qed.

  Lemma sock_runs w : exists k w', exec e prog w = Done k w' /\ (k = 0 \/ k = 1) /\ sock_run (n_rules c) op_logged w w'.
  Proof.
    destruct (deployed_run c prog e Dp w) as (k & w3 & E & R). rewrite (sock_seen c e SA) in R.
    exists k, w3. split; [exact E|]. unfold eval_chain in R.
    assert (HF : hook_flavor (c_hook c) = F_SOCK_ADDR) by (unfold is_sock_addr in SA; destruct (hook_flavor _); congruence).
    rewrite HF in R.
    destruct (eval_rules _ _ _ _ _ _ _) as [d w'] eqn:EV.
    destruct (sr_rules _ _ _ _ _ _ _ (incl_refl _) EV) as [S1 S2].
    destruct d as [x|]; cbv beta iota in R.
    - destruct (S2 x eq_refl) as [vd ->]. cbn [finish] in R. destruct vd; cbn [kernel_code] in R; try discriminate R; injection R as <- <-; auto.
    - cbn [finish] in R.
      assert (S3 : sock_run (n_rules c) op_logged w (w_count w' (N.of_nat (length (c_rules c))) 0)) by (eapply sr_trans; [exact S1|apply sr_count; unfold n_rules; lia]).
      destruct (c_policy c); cbn [kernel_code] in R; try discriminate R; injection R as <- <-; auto.
  Qed.
End R.
