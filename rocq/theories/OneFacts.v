(** One-matcher chains: consequences (proofs only). *)
From Coq Require Import NArith ZArith List Bool Lia Arith.
From Verif Require Import Bytes Types World BpfModel GenModel PktSpec ViewSpec Wf ViewModel HeadFacts5 ProgFacts ProgThm
  BytesFacts NetFacts FitsFacts EvalSpec EvalFacts Deploy DeployFacts ChainSpec ChainFacts SockFacts.
Import ListNotations.
Local Open Scope N_scope.

Lemma addr_bit_nat a i : addr_bit a (N.of_nat i) = bit_at a i.
Proof.
  unfold addr_bit, bit_at, byte_at. change 8 with (N.of_nat 8). rewrite <- Nat2N.inj_div, <- Nat2N.inj_mod, Nat2N.id.
  f_equal. pose proof (Nat.mod_upper_bound i 8 ltac:(discriminate)). lia.
Qed.

Lemma same_prefix_net p a b : bytes a -> bytes b -> length a = length b -> p <= 8 * N.of_nat (length a) ->
  in_net p a b = true <-> same_prefix p a b.
Proof.
  intros Ba Bb L P. rewrite <- (N2Nat.id p). rewrite <- (bits_agree_net (length a) (N.to_nat p) a b) by (auto; lia).
  rewrite bits_agree_spec. unfold same_prefix. split; intros H i Hi.
  - rewrite <- (N2Nat.id i), !addr_bit_nat. apply H. lia.
  - specialize (H (N.of_nat i)). rewrite !addr_bit_nat in H. apply H. lia.
Qed.

Section V.
  Variables (c : chain) (prog : list insn) (e : env) (v : view).
  Hypothesis Dp : deployed c prog e.
  Hypothesis Hv : view_of e c = Some v.

  Lemma view_viewok : is_sock_addr (c_hook c) = false -> viewok v (packet_of e (c_hook c)).
  Proof.
    intros NS. unfold view_of, seen in Hv. rewrite NS in Hv. destruct (e_dynptr e =? 0); [|discriminate].
    apply (parse_ok (code_walk e (c_nexthdr c)) (hook_flavor (c_hook c))); auto. exact (we_bytes _ _ (dp_env _ _ _ Dp)).
  Qed.

  Lemma view_sock : is_sock_addr (c_hook c) = true -> v = sock_view (c_hook c) (e_pkt e).
  Proof. intros S. unfold view_of, seen in Hv. rewrite S in Hv. congruence. Qed.

  Lemma one_supported m t : tests c m -> is_sock_addr (c_hook c) = true -> In t (types_of (c_sets c) m) ->
    unsupported t (c_hook c) = false.
  Proof.
    intros [Tp (r & Hr & Hm & Hd & _)] S Ht. pose proof (wc_rules _ (dp_chain _ _ _ Dp)) as W. rewrite Hr in W.
    inversion W as [|x l W1 _]; subst. apply (wr_hook _ _ W1 Hd S m); auto. rewrite Hm. left. reflexivity.
  Qed.
End V.

Definition addr_len (t : mtype) : nat := match t with M_IP4_SNET | M_IP4_DNET => 4 | _ => 16 end.

Lemma net_fld v p t : viewok v p -> is_net t = true -> present v t = true ->
  bytes (fld v t) /\ length (fld v t) = addr_len t.
Proof.
  intros O N P. unfold present, has_ip4, has_ip6 in P. destruct t; try discriminate; apply N.eqb_eq in P; cbn [fld addr_len];
  (split; [apply bytes_sub; apply (vo_b3 _ _ O)|apply sub_length]);
  first [rewrite (vo_n3 _ _ O P)|rewrite (vo_n6 _ _ O P)]; cbn; lia.
Qed.

Lemma net_field c prog e m v t : deployed c prog e -> tests c m -> view_of e c = Some v ->
  In t (types_of (c_sets c) m) -> is_net t = true -> present v t = true ->
  bytes (fld v t) /\ length (fld v t) = addr_len t.
Proof.
  intros Dp T Hv Ht N P. destruct (is_sock_addr (c_hook c)) eqn:S.
  - pose proof (one_supported c prog e Dp m t T S Ht) as U. rewrite (view_sock c e v Hv S).
    pose proof (we_sock _ _ (dp_env _ _ _ Dp) S) as (L & _).
    assert (SA : hook_flavor (c_hook c) = F_SOCK_ADDR) by (unfold is_sock_addr in S; destruct (hook_flavor _); congruence).
    assert (O : exists o, sa_offset t = Ok o) by (destruct t; try discriminate N; eexists; reflexivity). destruct O as [o O].
    destruct (sock_field (c_hook c) t o (e_pkt e) SA U O ltac:(destruct t; discriminate) L) as (_ & B & ->).
    split; [apply bytes_sub; apply (we_bytes _ _ (dp_env _ _ _ Dp))|]. rewrite sub_length by lia. destruct t; try discriminate N; reflexivity.
  - apply (net_fld v _ t (view_viewok c prog e v Dp Hv S) N P).
Qed.

Lemma one_net c prog e m v : deployed c prog e -> tests c m -> view_of e c = Some v ->
  is_net (m_type m) = true -> m_op m = OP_EQ -> exists b,
    (forall w, drops_when c e prog w (present v (m_type m) && xorb (m_neg m) b)) /\
    (present v (m_type m) = true ->
      (b = true <-> same_prefix (net_plen (m_pay m)) (net_addr (addr_len (m_type m)) (m_pay m)) (fld v (m_type m)))).
Proof.
  intros Dp T Hv N O. exists (cond Generated v w_nil (c_sets c) m). split.
  - intros w. apply (one_plain c prog e m v Dp T Hv); destruct (m_type m); try discriminate; reflexivity.
  - intros P. destruct (net_field c prog e m v (m_type m) Dp T Hv) as [Bf Lf]; auto.
    { unfold types_of. destruct (m_type m); try discriminate N; left; reflexivity. }
    pose proof (one_wf c prog e m Dp T) as W. 
    assert (E : cond Generated v w_nil (c_sets c) m = in_net (net_plen (m_pay m)) (net_addr (addr_len (m_type m)) (m_pay m)) (fld v (m_type m))).
    { unfold cond. rewrite O. unfold net_plen, net_addr. rewrite <- Lf. destruct (m_type m); try discriminate; reflexivity. }
    rewrite E.
    assert (LA : length (net_addr (addr_len (m_type m)) (m_pay m)) = addr_len (m_type m)).
    { unfold net_addr. rewrite firstn_length, skipn_length.
      pose proof (wm_op _ W) as X. destruct (m_type m); try discriminate; destruct X as [_ X]; rewrite O in X; cbv [ops_size] in X; injection X as X; rewrite <- X; reflexivity. }
    apply same_prefix_net.
    + apply bytes_firstn, bytes_skipn, (wm_bytes _ W).
    + exact Bf.
    + congruence.
    + rewrite LA. pose proof (wm_net _ W N) as X. unfold net_plen. destruct (m_type m); try discriminate; exact X.
Qed.

(** ** Sets of networks *)
Lemma one_set c prog e m v s : deployed c prog e -> tests c m -> view_of e c = Some v ->
  m_type m = M_SET -> set_of (c_sets c) m = Some s ->
  forall w, drops_when c e prog w (forallb (present v) (s_key s) && xorb (m_neg m) (in_set v s)).
Proof.
  intros Dp T Hv M S w. pose proof (one_steady c prog e m v Dp T Hv w) as X. rewrite M in X.
  specialize (X ltac:(discriminate) ltac:(discriminate)). unfold accepts in X. rewrite M in X.
  unfold types_of in X. rewrite M, S in X.
  assert (Ws : wf_set s).
  { pose proof (wc_sets _ (dp_chain _ _ _ Dp)) as W. rewrite Forall_forall in W. apply W. eapply nth_error_In. exact S. }
  assert (O : m_op m = OP_IN) by (pose proof (wm_op _ (one_wf c prog e m Dp T)) as Y; rewrite M in Y; tauto).
  unfold cond in X. rewrite M, O, S in X.
  replace (forallb (applies Generated v) (s_key s)) with (forallb (present v) (s_key s)) in X; [exact X|].
  assert (L : forall t, In t (s_key s) -> applies Generated v t = present v t).
  { intros t Ht. pose proof (ws_in _ Ws t Ht) as N. destruct t; try reflexivity; exfalso; apply N; reflexivity. }
  clear - L. induction (s_key s) as [|t ts IH]; cbn [forallb]; auto. rewrite L by (left; auto). rewrite IH; auto. intros; apply L; right; auto.
Qed.

Lemma in_set_plain v s : s_trie s = false -> (in_set v s = true <-> In (concat (map (fld v) (s_key s))) (s_elems s)).
Proof.
  intros T. unfold in_set. rewrite T. rewrite existsb_exists. split.
  - intros (x & Hx & E). apply bytes_eqb_eq in E. unfold set_key in E. rewrite E. exact Hx.
  - intros H. eexists. split; [exact H|]. apply bytes_eqb_refl.
Qed.

Lemma in_set_nets v s t : (is_net t = true -> bytes (fld v t) /\ length (fld v t) = addr_len t) -> wf_set s -> s_trie s = true -> s_key s = [t] -> present v t = true ->
  (in_set v s = true <-> exists x, In x (s_elems s) /\ same_prefix (net_plen x) (net_addr (addr_len t) x) (fld v t)).
Proof.
  intros VO W T K P. unfold in_set. rewrite T. unfold set_key. rewrite K. cbn [map concat]. rewrite app_nil_r.
  assert (N : is_net t = true) by (pose proof (ws_trie _ W) as X; rewrite K, T in X; auto).
  destruct (VO N) as [Bf Lf]. rewrite existsb_exists.
  assert (Eq : forall x, In x (s_elems s) ->
    (in_net (le_dec (firstn 4 x)) (firstn (length (fld v t)) (skipn 4 x)) (fld v t) = true <->
     same_prefix (net_plen x) (net_addr (addr_len t) x) (fld v t))).
  { intros x Hx. rewrite Lf. unfold net_plen, net_addr.
    destruct (ws_elems _ W x Hx) as [Bx Lx]. rewrite (ws_size _ W), K in Lx.
    assert (LA : length (firstn (addr_len t) (skipn 4 x)) = addr_len t).
    { rewrite firstn_length, skipn_length, Lx. destruct t; try discriminate; reflexivity. }
    apply same_prefix_net; auto.
    - apply bytes_firstn, bytes_skipn. exact Bx.
    - congruence.
    - rewrite LA. pose proof (ws_plen _ W T x t Hx) as X. rewrite K in X. specialize (X (or_introl eq_refl)).
      destruct t; try discriminate; exact X. }
  split; intros (x & Hx & E); exists x; (split; [exact Hx|]); apply (Eq x Hx); exact E.
Qed.

