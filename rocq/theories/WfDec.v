(** Checkable forms of the well-formedness conditions, used to exhibit concrete
    cases beside the theorems (proofs only). *)
From Coq Require Import NArith ZArith List Bool Lia Arith.
From Verif Require Import Bytes Types World BpfModel GenModel PktSpec Wf ViewSpec ViewModel BytesFacts.
Import ListNotations.
Local Open Scope N_scope.

Definition byteb (x : N) : bool := x <? 256.
Lemma bytesb_ok l : forallb byteb l = true -> bytes l.
Proof.
  intros H. apply Forall_forall. intros x Hx. rewrite forallb_forall in H. apply H in Hx. apply N.ltb_lt. exact Hx.
Qed.

Definition is_some {A} (o : option A) : bool := match o with Some _ => true | None => false end.
Definition mt_eqb (a b : mtype) : bool := if mtype_eq_dec a b then true else false.
Lemma mt_eqb_eq a b : mt_eqb a b = true <-> a = b.
Proof. unfold mt_eqb. destruct (mtype_eq_dec a b); split; congruence. Qed.

Definition wf_setb (s : bset) : bool :=
  negb (Nat.eqb (length (s_key s)) 0) && forallb (fun t => is_some (ops_size t OP_IN)) (s_key s) &&
  eqb (s_trie s) (match s_key s with [t] => is_net t | _ => false end) &&
  (s_trie s || forallb (fun t => negb (is_net t)) (s_key s)) &&
  Nat.eqb (s_esize s) (list_sum (map comp_size (s_key s))) &&
  forallb (fun x => forallb byteb x && Nat.eqb (length x) (s_esize s)) (s_elems s) &&
  (negb (s_trie s) || forallb (fun x => forallb (fun t => le_dec (firstn 4 x) <=? net_bits t) (s_key s)) (s_elems s)) &&
  (length (s_key s) <=? 8)%nat.

Lemma wf_setb_ok s : wf_setb s = true -> wf_set s.
Proof.
  unfold wf_setb. rewrite !andb_true_iff. intros [[[[[[[H1 H2] H3] H4] H5] H6] H7] H8].
  constructor.
  - destruct (s_key s); [discriminate|congruence].
  - intros t Ht. rewrite forallb_forall in H2. apply H2 in Ht. destruct (ops_size t OP_IN); [discriminate|discriminate].
  - apply eqb_prop. exact H3.
  - intros E t Ht. rewrite E in H4. cbn [orb] in H4. rewrite forallb_forall in H4. apply H4 in Ht. destruct (is_net t); auto; discriminate.
  - apply Nat.eqb_eq. exact H5.
  - intros x Hx. rewrite forallb_forall in H6. apply H6 in Hx. apply andb_true_iff in Hx as [A B]. split; [apply bytesb_ok; auto|apply Nat.eqb_eq; auto].
  - intros E x t Hx Ht. rewrite E in H7. cbn [negb orb] in H7. rewrite forallb_forall in H7. apply H7 in Hx.
    rewrite forallb_forall in Hx. apply N.leb_le. auto.
  - apply Nat.leb_le. exact H8.
Qed.

Definition mop_eqb (a b : mop) : bool :=
  match a, b with OP_EQ, OP_EQ | OP_ANY, OP_ANY | OP_ALL, OP_ALL | OP_IN, OP_IN | OP_RANGE, OP_RANGE => true | _, _ => false end.
Lemma mop_eqb_eq a b : mop_eqb a b = true <-> a = b.
Proof. destruct a, b; cbn; split; congruence. Qed.

Definition wf_matcherb (m : matcher) : bool :=
  forallb byteb (m_pay m) &&
  (if mt_eqb (m_type m) M_SET then mop_eqb (m_op m) OP_IN && Nat.eqb (length (m_pay m)) 4
   else negb (mop_eqb (m_op m) OP_IN) &&
        match ops_size (m_type m) (m_op m) with Some n => Nat.eqb n (length (m_pay m)) | None => false end) &&
  (negb (is_net (m_type m)) || (le_dec (firstn 4 (m_pay m)) <=? net_bits (m_type m))).

Lemma wf_matcherb_ok m : wf_matcherb m = true -> wf_matcher m.
Proof.
  unfold wf_matcherb. rewrite !andb_true_iff. intros [[H1 H2] H3]. constructor.
  - apply bytesb_ok; auto.
  - assert (G : m_type m <> M_SET -> m_op m <> OP_IN /\ ops_size (m_type m) (m_op m) = Some (length (m_pay m))).
    { intros N. destruct (mt_eqb (m_type m) M_SET) eqn:E; [apply mt_eqb_eq in E; congruence|].
      apply andb_true_iff in H2 as [A B]. split.
      - intros O. rewrite O in A. discriminate.
      - destruct (ops_size (m_type m) (m_op m)); [|discriminate]. apply Nat.eqb_eq in B. congruence. }
    destruct (m_type m) eqn:Et; try (apply G; discriminate).
    cbn in H2. apply andb_true_iff in H2 as [A B]. split; [apply mop_eqb_eq; auto|apply Nat.eqb_eq; auto].
  - intros E. rewrite E in H3. apply N.leb_le. exact H3.
Qed.

Definition compatb (sets : list bset) (ms : list matcher) : bool :=
  let ts := flat_map (types_of sets) ms in
  forallb (fun t => forallb (fun t' =>
    negb (layer_eqb (mt_layer (meta_of t)) (mt_layer (meta_of t'))) || layer_eqb (mt_layer (meta_of t)) L_NONE ||
    (mt_hdr (meta_of t) =? mt_hdr (meta_of t'))) ts) ts.

Lemma compatb_ok sets ms : compatb sets ms = true -> compat sets ms.
Proof.
  unfold compatb, compat. intros H t t' Ht Ht' E NL. rewrite forallb_forall in H. apply H in Ht.
  rewrite forallb_forall in Ht. apply Ht in Ht'. rewrite E in *.
  assert (L : layer_eqb (mt_layer (meta_of t')) (mt_layer (meta_of t')) = true) by (destruct (mt_layer (meta_of t')); reflexivity).
  rewrite L in Ht'. cbn [negb orb] in Ht'. apply orb_true_iff in Ht' as [A|A]; [|apply N.eqb_eq; exact A].
  destruct (mt_layer (meta_of t')); try discriminate; congruence.
Qed.

Definition impb (a b : bool) : bool := negb a || b.
Lemma impb_ok a b : impb a b = true -> a = true -> b = true.
Proof. destruct a, b; auto. Qed.

Definition wf_ruleb (c : chain) (r : rule) : bool :=
  forallb wf_matcherb (r_matchers r) && (r_index r <? n_rules c) && (r_log r <? 256) && (r_log_rate r <? two64) &&
  (r_mark r <? two64) && (r_rd_ifindex r <? two32) &&
  (r_disabled r ||
   (compatb (c_sets c) (r_matchers r) && impb (negb (r_log r =? 0)) (c_log c) &&
    impb (negb (r_log r =? 0) && negb (r_log_rate r =? 0)) (c_ratelimit c) &&
    impb (existsb (fun m => mt_eqb (m_type m) M_IP6_NEXTHDR) (r_matchers r)) (c_nexthdr c) &&
    impb (is_sock_addr (c_hook c)) (forallb (fun m => forallb (fun t => negb (unsupported t (c_hook c))) (types_of (c_sets c) m)) (r_matchers r)))).

Lemma wf_ruleb_ok c r : wf_ruleb c r = true -> wf_rule c r.
Proof.
  unfold wf_ruleb. rewrite !andb_true_iff. intros [[[[[[H1 H2] H3] H4] H5] H6] H7].
  assert (G : r_disabled r = false -> compatb (c_sets c) (r_matchers r) = true /\ impb (negb (r_log r =? 0)) (c_log c) = true /\
     impb (negb (r_log r =? 0) && negb (r_log_rate r =? 0)) (c_ratelimit c) = true /\
     impb (existsb (fun m => mt_eqb (m_type m) M_IP6_NEXTHDR) (r_matchers r)) (c_nexthdr c) = true /\
     impb (is_sock_addr (c_hook c)) (forallb (fun m => forallb (fun t => negb (unsupported t (c_hook c))) (types_of (c_sets c) m)) (r_matchers r)) = true).
  { intros D. rewrite D in H7. cbn [orb] in H7. rewrite !andb_true_iff in H7. tauto. }
  clear H7. constructor; try (apply N.ltb_lt; assumption).
  - apply Forall_forall. intros m Hm. rewrite forallb_forall in H1. apply wf_matcherb_ok. auto.
  - intros D. apply compatb_ok. apply G; auto.
  - intros D N. destruct (G D) as (_ & A & _). eapply impb_ok; [exact A|]. apply negb_true_iff, N.eqb_neq. exact N.
  - intros D N N'. destruct (G D) as (_ & _ & A & _). eapply impb_ok; [exact A|]. apply andb_true_iff. split; apply negb_true_iff, N.eqb_neq; auto.
  - intros D m Hm E. destruct (G D) as (_ & _ & _ & A & _). eapply impb_ok; [exact A|]. apply existsb_exists. exists m. split; auto. apply mt_eqb_eq. exact E.
  - intros D S m t Hm Ht. destruct (G D) as (_ & _ & _ & _ & A). apply (impb_ok _ _ A) in S.
    rewrite forallb_forall in S. apply S in Hm. rewrite forallb_forall in Hm. apply Hm in Ht. apply negb_true_iff. exact Ht.
Qed.

Definition wf_chainb (c : chain) : bool :=
  forallb wf_setb (c_sets c) && (Z.of_nat (length (c_sets c)) <? 262144)%Z && (n_rules c <? 268435456) && forallb (wf_ruleb c) (c_rules c).

Lemma wf_chainb_ok c : wf_chainb c = true -> wf_chain c.
Proof.
  unfold wf_chainb. rewrite !andb_true_iff. intros [[[H1 H2] H3] H4]. constructor.
  - apply Forall_forall. intros s Hs. rewrite forallb_forall in H1. apply wf_setb_ok. auto.
  - apply Z.ltb_lt. exact H2.
  - apply N.ltb_lt. exact H3.
  - apply Forall_forall. intros r Hr. rewrite forallb_forall in H4. apply wf_ruleb_ok. auto.
Qed.

Definition key_fitsb (c : chain) (m : matcher) : bool :=
  if mt_eqb (m_type m) M_SET then
    match set_of (c_sets c) m with Some s => s_trie s || (s_esize s <=? 64)%nat | None => true end
  else true.

Lemma key_fitsb_ok c m : key_fitsb c m = true -> key_fits c m.
Proof.
  unfold key_fitsb, key_fits. intros H E s Es T. rewrite (proj2 (mt_eqb_eq _ _) E), Es, T in H. apply Nat.leb_le. exact H.
Qed.

Definition quirk_freeb (v : view) (m : matcher) : bool :=
  match m_type m with
  | M_IFACE => v_if v <? 65536
  | M_SPORT | M_DPORT =>
      match v_sock v with
      | None => impb (has_tcp v || has_udp v) (negb (be_dec (fld v (m_type m)) =? 0))
      | Some _ => has_tcp v || has_udp v
      end
  | M_PROBABILITY => match prob_threshold (m_pay m) with Some t => t <? two31 | None => true end
  | _ => true
  end.

Lemma quirk_freeb_ok v m : quirk_freeb v m = true -> quirk_free v m.
Proof.
  unfold quirk_freeb, quirk_free. destruct (m_type m); auto; intros H.
  - apply N.ltb_lt. exact H.
  - intros t E. rewrite E in H. apply N.ltb_lt. exact H.
  - destruct (v_sock v); [exact H|]. intros E. apply (impb_ok _ _ H) in E. apply negb_true_iff, N.eqb_neq in E. exact E.
  - destruct (v_sock v); [exact H|]. intros E. apply (impb_ok _ _ H) in E. apply negb_true_iff, N.eqb_neq in E. exact E.
Qed.
