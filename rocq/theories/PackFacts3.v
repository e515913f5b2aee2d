(** Sets as a whole, and the round trips of matchers, rules, sets and chains. *)
From Coq Require Import String NArith ZArith List Bool Arith Lia.
From Verif Require Import Bytes Types GenModel BytesFacts ChainModel NewSpec NewFacts ListSpec ListModel ListFacts HashSpec HashModel HashFacts HashFacts2 
  StrModel EnumModel EnumFacts SetModel SetSpec SetApiFacts SetApiFacts2 PackModel PackSpec PackFacts PackFacts2.
Import ListNotations.
Local Open Scope list_scope.
Local Open Scope N_scope.
Local Open Scope res_scope.

Lemma text_or_nil c name : match c with NNil => Ok None | _ => s <- rd_str c ; Ok (Some s) end = Ok name <->
  match name with Some s => is_text c s | None => c = NNil end.
Proof.
  destruct name as [s|].
  - rewrite <- rd_str_iff. destruct c; cbn; split; intros H; try discriminate H.
    + destruct (existsb (N.eqb 0) s0); [discriminate H|]. cbn in H. congruence.
    + destruct (existsb (N.eqb 0) s0); [discriminate H|]. cbn. congruence.
  - split; [|intros ->; reflexivity]. destruct c; auto; try discriminate. intros H. binv H. discriminate H.
Qed.

Lemma set_unpack_sound nd tb n u : set_unpack nd tb n = Ok u -> exists name ks elems, set_tree n name ks elems /\ set_is u name ks elems.
Proof.
  unfold set_unpack. intros H. binv H. rename a into c. binv H. rename a into name. binv H. rename a into kl. binv H. rename a into ks.
  binv H. rename a into u0. binv H. rename a into el.
  apply text_or_nil in E0. apply kv_node_iff in E. apply (kv_is rd_arr NArr) in E1; [|intros; apply rd_arr_iff].
  apply (kv_is rd_arr NArr) in E4; [|intros; apply rd_arr_iff]. apply unpack_key_ok in E2 as (K1 & K2).
  pose proof (set_new_result _ _ _ E3) as (R1 & R2 & R3 & R4 & R5).
  destruct (unpack_elems_ok nd tb el 0 u0 [] (urep_new _ _ _ E3)) as (A & _).
  destruct (A u H) as (es & l' & -> & F & R' & (S1 & S2 & S3 & S4) & M).
  exists name, ks, es. split.
  - constructor.
    + exists c. auto.
    + exists kl. auto.
    + apply (set_new_iff name). eauto.
    + exact E4.
    + now rewrite <- R3.
  - unfold set_is. rewrite S1, S2, S3, S4. split; [auto|]. split; [auto|]. split; [auto|]. split; [auto|].
    rewrite (set_read_ok _ _ R'), M. reflexivity.
Qed.

Lemma f2_length {A B} (R : A -> B -> Prop) l r : Forall2 R l r -> length l = length r.
Proof. induction 1; cbn; auto. Qed.

Lemma tree_prefix nd tb n name ks elems : set_tree n name ks elems -> exists u0, set_new name ks = Ok u0 /\
  set_unpack nd tb n = unpack_elems nd tb 0 u0 (map NBin elems) /\ u_esize u0 = list_sum (map comp_size ks).
Proof.
  intros [(c & N1 & N2) (l & K1 & K2) G E S]. unfold set_unpack.
  apply kv_node_iff in N1 as ->. cbn [bind]. apply text_or_nil in N2 as ->. cbn [bind].
  assert (kv rd_arr n "key" = Ok l) as ->. { apply (kv_is rd_arr NArr); auto. intros; apply rd_arr_iff. }
  cbn [bind]. assert (unpack_key 8 l = Ok ks) as ->.
  { apply unpack_key_ok. split; auto. rewrite (f2_length _ _ _ K2). apply G. }
  cbn [bind]. destruct (proj2 (set_new_iff name ks) G) as (u0 & E0). exists u0. rewrite E0. cbn [bind]. split; [reflexivity|].
  assert (kv rd_arr n "elements" = Ok (map NBin elems)) as ->. { apply (kv_is rd_arr NArr); auto. intros; apply rd_arr_iff. }
  split; [reflexivity|]. now apply set_new_result in E0.
Qed.

Lemma set_tree_fun n name ks elems name' ks' elems' : set_tree n name ks elems -> set_tree n name' ks' elems' ->
  name = name' /\ ks = ks' /\ elems = elems'.
Proof.
  intros [(c & N1 & N2) (l & K1 & K2) _ E _] [(c' & N1' & N2') (l' & K1' & K2') _ E' _].
  assert (c = c') by (eapply entry_fun; eauto). assert (NArr l = NArr l') as X by (eapply entry_fun; eauto). injection X as <-.
  assert (NArr (map NBin elems) = NArr (map NBin elems')) as Y by (eapply entry_fun; eauto). injection Y as Y. subst c'.
  split; [|split].
  - apply text_or_nil in N2, N2'. congruence.
  - clear -K2 K2'. revert ks' K2'. induction K2 as [|x t l ks H1 H2 IH]; intros ks' K; inversion K as [|? t' ? ks'' H1' H2']; subst; auto.
    f_equal; [|auto]. pose proof (is_enum_fun _ _ _ _ H1 H1') as Q.
    assert (enum_of (mtype_of_id (mtype_id t)) = Ok t) by now apply enum_of_mtype.
    assert (enum_of (mtype_of_id (mtype_id t')) = Ok t') by now apply enum_of_mtype. congruence.
  - clear -Y. revert elems' Y. induction elems as [|e l IH]; intros [|e' l'] Y; try discriminate Y; auto.
    cbn [map] in Y. injection Y as -> Y. f_equal. auto.
Qed.

Lemma set_unpack_complete nd tb n name ks elems : set_tree n name ks elems ->
  (exists u, set_unpack nd tb n = Ok u /\ set_is u name ks elems) \/ set_unpack nd tb n = Er ENOMEM.
Proof.
  intros T. destruct (tree_prefix nd tb _ _ _ _ T) as (u0 & E0 & E & Z).
  destruct (unpack_elems_ok nd tb (map NBin elems) 0 u0 [] (urep_new _ _ _ E0)) as (_ & B).
  destruct (B elems eq_refl) as [(u & Eu)|Eu].
  { rewrite Z. apply (st_sizes _ _ _ _ T). }
  - left. exists u. rewrite E. split; auto. rewrite <- E in Eu. destruct (set_unpack_sound _ _ _ _ Eu) as (nm & k & es & T' & I).
    destruct (set_tree_fun _ _ _ _ _ _ _ T T') as (-> & -> & ->). exact I.
  - right. congruence.
Qed.

Lemma set_unpack_generous nd tb n name ks elems : generous nd tb -> set_tree n name ks elems -> N.of_nat (length elems) < two32 ->
  exists u, set_unpack nd tb n = Ok u /\ set_is u name ks elems.
Proof.
  intros G T L. destruct (set_unpack_complete nd tb _ _ _ _ T) as [H|H]; auto. exfalso.
  destruct (tree_prefix nd tb _ _ _ _ T) as (u0 & E0 & E & Z). rewrite E in H.
  destruct (set_new_inv _ _ _ E0) as (_ & _ & Eh).
  eapply (unpack_elems_generous nd tb (map NBin elems) G 0 u0 []); eauto.
  - now apply urep_new in E0.
  - intros a [].
  - rewrite Eh. cbn. lia.
  - rewrite Eh. cbn. lia.
  - rewrite map_length. cbn [Nat.add]. unfold MAX_CAP, two32 in *. lia.
Qed.

(** ** Writing, then reading. *)
Lemma wr_int_enum m i : i < m -> is_enum m (wr_int (Z.of_N i)) i.
Proof.
  intros H. unfold is_enum, wr_int. destruct (Z.ltb_spec (Z.of_N i) 0); [lia|]. rewrite N2Z.id. auto.
Qed.

Ltac is_entry := apply kv_node_iff; lazy; reflexivity.

Lemma matcher_pack_tree m : m_pay m <> [] -> matcher_tree (matcher_pack m) m.
Proof.
  intros H. constructor; auto.
  - eexists. split; [is_entry|]. apply wr_int_enum. destruct (m_type m); lazy; reflexivity.
  - eexists. split; [is_entry|]. apply wr_int_enum. destruct (m_op m); lazy; reflexivity.
  - left. eexists. split; [is_entry|reflexivity].
  - is_entry.
Qed.

Lemma rule_pack_tree r : rule_in_range r -> r_index r < two32 -> rule_tree (rule_pack r) (with_disabled r false).
Proof.
  intros (H1 & H2 & H3 & H4 & H5) Hi.
  constructor; cbn [with_disabled r_index r_log r_log_rate r_counters r_mark r_verdict r_rd_ifindex r_rd_dir r_matchers r_disabled]; auto.
  - eexists. split; [is_entry|split; [reflexivity|auto]].
  - eexists. split; [is_entry|split; [reflexivity|auto]].
  - left. eexists. split; [is_entry|split; [reflexivity|auto]].
  - left. is_entry.
  - eexists. split; [is_entry|split; [reflexivity|auto]].
  - eexists. split; [is_entry|]. apply wr_int_enum. destruct (r_verdict r); lazy; reflexivity.
  - left. eexists. split; [is_entry|split; [reflexivity|auto]].
  - left. eexists. split; [is_entry|]. apply wr_int_enum. destruct (r_rd_dir r); lazy; reflexivity.
  - exists (map matcher_pack (r_matchers r)). split; [is_entry|].
    induction H5; cbn [map]; constructor; auto. now apply matcher_pack_tree.
Qed.

Lemma firsts_nodup l : NoDup l -> firsts l = l.
Proof.
  unfold firsts. intros H. assert (forall a, (forall x, In x a -> ~ In x l) ->
     fold_left (fun l e => if In_bytes l e then l else l ++ [e]) l a = a ++ l) as K.
  { induction H as [|x l Hx Hl IH]; intros a Ha; cbn [fold_left]; [now rewrite app_nil_r|].
    destruct (In_bytes a x) eqn:E. { exfalso. apply in_bytes_iff in E. apply (Ha x E). now left. }
    rewrite IH. - rewrite <- app_assoc. reflexivity.
    - intros y Hy. apply in_app_iff in Hy as [Hy|[<-|[]]]; auto. intros Hi. apply (Ha y Hy). now right. }
  rewrite K; auto.
Qed.

Lemma reachable_shape u : set_reachable u -> set_new (u_name u) (u_key u) = Ok (with_elems u (hash_init (fun _ => None))).
Proof.
  induction 1 as [name key u E|mem nd tb u e u' rc _ IH E|tb n u u' rc _ IH E
    |nd tb u v u' v' rc _ IHu _ IHv E|nd tb u v u' v' rc _ IHu _ IHv E|u v u' v' rc _ IHu _ IHv E|u v u' v' rc _ IHu _ IHv E].
  - destruct (set_new_inv _ _ _ E) as (_ & -> & E3). pose proof (set_new_result _ _ _ E) as (E1 & _). rewrite E1, E, <- E3. now destruct u.
  - unfold set_add_elem in E. destruct (negb mem); [inversion E; subst; auto|]. binv E. binv E. inversion E; subst. cbn. exact IH.
  - unfold set_reserve in E. binv E. inversion E; subst. exact IH.
  - pose proof (add_many_shape _ _ _ _ _ _ _ E) as (A & B & C & D). unfold with_elems. rewrite A, B, C, D. exact IHu.
  - unfold set_add_many in E. destruct (negb _); [inversion E; subst; exact IHv|]. binv E. destruct a as [[d s] r].
    destruct (r =? 0); inversion E; subst. exact IHv.
  - pose proof (remove_many_shape _ _ _ _ _ E) as (A & B & C & D). unfold with_elems. rewrite A, B, C, D. exact IHu.
  - unfold set_remove_many in E. destruct (negb _); [inversion E; subst; exact IHv|]. binv E. destruct a as [[d s] r].
    destruct (r =? 0); inversion E; subst. exact IHv.
Qed.

Lemma set_pack_tree u : set_reachable u -> match u_name u with Some s => ~ In 0 s | None => True end ->
  exists l n, set_read u = Ok l /\ set_pack u = Ok n /\ set_tree n (u_name u) (u_key u) l /\ NoDup l.
Proof.
  intros R Hn. pose proof (reachable_shape u R) as Sh. destruct (reachable_urep u R) as (l & U).
  destruct (urep_contents u l U) as (C1 & C2 & C3). exists (map snd l). unfold set_pack. rewrite C1. cbn [bind]. eexists. split; [reflexivity|].
  split; [reflexivity|]. split; [|exact C2].
  constructor.
  - exists (match u_name u with Some s => NStr s | None => NNil end). split; [is_entry|]. destruct (u_name u) as [s|]; [split; auto|reflexivity].
  - exists (map (fun t => wr_int (Z.of_N (mtype_id t))) (u_key u)). split; [is_entry|]. clear. induction (u_key u) as [|t k IH]; cbn [map]; constructor; auto.
    apply wr_int_enum. destruct t; lazy; reflexivity.
  - apply (set_new_iff (u_name u)). eauto.
  - is_entry.
  - apply set_new_result in Sh as (_ & _ & Z & _). cbn [with_elems u_esize] in Z. now rewrite <- Z.
Qed.

Lemma set_is_same u v : set_reachable u -> forall l, set_read u = Ok l -> NoDup l -> set_is v (u_name u) (u_key u) l -> same_set u v.
Proof.
  intros R l E D (A & B & C & T & Rd). pose proof (reachable_shape u R) as Sh. apply set_new_result in Sh as (_ & _ & Z & T' & _).
  cbn [with_elems u_esize u_trie] in Z, T'. unfold same_set. split; [auto|]. split; [auto|]. split; [congruence|]. split.
  - apply eq_true_iff_eq. rewrite T, T'. reflexivity.
  - rewrite Rd, E, firsts_nodup; auto.
Qed.

Lemma set_round_trip nd tb u : set_reachable u -> match u_name u with Some s => ~ In 0 s | None => True end ->
  exists n, set_pack u = Ok n /\
    ((exists v, set_unpack nd tb n = Ok v /\ same_set u v) \/ set_unpack nd tb n = Er ENOMEM) /\
    (generous nd tb -> (forall l, set_read u = Ok l -> N.of_nat (length l) < two32) ->
       exists v, set_unpack nd tb n = Ok v /\ same_set u v).
Proof.
  intros R Hn. destruct (set_pack_tree u R Hn) as (l & n & E1 & E2 & T & D). exists n. split; auto. split.
  - destruct (set_unpack_complete nd tb _ _ _ _ T) as [(v & Ev & I)|]; auto. left. exists v. split; auto. eapply set_is_same; eauto.
  - intros G L. destruct (set_unpack_generous nd tb _ _ _ _ G T (L l E1)) as (v & Ev & I). exists v. split; auto. eapply set_is_same; eauto.
Qed.
