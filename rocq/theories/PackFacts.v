From Coq Require Import String NArith ZArith List Bool Arith Lia.
From Verif Require Import Bytes Types GenModel BytesFacts ChainModel NewSpec NewFacts HashModel ListModel StrModel EnumModel EnumFacts SetModel SetSpec
  SetApiFacts SetApiFacts2 PackModel PackSpec.
Import ListNotations.
Local Open Scope list_scope.
Local Open Scope N_scope.
Local Open Scope res_scope.

(** ** Keys. *)
Definition fresh (k : list N) (l : list (node * node)) : Prop := forall x, ~ In (NStr k, x) l.

Lemma find_key_absent k l : find_key k l = Absent <-> fresh k l.
Proof.
  induction l as [|(a, v) l IH]; cbn [find_key].
  - split; auto. intros _ x [].
  - assert (forall x, In (NStr k, x) ((a, v) :: l) <-> (a = NStr k /\ v = x) \/ In (NStr k, x) l) as Hin.
    { intros x. cbn [In]. split; intros [H|H]; auto; [injection H as -> ->; auto|destruct H as (-> & ->); auto]. }
    assert (fresh k ((a, v) :: l) <-> a <> NStr k /\ fresh k l) as ->.
    { unfold fresh. split.
      - intros H. split; [intros ->; eapply H; left; reflexivity|]. intros x Hx. apply (H x). now right.
      - intros (H1 & H2) x Hx. apply Hin in Hx as [(-> & _)|Hx]; [congruence|]. eapply H2; eauto. }
    destruct a; try (rewrite IH; split; [intros; split; [discriminate|auto]|intros (_ & H); auto]).
    destruct (bytes_eqb k s) eqn:E.
    + apply bytes_eqb_eq in E as ->. split; [|intros (H & _); congruence]. destruct (find_key s l); discriminate.
    + rewrite IH. split; [|tauto]. intros; split; auto. intros K; injection K as ->. rewrite bytes_eqb_refl in E. discriminate.
Qed.

Lemma find_key_once k l v : find_key k l = Once v <->
  exists a b, l = a ++ (NStr k, v) :: b /\ fresh k a /\ fresh k b.
Proof.
  split.
  - induction l as [|(x, w) l IH]; cbn [find_key]; [discriminate|].
    assert (find_key k l = Once v -> x <> NStr k -> exists a b, (x, w) :: l = a ++ (NStr k, v) :: b /\ fresh k a /\ fresh k b) as K.
    { intros H Hx. destruct (IH H) as (a & b & -> & H1 & H2). exists ((x, w) :: a), b. split; [reflexivity|]. split; auto.
      intros y [E|E]; [injection E as -> _; congruence|eapply H1; eauto]. }
    destruct x; try (intros H; apply K; [auto|discriminate]).
    destruct (bytes_eqb k s) eqn:E.
    + apply bytes_eqb_eq in E as ->. destruct (find_key s l) eqn:F; try discriminate. intros H; injection H as ->.
      exists [], l. split; [reflexivity|]. split; [intros y []|]. now apply find_key_absent.
    + intros H; apply K; auto. intros E'; injection E' as ->. rewrite bytes_eqb_refl in E. discriminate.
  - intros (a & b & -> & Ha & Hb). induction a as [|(x, w) a IH]; cbn [app find_key].
    + rewrite bytes_eqb_refl. apply find_key_absent in Hb. now rewrite Hb.
    + assert (x <> NStr k). { intros ->. eapply Ha. left. reflexivity. }
      assert (find_key k (a ++ (NStr k, v) :: b) = Once v) as IH' by (apply IH; intros y Hy; eapply Ha; right; eauto).
      rewrite IH'. destruct x; auto. destruct (bytes_eqb k s) eqn:E; auto. apply bytes_eqb_eq in E as ->. congruence.
Qed.

Lemma kv_node_iff n k v : kv_node n (lit k) = Ok v <-> entry n k v.
Proof.
  unfold kv_node, entry. split.
  - destruct n; try discriminate. destruct (find_key (lit k) l) eqn:E; try discriminate. intros H; injection H as ->.
    apply find_key_once in E as (a & b & -> & H1 & H2). exists a, b. auto.
  - intros (a & b & -> & H1 & H2). assert (find_key (lit k) (a ++ (NStr (lit k), v) :: b) = Once v) as ->; auto.
    apply find_key_once. exists a, b. auto.
Qed.

Lemma entry_fun n k v w : entry n k v -> entry n k w -> v = w.
Proof. rewrite <- !kv_node_iff. congruence. Qed.

Lemma contains_true n k : contains n (lit k) = Ok true <-> exists v, entry n k v.
Proof.
  split.
  - unfold contains. destruct n; try discriminate. destruct (find_key (lit k) l) eqn:E; try discriminate. intros _.
    exists v. apply kv_node_iff. unfold kv_node. now rewrite E.
  - intros (v & H). apply kv_node_iff in H. unfold kv_node, contains in *. destruct n; try discriminate.
    destruct (find_key (lit k) l); try discriminate. reflexivity.
Qed.

Lemma contains_false n k : contains n (lit k) = Ok false <-> no_entry n k.
Proof.
  unfold contains, no_entry. split.
  - destruct n; try discriminate. destruct (find_key (lit k) l) eqn:E; try discriminate. intros _. exists l. split; auto.
    now apply find_key_absent.
  - intros (l & -> & H). apply find_key_absent in H. now rewrite H.
Qed.

(** ** Readers. *)
Lemma kv_iff {A} (rd : node -> res A) (is : node -> A -> Prop) n k v : (forall c, rd c = Ok v <-> is c v) ->
  (kv rd n k = Ok v <-> exists c, entry n k c /\ is c v).
Proof.
  intros H. unfold kv. split.
  - intros E. apply bind_ok in E as (c & E1 & E2). exists c. split; [now apply kv_node_iff|now apply H].
  - intros (c & E1 & E2). apply kv_node_iff in E1 as ->. cbn [bind]. now apply H.
Qed.

Lemma kv_opt_iff {A} (rd : node -> res A) (is : node -> A -> Prop) n k d v : (forall c, rd c = Ok v <-> is c v) ->
  (kv_opt rd n k d = Ok v <-> optional is n k d v).
Proof.
  intros H. unfold kv_opt, optional. split.
  - intros E. apply bind_ok in E as (b & E1 & E2). destruct b.
    + left. eapply kv_iff in E2; eauto.
    + right. split; [now apply contains_false|congruence].
  - intros [(c & E1 & E2)|(E & ->)].
    + assert (contains n (lit k) = Ok true) as -> by (apply contains_true; eauto). cbn [bind]. eapply kv_iff; eauto.
    + apply contains_false in E as ->. reflexivity.
Qed.

Lemma rd_uint_iff b c v : rd_uint b c = Ok v <-> is_uint b c v.
Proof.
  unfold rd_uint, is_uint. split.
  - destruct c; try discriminate. destruct (N.ltb_spec n b); [|discriminate]. intros E; injection E as ->. auto.
  - intros (-> & H). apply N.ltb_lt in H as ->. reflexivity.
Qed.

Lemma rd_enum_iff m c v : m <= two31 -> (rd_enum m c = Ok v <-> is_enum m c v).
Proof.
  intros Hm. unfold rd_enum, is_enum, rd_int. split.
  - destruct c; try discriminate.
    + destruct (N.ltb_spec n two31); [|discriminate]. cbn [bind].
      destruct ((0 <=? Z.of_N n)%Z && (Z.of_N n <? Z.of_N m)%Z) eqn:E; [|discriminate]. intros K; injection K as <-.
      apply andb_prop in E as (E1 & E2). apply Z.ltb_lt in E2. rewrite N2Z.id. split; [auto|lia].
    + destruct ((- Z.of_N two31 <=? z)%Z && (z <? Z.of_N two31)%Z) eqn:E0; [|discriminate]. cbn [bind].
      destruct ((0 <=? z)%Z && (z <? Z.of_N m)%Z) eqn:E; [|discriminate]. intros K; injection K as <-.
      apply andb_prop in E as (E1 & E2). apply Z.leb_le in E1. apply Z.ltb_lt in E2. rewrite Z2N.id by lia. split; [auto|lia].
  - intros ([-> | ->] & H).
    + replace (v <? two31) with true by (symmetry; apply N.ltb_lt; lia). cbn [bind].
      replace ((0 <=? Z.of_N v)%Z && (Z.of_N v <? Z.of_N m)%Z) with true.
      2:{ symmetry. apply andb_true_iff. split; [apply Z.leb_le; lia|apply Z.ltb_lt; lia]. }
      now rewrite N2Z.id.
    + replace ((- Z.of_N two31 <=? Z.of_N v)%Z && (Z.of_N v <? Z.of_N two31)%Z) with true.
      2:{ symmetry. apply andb_true_iff. split; [apply Z.leb_le; lia|apply Z.ltb_lt; lia]. }
      cbn [bind]. replace ((0 <=? Z.of_N v)%Z && (Z.of_N v <? Z.of_N m)%Z) with true.
      2:{ symmetry. apply andb_true_iff. split; [apply Z.leb_le; lia|apply Z.ltb_lt; lia]. }
      now rewrite N2Z.id.
Qed.

Lemma rd_bool_iff c b : rd_bool c = Ok b <-> c = NBool b.
Proof. destruct c; cbn; split; intros H; try discriminate; congruence. Qed.
Lemma rd_bin_iff c b : rd_bin c = Ok b <-> c = NBin b.
Proof. destruct c; cbn; split; intros H; try discriminate; congruence. Qed.
Lemma rd_arr_iff c l : rd_arr c = Ok l <-> c = NArr l.
Proof. destruct c; cbn; split; intros H; try discriminate; congruence. Qed.
Lemma rd_str_iff c s : rd_str c = Ok s <-> is_text c s.
Proof.
  unfold is_text, rd_str. split.
  - destruct c; try discriminate. destruct (existsb (N.eqb 0) s0) eqn:E; [discriminate|]. intros H; injection H as ->. split; auto.
    intros Hi. apply not_true_iff_false in E. apply E. apply existsb_exists. exists 0. auto.
  - intros (-> & H). destruct (existsb (N.eqb 0) s) eqn:E; auto. apply existsb_exists in E as (x & Hx & E). apply N.eqb_eq in E as <-. tauto.
Qed.

Lemma kv_is {A} (rd : node -> res A) (mk : A -> node) n k v : (forall c, rd c = Ok v <-> c = mk v) ->
  (kv rd n k = Ok v <-> entry n k (mk v)).
Proof.
  intros H. rewrite (kv_iff rd (fun c v => c = mk v) n k v H). split; [intros (c & E & ->); auto|eauto].
Qed.

Lemma map_res_iff {A B} (f : A -> res B) (R : A -> B -> Prop) l r : (forall a b, f a = Ok b <-> R a b) ->
  (map_res f l = Ok r <-> Forall2 R l r).
Proof.
  intros H. revert r; induction l as [|a l IH]; intros r; cbn [map_res].
  - split; [intros E; injection E as <-; constructor|intros E; inversion E; reflexivity].
  - split.
    + intros E. apply bind_ok in E as (b & E1 & E). apply bind_ok in E as (bs & E2 & E). injection E as <-.
      constructor; [now apply H|now apply IH].
    + intros E. inversion E as [|? b ? bs H1 H2]; subst. apply H in H1 as ->. apply IH in H2 as ->. reflexivity.
Qed.

(** ** Enumerators. *)
Lemma enum_of_mtype i t : enum_of (mtype_of_id i) = Ok t <-> i = mtype_id t.
Proof.
  destruct (mtype_of_id i) eqn:E; cbn [enum_of].
  - split.
    + intros H. injection H as <-. now apply mtype_of_id_inv in E.
    + intros ->. f_equal. assert (mtype_of_id (mtype_id t) = Some t) by now destruct t. congruence.
  - split; [discriminate|]. intros ->. destruct t; discriminate E.
Qed.
Lemma enum_of_mop i t : enum_of (mop_of_id i) = Ok t <-> i = mop_id t.
Proof.
  destruct (mop_of_id i) eqn:E; cbn [enum_of].
  - split.
    + intros H. injection H as <-. now apply mop_of_id_inv in E.
    + intros ->. f_equal. assert (mop_of_id (mop_id t) = Some t) by now destruct t. congruence.
  - split; [discriminate|]. intros ->. destruct t; discriminate E.
Qed.
Lemma enum_of_verdict i t : i < 5 -> enum_of (verdict_of_id i) = Ok t <-> i = verdict_id t.
Proof.
  intros H. assert (K : i = 0 \/ i = 1 \/ i = 2 \/ i = 3 \/ i = 4) by lia.
  destruct K as [-> | [-> | [-> | [-> | ->]]]]; destruct t; cbn; split; intros E; try reflexivity; try discriminate.
Qed.
Lemma enum_of_rdir i t : i < 2 -> enum_of (rdir_of_id i) = Ok t <-> i = rdir_id t.
Proof.
  intros H. assert (K : i = 0 \/ i = 1) by lia.
  destruct K as [->| ->]; destruct t; cbn; split; intros E; try reflexivity; try discriminate.
Qed.

Lemma is_enum_fun m c v w : is_enum m c v -> is_enum m c w -> v = w.
Proof.
  intros ([-> | ->] & _) ([E | E] & _); try congruence.
  - injection E as E. now apply N2Z.inj.
Qed.

Lemma le31 m : m <= 100 -> m <= two31.
Proof. intros. unfold two31. lia. Qed.

(** ** matcher.c *)
Lemma matcher_unpack_iff n m : matcher_unpack n = Ok m <-> matcher_tree n m.
Proof.
  unfold matcher_unpack. split.
  - intros H. apply bind_ok in H as (ti & H1 & H). apply bind_ok in H as (t & H2 & H).
    apply bind_ok in H as (oi & H3 & H). apply bind_ok in H as (o & H4 & H).
    apply bind_ok in H as (neg & H5 & H). apply bind_ok in H as (pay & H6 & H).
    apply enum_of_mtype in H2. apply enum_of_mop in H4. subst.
    unfold matcher_new in H. destruct pay as [|b0 pay0] eqn:Ep; [discriminate|]. rewrite <- Ep in *. injection H as <-.
    constructor; cbn [m_type m_op m_neg m_pay].
    + eapply kv_iff; [|exact H1]. intros; apply rd_enum_iff, le31; lia.
    + eapply kv_iff; [|exact H3]. intros; apply rd_enum_iff, le31; lia.
    + eapply (kv_opt_iff rd_bool (fun c b => c = NBool b)); [|exact H5]. intros; apply rd_bool_iff.
    + apply (kv_is rd_bin NBin) in H6; auto. intros; apply rd_bin_iff.
    + now rewrite Ep.
  - intros [T O Ng P E]. destruct m as [t o neg pay]. cbn [m_type m_op m_neg m_pay] in *.
    assert (kv (rd_enum 31) n "type" = Ok (mtype_id t)) as ->.
    { eapply kv_iff; [|exact T]. intros; apply rd_enum_iff, le31; lia. }
    cbn [bind]. assert (enum_of (mtype_of_id (mtype_id t)) = Ok t) as -> by now apply enum_of_mtype. cbn [bind].
    assert (kv (rd_enum 5) n "op" = Ok (mop_id o)) as ->.
    { eapply kv_iff; [|exact O]. intros; apply rd_enum_iff, le31; lia. }
    cbn [bind]. assert (enum_of (mop_of_id (mop_id o)) = Ok o) as -> by now apply enum_of_mop. cbn [bind].
    assert (kv_opt rd_bool n "negate" false = Ok neg) as ->.
    { eapply (kv_opt_iff rd_bool (fun c b => c = NBool b)); [|exact Ng]. intros; apply rd_bool_iff. }
    cbn [bind]. assert (kv rd_bin n "payload" = Ok pay) as ->.
    { apply (kv_is rd_bin NBin); auto. intros; apply rd_bin_iff. }
    cbn [bind]. unfold matcher_new. destruct pay; [congruence|reflexivity].
Qed.

(** ** rule.c *)
Lemma unpack_counters_iff n b : unpack_counters n = Ok b <->
  entry n "has_counters" (NBool b) \/ (no_entry n "has_counters" /\ entry n "counters" (NBool b)).
Proof.
  assert (K : forall k, kv rd_bool n k = Ok b <-> entry n k (NBool b)).
  { intros. apply (kv_is rd_bool NBool). intros; apply rd_bool_iff. }
  unfold unpack_counters. destruct (contains n (lit "has_counters")) as [[|]|e] eqn:E.
  - rewrite K. split; [auto|]. intros [H|(H & _)]; auto. apply contains_false in H. congruence.
  - apply contains_false in E as E'. destruct (contains n (lit "counters")) as [[|]|e] eqn:F.
    + rewrite K. split; auto. intros [H|(_ & H)]; auto.
      assert (contains n (lit "has_counters") = Ok true) by (apply contains_true; eauto). congruence.
    + split; [discriminate|]. intros [H|(_ & H)].
      * assert (contains n (lit "has_counters") = Ok true) by (apply contains_true; eauto). congruence.
      * assert (contains n (lit "counters") = Ok true) by (apply contains_true; eauto). congruence.
    + split; [discriminate|]. intros [H|(_ & H)].
      * assert (contains n (lit "has_counters") = Ok true) by (apply contains_true; eauto). congruence.
      * assert (contains n (lit "counters") = Ok true) by (apply contains_true; eauto). congruence.
  - split; [discriminate|]. intros [H|(H & _)].
    + assert (contains n (lit "has_counters") = Ok true) by (apply contains_true; eauto). congruence.
    + apply contains_false in H. congruence.
Qed.

Lemma rule_unpack_iff n r : rule_unpack n = Ok r <-> rule_tree n r.
Proof.
  unfold rule_unpack. split.
  - intros H. apply bind_ok in H as (index & H1 & H). apply bind_ok in H as (log & H2 & H).
    apply bind_ok in H as (rate & H3 & H). apply bind_ok in H as (cnt & H4 & H). apply bind_ok in H as (mark & H5 & H).
    apply bind_ok in H as (vi & H6 & H). apply bind_ok in H as (v & H7 & H). apply bind_ok in H as (ifx & H8 & H).
    apply bind_ok in H as (di & H9 & H). apply bind_ok in H as (d & H10 & H). apply bind_ok in H as (ml & H11 & H).
    apply bind_ok in H as (ms & H12 & H). injection H as <-.
    apply (kv_iff _ (is_enum 5)) in H6; [|intros; apply rd_enum_iff, le31; lia].
    apply (kv_opt_iff _ (is_enum 2)) in H9; [|intros; apply rd_enum_iff, le31; lia].
    assert (vi = verdict_id v) as ->. { destruct H6 as (c & _ & _ & L). now apply (enum_of_verdict vi v L). }
    assert (di = rdir_id d) as ->.
    { assert (di < 2) as L by (destruct H9 as [(c & _ & _ & L)|(_ & ->)]; [auto|lia]). now apply (enum_of_rdir di d L). }
    constructor; cbn [r_index r_log r_log_rate r_counters r_mark r_verdict r_rd_ifindex r_rd_dir r_matchers r_disabled]; auto.
    + eapply kv_iff; [|exact H1]. intros; apply rd_uint_iff.
    + eapply kv_iff; [|exact H2]. intros; apply rd_uint_iff.
    + eapply kv_opt_iff; [|exact H3]. intros; apply rd_uint_iff.
    + now apply unpack_counters_iff.
    + eapply kv_iff; [|exact H5]. intros; apply rd_uint_iff.
    + eapply kv_opt_iff; [|exact H8]. intros; apply rd_uint_iff.
    + exists ml. split; [apply (kv_is rd_arr NArr) in H11; auto; intros; apply rd_arr_iff|].
      eapply map_res_iff; [|exact H12]. apply matcher_unpack_iff.
  - intros [I L R C M V F D (ml & E & Ms) Dis].
    destruct r as [index ms log rate mark cnt dis v ifx d].
    cbn [r_index r_log r_log_rate r_counters r_mark r_verdict r_rd_ifindex r_rd_dir r_matchers r_disabled] in *. subst dis.
    assert (kv (rd_uint two32) n "index" = Ok index) as ->. { eapply kv_iff; [|exact I]. intros; apply rd_uint_iff. } cbn [bind].
    assert (kv (rd_uint 256) n "log" = Ok log) as ->. { eapply kv_iff; [|exact L]. intros; apply rd_uint_iff. } cbn [bind].
    assert (kv_opt (rd_uint two64) n "log_rate_ns" 0 = Ok rate) as ->. { eapply kv_opt_iff; [|exact R]. intros; apply rd_uint_iff. } cbn [bind].
    apply unpack_counters_iff in C as ->. cbn [bind].
    assert (kv (rd_uint two64) n "mark" = Ok mark) as ->. { eapply kv_iff; [|exact M]. intros; apply rd_uint_iff. } cbn [bind].
    assert (kv (rd_enum 5) n "verdict" = Ok (verdict_id v)) as ->. { eapply kv_iff; [|exact V]. intros; apply rd_enum_iff, le31; lia. } cbn [bind].
    assert (enum_of (verdict_of_id (verdict_id v)) = Ok v) as -> by (apply enum_of_verdict; [destruct v; lazy; reflexivity|reflexivity]). cbn [bind].
    assert (kv_opt (rd_uint two32) n "redirect_ifindex" 0 = Ok ifx) as ->. { eapply kv_opt_iff; [|exact F]. intros; apply rd_uint_iff. } cbn [bind].
    assert (kv_opt (rd_enum 2) n "redirect_dir" 0 = Ok (rdir_id d)) as ->. { eapply kv_opt_iff; [|exact D]. intros; apply rd_enum_iff, le31; lia. } cbn [bind].
    assert (enum_of (rdir_of_id (rdir_id d)) = Ok d) as -> by (apply enum_of_rdir; [destruct d; lazy; reflexivity|reflexivity]). cbn [bind].
    assert (kv rd_arr n "matchers" = Ok ml) as ->. { apply (kv_is rd_arr NArr); auto. intros; apply rd_arr_iff. } cbn [bind].
    assert (map_res matcher_unpack ml = Ok ms) as ->. { eapply map_res_iff; [|exact Ms]. apply matcher_unpack_iff. }
    reflexivity.
Qed.
