(** The loader of set maps writes the right bits (proofs only). *)
From Coq Require Import NArith ZArith List Bool Lia Arith.
From Verif Require Import Bytes Types World BpfModel GenModel PktSpec Wf BytesFacts NetFacts SetFacts MapModel.
Import ListNotations.
Local Open Scope N_scope.

Lemma or_byte_length l : forall k b, length (or_byte l k b) = length l.
Proof. induction l; intros [|k] b; cbn; auto. Qed.

Lemma or_byte_nth l : forall k b i, (k < length l)%nat ->
  nth i (or_byte l k b) 0 = if Nat.eqb i k then N.lor (nth i l 0) b else nth i l 0.
Proof.
  induction l as [|x l IH]; intros k b i Hk; cbn [length] in Hk; [lia|].
  destruct k as [|k], i as [|i]; cbn; auto. apply IH. lia.
Qed.

Lemma load_bits_length ss x : forall bit v, length (load_bits ss x bit v) = length v.
Proof. induction ss as [|s ss IH]; intros; cbn; auto. rewrite IH. destruct (mem _ _); auto. apply or_byte_length. Qed.

Lemma load_bits_spec ss x : forall bit v k j,
  (bit + length ss <= 8 * length v)%nat -> (k < length v)%nat ->
  N.testbit (nth k (load_bits ss x bit v) 0) (N.of_nat j) =
  N.testbit (nth k v 0) (N.of_nat j) ||
  ((j <? 8)%nat && (bit <=? 8 * k + j)%nat &&
   match nth_error ss (8 * k + j - bit) with Some s => mem x (s_elems s) | None => false end).
Proof.
  induction ss as [|s ss IH]; intros bit v k j Hl Hk; cbn [load_bits].
  - destruct (8 * k + j - bit)%nat; cbn [nth_error]; rewrite andb_false_r, orb_false_r; reflexivity.
  - cbn [length] in Hl. pose proof (Nat.div_mod bit 8 ltac:(lia)) as D. pose proof (Nat.mod_upper_bound bit 8 ltac:(lia)) as M.
    set (v' := if mem x (s_elems s) then _ else v).
    assert (Lv : length v' = length v) by (unfold v'; destruct (mem _ _); auto; apply or_byte_length).
    rewrite IH by lia.
    assert (V : N.testbit (nth k v' 0) (N.of_nat j) =
                N.testbit (nth k v 0) (N.of_nat j) || ((j <? 8)%nat && (bit =? 8 * k + j)%nat && mem x (s_elems s))).
    { unfold v'. destruct (mem x (s_elems s)); [|rewrite andb_false_r, orb_false_r; reflexivity].
      rewrite andb_true_r. rewrite or_byte_nth by lia.
      destruct (Nat.eqb_spec k (bit / 8)) as [->|Hne].
      - rewrite N.lor_spec. f_equal. rewrite N.pow2_bits_eqb.
        destruct (Nat.ltb_spec j 8), (Nat.eqb_spec bit (8 * (bit / 8) + j)), (N.eqb_spec (N.of_nat (bit mod 8)) (N.of_nat j)); cbn; auto; lia.
      - destruct (Nat.ltb_spec j 8), (Nat.eqb_spec bit (8 * k + j)); cbn; rewrite ?orb_false_r; auto.
        exfalso. apply Hne. subst bit. symmetry. rewrite Nat.mul_comm, Nat.div_add_l by lia. rewrite Nat.div_small by lia. lia. }
    rewrite V, <- orb_assoc. f_equal.
    destruct (Nat.ltb_spec j 8); cbn [andb]; auto.
    destruct (Nat.eqb_spec bit (8 * k + j)) as [E|E].
    + rewrite <- E, Nat.sub_diag. cbn [nth_error]. rewrite (proj2 (Nat.leb_le bit bit)) by lia.
      rewrite (proj2 (Nat.leb_gt (S bit) bit)) by lia. cbn. rewrite orb_false_r. reflexivity.
    + cbn [andb orb]. destruct (Nat.leb_spec bit (8 * k + j)).
      * rewrite (proj2 (Nat.leb_le _ _)) by lia. cbn [andb].
        replace (8 * k + j - bit)%nat with (S (8 * k + j - S bit)) by lia. reflexivity.
      * rewrite (proj2 (Nat.leb_gt _ _)) by lia. reflexivity.
Qed.

Lemma load_value_elem_mask ss x : load_value ss x = elem_mask ss x.
Proof.
  unfold load_value. replace (length ss + 8 - 1)%nat with (length ss + 7)%nat by lia.
  set (n := ((length ss + 7) / 8)%nat).
  assert (Hn : (length ss <= 8 * n)%nat).
  { unfold n. pose proof (Nat.div_mod (length ss + 7) 8 ltac:(lia)).
    pose proof (Nat.mod_upper_bound (length ss + 7) 8 ltac:(lia)). lia. }
  apply nth_ext with (d := 0) (d' := 0).
  - rewrite load_bits_length, repeat_length. unfold elem_mask. rewrite map_length, seq_length. reflexivity.
  - intros k Hk. rewrite load_bits_length, repeat_length in Hk.
    apply N.bits_inj. intros j. rewrite <- (N2Nat.id j). rewrite load_bits_spec by (rewrite repeat_length; lia).
    rewrite nth_repeat, N.bits_0. cbn [orb]. rewrite Nat.sub_0_r. cbn [Nat.leb]. rewrite andb_true_r.
    unfold elem_mask. fold n.
    rewrite nth_indep with (d' := (fun b => mask_byte (firstn 8 (skipn (8 * b) ss)) x 1) 0%nat)
      by (rewrite map_length, seq_length; exact Hk).
    rewrite (map_nth (fun b => mask_byte (firstn 8 (skipn (8 * b) ss)) x 1)). rewrite seq_nth by exact Hk. cbn [Nat.add].
    pose proof (mask_byte_bit (firstn 8 (skipn (8 * k) ss)) x 0 ltac:(rewrite firstn_length; lia) (N.of_nat (N.to_nat j))) as M.
    rewrite N.add_0_l in M. change (2 ^ 0) with 1 in M. rewrite M, Nat2N.id.
    destruct (Nat.ltb_spec (N.to_nat j) 8); cbn [andb].
    + rewrite nth_error_firstn_lt by lia. rewrite nth_error_skipn_add. reflexivity.
    + rewrite (proj2 (nth_error_None _ _)) by (rewrite firstn_length; lia). reflexivity.
Qed.

Lemma load_map_is_group_map sets g : load_map sets g = group_map sets g.
Proof. unfold load_map, group_map. f_equal. apply map_ext. intros x. rewrite load_value_elem_mask. reflexivity. Qed.

(** Every non-empty set is in a group. *)
Definition grouped (i : nat) (groups : list (list nat)) := exists g, In g groups /\ In i g.

Lemma grouped_add sets i key groups : grouped i (add_to_group sets i key groups).
Proof.
  induction groups as [|g r IH]; cbn [add_to_group].
  - exists [i]. split; left; auto.
  - destruct (key_eqb _ _).
    + exists (g ++ [i]). split; [left; auto|]. apply in_or_app. right. left. auto.
    + destruct IH as (g' & H1 & H2). exists g'. split; [right|]; auto.
Qed.

Lemma grouped_keep sets i j key groups : grouped j groups -> grouped j (add_to_group sets i key groups).
Proof.
  intros (g0 & H1 & H2). induction groups as [|g r IH]; cbn [add_to_group]; [destruct H1|].
  destruct (key_eqb _ _).
  - destruct H1 as [->|H1]; [exists (g0 ++ [i]); split; [left; auto|apply in_or_app; auto]|exists g0; split; [right|]; auto].
  - destruct H1 as [->|H1]; [exists g0; split; [left|]; auto|]. destruct (IH H1) as (g' & A & B). exists g'. split; [right|]; auto.
Qed.

Lemma build_aux_grouped sets : forall rest i groups,
  (forall j, grouped j groups -> grouped j (build_groups_aux sets rest i groups)) /\
  (forall k s, nth_error rest k = Some s -> s_elems s <> [] -> grouped (i + k) (build_groups_aux sets rest i groups)).
Proof.
  induction rest as [|s rest IH]; intros i groups; cbn [build_groups_aux].
  - split; auto. intros [|k] s' H; discriminate.
  - set (groups' := match s_elems s with [] => groups | _ => _ end).
    destruct (IH (S i) groups') as [K N].
    assert (G' : forall j, grouped j groups -> grouped j groups').
    { intros j Hj. unfold groups'. destruct (s_elems s); auto. destruct (s_trie s).
      - destruct Hj as (g & A & B). exists g. split; auto. apply in_or_app. auto.
      - apply grouped_keep. exact Hj. }
    split; [auto|]. intros [|k] s' H Hne; cbn in H.
    + injection H as <-. rewrite Nat.add_0_r. apply K. unfold groups'. destruct (s_elems s); [congruence|].
      destruct (s_trie s); [|apply grouped_add]. exists [i]. split; [apply in_or_app; right; left; auto|left; auto].
    + replace (i + S k)%nat with (S i + k)%nat by lia. eauto.
Qed.

Lemma index_of_In i g : forall k, In i g -> index_of i g k <> None.
Proof.
  induction g as [|x g IH]; intros k H; [destruct H|]. cbn [index_of]. destruct (Nat.eqb_spec x i); [discriminate|].
  destruct H as [->|H]; [congruence|]. apply IH. exact H.
Qed.

Lemma find_set_grouped i groups : forall k, grouped i groups -> find_set i groups k <> None.
Proof.
  induction groups as [|g r IH]; intros k (g0 & A & B); [destruct A|]. cbn [find_set].
  destruct (index_of i g 0) eqn:E; [discriminate|]. destruct A as [->|A].
  - exfalso. eapply index_of_In; eauto.
  - apply IH. exists g0. auto.
Qed.

Lemma in_group_nth sets : Forall wf_set sets -> forall grp, In grp (build_groups sets) -> forall j, In j grp -> nth_error sets j <> None.
Proof.
  intros W grp Hg j Hj. pose proof (build_groups_good sets W) as G. rewrite Forall_forall in G.
  destruct (G grp Hg) as [(i & s & -> & Hi & _)|(_ & key & K)].
  - destruct Hj as [<-|[]]. congruence.
  - destruct (K j Hj) as (s & Hs & _). congruence.
Qed.

Lemma map_bits sets i s : Forall wf_set sets -> nth_error sets i = Some s -> s_elems s <> [] ->
  exists g b grp els, find_set i (build_groups sets) 0 = Some (g, b) /\
    nth_error (build_groups sets) g = Some grp /\ nth_error grp b = Some i /\
    load_map sets grp = (s_trie s, s_esize s, els) /\ NoDup (map fst els) /\
    (forall key v, In (key, v) els -> (b / 8 < length v)%nat) /\
    (forall key, In key (s_elems s) <-> exists v, In (key, v) els /\ N.testbit (nth (b / 8) v 0) (N.of_nat (b mod 8)) = true).
Proof.
  intros W Hi Hne.
  assert (G : find_set i (build_groups sets) 0 <> None).
  { apply find_set_grouped. destruct (build_aux_grouped sets sets 0 []) as [_ N]. exact (N i s Hi Hne). }
  destruct (find_set i (build_groups sets) 0) as [[g b]|] eqn:E; [|congruence]. clear G.
  destruct (find_set_spec _ _ _ _ _ E) as (_ & grp & Hg & Hb). rewrite Nat.sub_0_r in Hg.
  assert (In grp (build_groups sets)) as Ing by (eapply nth_error_In; eauto).
  pose proof (group_sets_nth sets grp b i s (in_group_nth sets W grp Ing) Hb Hi) as Hn.
  exists g, b, grp, (snd (load_map sets grp)). split; [reflexivity|]. split; [exact Hg|]. split; [exact Hb|].
  assert (Hd : exists s0, nth_error (group_sets sets grp) 0 = Some s0 /\ s_trie s0 = s_trie s /\ s_esize s0 = s_esize s).
  { pose proof (build_groups_good sets W) as G. rewrite Forall_forall in G.
    assert (Wf : forall k s', nth_error sets k = Some s' -> wf_set s').
    { intros k s' H. rewrite Forall_forall in W. apply W. eapply nth_error_In; eauto. }
    destruct (G grp Ing) as [(i' & s' & -> & Hi' & T)|(Hnn & key & K)].
    - destruct b as [|b]; [|destruct b; discriminate]. cbn in Hb. injection Hb as ->.
      exists s. split; [exact Hn|auto].
    - destruct grp as [|j grp]; [congruence|]. destruct (K j ltac:(left; auto)) as (sj & Hj & Tj & Kj).
      destruct (K i ltac:(eapply nth_error_In; eauto)) as (s' & Hs' & Ts & Ks). rewrite Hs' in Hi. injection Hi as ->.
      exists sj. split.
      + cbn [group_sets flat_map]. unfold group_sets. cbn [flat_map]. rewrite Hj. reflexivity.
      + split; [congruence|]. rewrite (ws_size _ (Wf _ _ Hj)), (ws_size _ (Wf _ _ Hs')), Kj, Ks. reflexivity. }
  destruct Hd as (s0 & H0 & T0 & E0).
  destruct (group_sets sets grp) as [|s1 ss] eqn:GS; [discriminate|]. cbn in H0. injection H0 as ->.
  split.
  { unfold load_map. rewrite GS. cbn [snd]. rewrite T0, E0. reflexivity. }
  unfold load_map. rewrite GS. cbn [snd]. split; [|split].
  - rewrite map_map. cbn [fst]. rewrite map_id. apply dedup_NoDup.
  - intros key v H. apply in_map_iff in H as (x & H & _). injection H as E1 E2. subst x v.
    rewrite load_value_elem_mask. apply (elem_mask_bit _ key b s Hn).
  - intros key. split.
    + intros Hk. exists (load_value (s0 :: ss) key). split.
      * apply in_map_iff. exists key. split; auto. apply dedup_In. split; [|intros []].
        apply in_flat_map. exists s. split; [eapply nth_error_In; eauto|auto].
      * rewrite load_value_elem_mask. rewrite (proj2 (elem_mask_bit _ key b s Hn)). apply mem_In. exact Hk.
    + intros (v & Hv & Ht). apply in_map_iff in Hv as (x & H & _). injection H as E1 E2. subst x v.
      rewrite load_value_elem_mask in Ht. rewrite (proj2 (elem_mask_bit _ key b s Hn)) in Ht. apply mem_In. exact Ht.
Qed.

(** Two sets never share a slot. *)
Lemma slots_differ sets i j g b : find_set i (build_groups sets) 0 = Some (g, b) -> find_set j (build_groups sets) 0 = Some (g, b) -> i = j.
Proof.
  intros A B. destruct (find_set_spec _ _ _ _ _ A) as (_ & x & X1 & X2). destruct (find_set_spec _ _ _ _ _ B) as (_ & y & Y1 & Y2).
  congruence.
Qed.
