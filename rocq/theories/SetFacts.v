(** Set groups, element bitmasks and map lookups (proofs only). *)
From Coq Require Import NArith ZArith List Bool Lia Arith.
From Verif Require Import Bytes Types World BpfModel GenModel PktSpec Wf BytesFacts NetFacts.
Import ListNotations.
Local Open Scope N_scope.

(** ** Positions in groups *)
Lemma index_of_spec i g : forall k b, index_of i g k = Some b ->
  (k <= b)%nat /\ nth_error g (b - k) = Some i.
Proof.
  induction g as [|x g IH]; intros k b H; cbn in H; [discriminate|].
  destruct (Nat.eqb_spec x i).
  - injection H as <-. split; [lia|]. rewrite Nat.sub_diag. subst. reflexivity.
  - apply IH in H as [H1 H2]. split; [lia|]. replace (b - k)%nat with (S (b - S k)) by lia. exact H2.
Qed.

Lemma find_set_spec i groups : forall k g b, find_set i groups k = Some (g, b) ->
  (k <= g)%nat /\ exists grp, nth_error groups (g - k) = Some grp /\ nth_error grp b = Some i.
Proof.
  induction groups as [|x r IH]; intros k g b H; cbn in H; [discriminate|].
  destruct (index_of i x 0) as [b'|] eqn:E.
  - injection H as <- <-. split; [lia|]. rewrite Nat.sub_diag. exists x. split; auto.
    apply index_of_spec in E as [_ E]. rewrite Nat.sub_0_r in E. exact E.
  - apply IH in H as [H1 (grp & H2 & H3)]. split; [lia|]. exists grp.
    replace (g - k)%nat with (S (g - S k)) by lia. auto.
Qed.

Lemma key_eqb_eq a : forall b, key_eqb a b = true <-> a = b.
Proof.
  induction a as [|x a IH]; intros [|y b]; cbn; split; intros H; try discriminate; auto.
  - destruct (mtype_eq_dec x y); [|discriminate]. apply IH in H. congruence.
  - injection H as -> ->. destruct (mtype_eq_dec y y); [|congruence]. apply IH. reflexivity.
Qed.

(** Every group is a single trie set, or hash sets with one common key. *)
Definition good_group (sets : list bset) (g : list nat) : Prop :=
  (exists i s, g = [i] /\ nth_error sets i = Some s /\ s_trie s = true) \/
  (g <> [] /\ exists key, forall i, In i g -> exists s, nth_error sets i = Some s /\ s_trie s = false /\ s_key s = key).

Lemma trie_key (sets : list bset) s s' : wf_set s -> wf_set s' -> s_key s = s_key s' -> s_trie s = s_trie s'.
Proof. intros H H' E. rewrite (ws_trie _ H), (ws_trie _ H'), E. reflexivity. Qed.

Lemma add_group_good sets i s groups : Forall wf_set sets -> nth_error sets i = Some s -> s_trie s = false ->
  Forall (good_group sets) groups -> Forall (good_group sets) (add_to_group sets i (s_key s) groups).
Proof.
  intros Hw Hi Ht. induction 1 as [|g r Hg Hr IH]; cbn [add_to_group].
  - constructor; [|constructor]. right. split; [discriminate|]. exists (s_key s).
    intros j [<-|[]]. eauto.
  - destruct (key_eqb (s_key s) (group_head_key sets g)) eqn:E.
    + constructor; [|exact Hr]. apply key_eqb_eq in E.
      assert (Ws : wf_set s) by (eapply Forall_forall; [exact Hw|eapply nth_error_In; eauto]).
      destruct Hg as [(j & s' & -> & Hj & Tj)|(Hne & key & Hk)].
      * exfalso. cbn [group_head_key] in E. rewrite Hj in E.
        assert (Ws' : wf_set s') by (eapply Forall_forall; [exact Hw|eapply nth_error_In; eauto]).
        pose proof (trie_key sets s s' Ws Ws' E). congruence.
      * right. split; [destruct g; discriminate|]. exists key. intros j Hj.
        apply in_app_or in Hj as [Hj|[<-|[]]]; [auto|].
        exists s. split; [auto|]. split; [auto|]. rewrite E.
        destruct g as [|j g]; [congruence|]. cbn [group_head_key].
        destruct (Hk j ltac:(left; reflexivity)) as (s' & Hj & _ & Kj). rewrite Hj. exact Kj.
    + constructor; auto.
Qed.

Lemma build_aux_good sets : Forall wf_set sets -> forall rest i groups,
  skipn i sets = rest -> Forall (good_group sets) groups ->
  Forall (good_group sets) (build_groups_aux sets rest i groups).
Proof.
  intros Hw. induction rest as [|s rest IH]; intros i groups Hs Hg; cbn [build_groups_aux]; auto.
  assert (Hi : nth_error sets i = Some s).
  { rewrite <- (firstn_skipn i sets), Hs. rewrite nth_error_app2; rewrite firstn_length.
    - replace (i - Nat.min i (length sets))%nat with 0%nat; [reflexivity|].
      assert (i < length sets)%nat; [|lia].
      destruct (Nat.lt_ge_cases i (length sets)); auto. rewrite skipn_all2 in Hs by lia. discriminate.
    - lia. }
  apply IH.
  - change (S i) with (1 + i)%nat. rewrite <- skipn_skipn || idtac.
    clear - Hs. revert sets Hs. induction i; intros [|x l] Hs; cbn in *; try discriminate; auto; congruence.
  - destruct (s_elems s); auto. destruct (s_trie s) eqn:Ht.
    + apply Forall_app. split; auto. constructor; [|constructor]. left. exists i, s. auto.
    + apply add_group_good; auto.
Qed.

Lemma build_groups_good sets : Forall wf_set sets -> Forall (good_group sets) (build_groups sets).
Proof. intros H. apply build_aux_good; auto. Qed.

Lemma group_sets_nth sets g : forall b i s, (forall j, In j g -> nth_error sets j <> None) ->
  nth_error g b = Some i -> nth_error sets i = Some s -> nth_error (group_sets sets g) b = Some s.
Proof.
  unfold group_sets. induction g as [|j g IH]; intros b i s Hall Hb Hi; [destruct b; discriminate|].
  cbn [flat_map]. destruct (nth_error sets j) as [sj|] eqn:Hj.
  - destruct b as [|b]; cbn [nth_error app] in *.
    + injection Hb as ->. congruence.
    + eapply IH; eauto. intros; apply Hall; right; auto.
  - exfalso. apply (Hall j); [left; auto|auto].
Qed.

(** ** Bitmasks *)
Lemma mask_byte_bit ss x : forall k, (length ss <= 8)%nat -> forall j,
  N.testbit (mask_byte ss x (2 ^ k)) (k + j) =
  match nth_error ss (N.to_nat j) with Some s => mem x (s_elems s) | None => false end.
Proof.
  (* the mask is a sum of distinct powers of two: it is 2^k times a number *)
  assert (G : forall ss k, mask_byte ss x (2 ^ k) = mask_byte ss x 1 * 2 ^ k).
  { clear. induction ss as [|s ss IH]; intros k; cbn [mask_byte]; [lia|].
    replace (2 * 2 ^ k) with (2 ^ (k + 1)) by (rewrite N.pow_add_r; lia).
    change (2 * 1) with (2 ^ 1). rewrite (IH (k + 1)), (IH 1).
    rewrite N.pow_add_r. destruct (mem x (s_elems s)); lia. }
  intros k _ j. rewrite G, (N.add_comm k). rewrite N.mul_pow2_bits_add.
  revert j. clear k. induction ss as [|s ss IH]; intros j.
  - cbn [mask_byte]. rewrite N.bits_0. destruct (N.to_nat j); reflexivity.
  - cbn [mask_byte]. change (2 * 1) with (2 ^ 1). rewrite G. change (2 ^ 1) with 2.
    destruct (N.eq_dec j 0) as [->|Hj].
    + cbn [N.to_nat nth_error]. rewrite N.bit0_odd.
      rewrite N.odd_add. rewrite N.odd_mul. cbn [N.odd]. rewrite andb_false_r, xorb_false_r.
      destruct (mem x (s_elems s)); reflexivity.
    + replace j with (N.succ (j - 1)) by lia.
      assert (E : forall b m, b < 2 -> N.testbit (b + m * 2) (N.succ (j - 1)) = N.testbit m (j - 1)).
      { intros b m Hb. assert (b = 0 \/ b = 1) as [-> | ->] by lia.
        - rewrite N.add_0_l, (N.mul_comm m). apply N.testbit_even_succ. lia.
        - rewrite N.add_comm, (N.mul_comm m). apply N.testbit_odd_succ. lia. }
      rewrite E by (destruct (mem x (s_elems s)); lia). rewrite IH.
      rewrite N2Nat.inj_succ. reflexivity.
Qed.

Lemma land_pow2 n j : N.land n (2 ^ j) = if N.testbit n j then 2 ^ j else 0.
Proof.
  apply N.bits_inj. intros i. rewrite N.land_spec.
  destruct (N.eq_dec i j) as [->|H].
  - rewrite N.pow2_bits_true, andb_true_r. destruct (N.testbit n j); [rewrite N.pow2_bits_true|rewrite N.bits_0]; reflexivity.
  - rewrite N.pow2_bits_false by auto. rewrite andb_false_r.
    destruct (N.testbit n j); [rewrite N.pow2_bits_false by auto|rewrite N.bits_0]; reflexivity.
Qed.

Lemma nth_error_firstn_lt {A} (l : list A) n i : (i < n)%nat -> nth_error (firstn n l) i = nth_error l i.
Proof.
  revert l i. induction n; intros [|x l] [|i] H; cbn; auto; try lia. apply IHn. lia.
Qed.

Lemma nth_error_skipn_add {A} (l : list A) n i : nth_error (skipn n l) i = nth_error l (n + i).
Proof. revert l. induction n; intros [|x l]; cbn; auto. destruct i; reflexivity. Qed.

(** Bit [b] of an element's mask tells whether the group's set number [b] has it. *)
Lemma elem_mask_bit ss x b s : nth_error ss b = Some s ->
  (b / 8 < length (elem_mask ss x))%nat /\
  N.testbit (nth (b / 8) (elem_mask ss x) 0) (N.of_nat (b mod 8)) = mem x (s_elems s).
Proof.
  intros Hb. assert (Lb : (b < length ss)%nat) by (apply nth_error_Some; congruence).
  assert (Q : (b / 8 < (length ss + 7) / 8)%nat).
  { apply Nat.div_lt_upper_bound; [lia|].
    pose proof (Nat.div_mod (length ss + 7) 8 ltac:(lia)).
    pose proof (Nat.mod_upper_bound (length ss + 7) 8 ltac:(lia)). lia. }
  unfold elem_mask. rewrite map_length, seq_length. split; [exact Q|].
  rewrite nth_indep with (d' := (fun b => mask_byte (firstn 8 (skipn (8 * b) ss)) x 1) 0%nat)
    by (rewrite map_length, seq_length; exact Q).
  rewrite (map_nth (fun b => mask_byte (firstn 8 (skipn (8 * b) ss)) x 1)). rewrite seq_nth by exact Q. cbn [Nat.add].
  pose proof (mask_byte_bit (firstn 8 (skipn (8 * (b / 8)) ss)) x 0 ltac:(rewrite firstn_length; lia) (N.of_nat (b mod 8))) as M.
  rewrite N.add_0_l in M. change (2 ^ 0) with 1 in M. rewrite M, Nat2N.id.
  pose proof (Nat.mod_upper_bound b 8 ltac:(lia)).
  rewrite nth_error_firstn_lt by lia. rewrite nth_error_skipn_add.
  rewrite <- Nat.div_mod by lia. rewrite Hb. reflexivity.
Qed.

(** ** Map contents *)
Lemma mem_In x l : mem x l = true <-> In x l.
Proof.
  unfold mem. rewrite existsb_exists. split.
  - intros (y & Hy & E). apply bytes_eqb_eq in E. subst. auto.
  - intros H. exists x. split; auto. apply bytes_eqb_refl.
Qed.

Lemma mem_false x l : mem x l = false <-> ~ In x l.
Proof. rewrite <- mem_In. destruct (mem x l); split; intros; congruence. Qed.

Lemma dedup_In l : forall seen x, In x (dedup seen l) <-> In x l /\ ~ In x seen.
Proof.
  induction l as [|y l IH]; intros seen x; cbn [dedup].
  - split; [intros []|intros [[] _]].
  - destruct (mem y seen) eqn:E.
    + apply mem_In in E. rewrite IH. cbn [In]. split.
      * intros [H1 H2]. auto.
      * intros [[->|H1] H2]; [contradiction|auto].
    + apply mem_false in E. cbn [In]. rewrite IH. cbn [In]. split.
      * intros [->|[H1 H2]]; [auto|]. split; [auto|]. intros H. apply H2. auto.
      * intros [[->|H1] H2]; [auto|].
        destruct (list_eq_dec N.eq_dec y x) as [->|Hne]; [auto|]. right. split; auto.
        intros [->|H]; congruence.
Qed.

Lemma dedup_NoDup l : forall seen, NoDup (dedup seen l).
Proof.
  induction l as [|y l IH]; intros seen; cbn [dedup]; [constructor|].
  destruct (mem y seen); auto. constructor; auto. rewrite dedup_In. intros [_ H]. apply H. left. reflexivity.
Qed.

Lemma hash_find_map f l k : hash_find (map (fun x => (x, f x)) l) k = if mem k l then Some (f k) else None.
Proof.
  unfold mem. induction l as [|x l IH]; cbn [map hash_find existsb]; auto. rewrite IH.
  rewrite (bytes_eqb_sym k x).
  destruct (existsb (bytes_eqb k) l); [rewrite orb_true_r; reflexivity|].
  rewrite orb_false_r. destruct (bytes_eqb x k) eqn:E; auto. apply bytes_eqb_eq in E. subst. reflexivity.
Qed.

Lemma mem_ext x l l' : (In x l <-> In x l') -> mem x l = mem x l'.
Proof. intros H. apply eq_true_iff_eq. rewrite !mem_In. exact H. Qed.

(** Some element covers the address iff the longest match exists. *)
Lemma lpm_find_spec els plen addr : forall best,
  (exists p v, lpm_find els plen addr best = Some (p, v) /\
     (best = Some (p, v) \/ exists k, In (k, v) els /\ lpm_covers k plen addr = true)) \/
  (lpm_find els plen addr best = None /\ best = None /\ forall k v, In (k, v) els -> lpm_covers k plen addr = false).
Proof.
  induction els as [|[k v] els IH]; intros best; cbn [lpm_find].
  - destruct best as [[p w]|]; [left; exists p, w; auto|right; auto]. split; auto. split; auto. intros ? ? [].
  - destruct (lpm_covers k plen addr) eqn:E.
    + assert (G : forall b', b' = best \/ b' = Some (lpm_plen k, v) -> b' <> None ->
        (exists p0 v0, lpm_find els plen addr b' = Some (p0, v0) /\
          (best = Some (p0, v0) \/ (exists k0, In (k0, v0) ((k, v) :: els) /\ lpm_covers k0 plen addr = true)))).
      { intros b' Hb' Hn. destruct (IH b') as [(p & w & H & [H'|(k' & Hk & Hc)])|(H & H' & _)]; [| |congruence].
        - exists p, w. split; auto. destruct Hb' as [->| ->]; [auto|]. injection H' as <- <-. right.
          exists k. split; [left; auto|auto].
        - exists p, w. split; auto. right. exists k'. split; [right; auto|auto]. }
      left. destruct best as [[p w]|].
      * destruct (lpm_plen k <? p); apply G; auto; discriminate.
      * apply G; auto. discriminate.
    + destruct (IH best) as [(p & w & H & [H'|(k' & Hk & Hc)])|(H & H' & Hall)].
      * left. exists p, w. auto.
      * left. exists p, w. split; auto. right. exists k'. split; [right; auto|auto].
      * right. split; auto. split; auto. intros k' v' [Heq|Hin]; [injection Heq as <- <-; auto|eauto].
Qed.

Lemma bits_agree_firstn a b n m : (m <= 8 * n)%nat -> bits_agree (firstn n a) b m = bits_agree a b m.
Proof.
  intros H. induction m as [|m IH]; cbn [bits_agree]; auto. rewrite IH by lia. f_equal. f_equal.
  unfold bit_at. f_equal.
  assert (Q : (m / 8 < n)%nat) by (apply Nat.div_lt_upper_bound; lia).
  clear - Q. revert a Q. generalize (m / 8)%nat. intros i.
  revert n. induction i; intros [|n] [|x a] Q; cbn; auto; try lia. apply IHi. lia.
Qed.
