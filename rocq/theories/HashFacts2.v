(** Representation invariant of the hash set and its preservation by every call. *)
From Coq Require Import NArith List Bool Arith Lia.
From Verif Require Import Bytes GenModel ListSpec ListModel ListFacts HashSpec HashModel HashFacts.
Import ListNotations.
Local Open Scope res_scope.
Local Open Scope N_scope.

Section Facts.
Context {A : Type} (eqb : A -> A -> bool) (hash : A -> N).
Hypothesis good : good_callbacks eqb hash.
Implicit Types (s : hset A) (l : list (nat * A)) (x : A).

(** The table holds exactly the elements of [l], each reachable from its home. *)
Record table (slots : list slot) (cap : N) l : Prop := mkT
  { t_size : size slots = cap
  ; t_elems : count is_elem slots = N.of_nat (length l)
  ; t_home : forall a d, In (a, d) l -> exists j, j < cap /\
      sat slots (pos cap (hash d) j) = Elem a /\
      forall k, k < j -> sat slots (pos cap (hash d) k) <> Empty
  ; t_live : forall i a, i < cap -> sat slots i = Elem a -> In a (handles l)
  ; t_uniq : forall i j a, i < cap -> j < cap ->
      sat slots i = Elem a -> sat slots j = Elem a -> i = j }.

Definition capacity (c : N) : Prop := exists k, 4 <= k /\ k <= 60 /\ c = 2 ^ k.
Lemma capacity_ge c : capacity c -> 16 <= c.
Proof. intros (k & H1 & _ & ->). change 16 with (2 ^ 4). apply N.pow_le_mono_r; lia. Qed.
Lemma capacity_max c : capacity c -> c <= MAX_CAP.
Proof. intros (k & _ & H & ->). change MAX_CAP with (2 ^ 60). apply N.pow_le_mono_r; lia. Qed.

Record hrep s l : Prop := mkR
  { hr_list : rep (h_list s) l
  ; hr_table : table (h_slots s) (h_cap s) l
  ; hr_cap : h_cap s = 0 \/ capacity (h_cap s)
  ; hr_used : h_used s = count nonempty (h_slots s)
  ; hr_load : 2 * h_used s <= h_cap s + 1
  ; hr_dist : distinct eqb (map snd l) }.

Lemma elem_le_used slots : count is_elem slots <= count nonempty slots.
Proof. apply count_mono. intros []; cbn; congruence. Qed.

Lemma handles_data l a : In a (handles l) -> exists d, In (a, d) l.
Proof. intros H. apply in_map_iff in H as ([b d] & E & H). cbn in E. subst. eauto. Qed.

Lemma same_data s l a d d' : rep (h_list s) l -> In (a, d) l ->
  l_mem (h_list s) a = Some d' -> nd_data d' = d.
Proof.
  intros R Hi E. destruct (seg_in _ _ _ _ _ _ (rep_seg _ _ R) Hi) as (q & r & E2).
  rewrite E in E2. inversion E2. reflexivity.
Qed.

(** *** Searching *)
Definition search_result slots cap l x (r : option N * option N) : Prop :=
  match r with
  | (Some i, _) => exists a d, i < cap /\ sat slots i = Elem a /\ In (a, d) l /\ eqb d x = true
  | (None, Some f) =>
      (forall a d, In (a, d) l -> eqb d x = false) /\
      exists j, j < cap /\ f = pos cap (hash x) j /\ is_elem (sat slots f) = false /\
        forall k, k < j -> sat slots (pos cap (hash x) k) <> Empty
  | (None, None) => False
  end.

Lemma probe_ok (lst0 : lst A) slots cap l x :
  rep lst0 l -> table slots cap l -> cap <> 0 -> count nonempty slots < cap ->
  forall fuel k free, k + N.of_nat fuel = cap ->
    (forall j, j < k -> sat slots (pos cap (hash x) j) <> Empty /\
       forall a d, sat slots (pos cap (hash x) j) = Elem a -> In (a, d) l -> eqb d x = false) ->
    (match free with
     | None => True
     | Some f => exists j, j < k /\ f = pos cap (hash x) j /\ sat slots f = Tomb
     end) ->
    exists r, probe eqb (l_mem lst0) slots cap x fuel (pos cap (hash x) k) free = Ok r /\
      search_result slots cap l x r.
Proof.
  intros R T Hc Hlt. induction fuel as [|fuel IH]; intros k free Hk Hseen Hfree.
  - exfalso. rewrite <- (t_size _ _ _ T) in Hlt. destruct (has_empty _ Hlt) as (i & Hi & E).
    rewrite (t_size _ _ _ T) in Hi. destruct (pos_cover cap (hash x) i Hc Hi) as (j & Hj & Ej).
    destruct (Hseen j ltac:(lia)) as [H _]. now rewrite Ej in H.
  - cbn [probe]. rewrite get_slot_ok by (rewrite (t_size _ _ _ T); now apply pos_lt). cbn [bind].
    rewrite pos_next by assumption.
    assert (Hf : forall v, sat slots (pos cap (hash x) k) = v -> v <> Empty ->
      (forall a d, v = Elem a -> In (a, d) l -> eqb d x = false) ->
      forall j, j < k + 1 -> sat slots (pos cap (hash x) j) <> Empty /\
       forall a d, sat slots (pos cap (hash x) j) = Elem a -> In (a, d) l -> eqb d x = false).
    { intros v Ev Hv Hd j Hj. destruct (N.eq_dec j k) as [->|Hjk].
      - rewrite Ev. auto.
      - apply Hseen. lia. }
    destruct (sat slots (pos cap (hash x) k)) as [| |p] eqn:Ek.
    + (* empty: stop *)
      eexists. split; [reflexivity|]. cbn. split.
      * intros a d Hi. destruct (eqb d x) eqn:Ed; [|reflexivity]. exfalso.
        destruct (t_home _ _ _ T a d Hi) as (j & Hj & E1 & E2).
        destruct good as (_ & _ & _ & Hh). rewrite (Hh d x Ed) in *.
        destruct (N.lt_trichotomy j k) as [C|[C|C]].
        -- destruct (Hseen j C) as [_ C2]. rewrite (C2 a d E1 Hi) in Ed. discriminate.
        -- subst. congruence.
        -- now apply (E2 k C).
      * destruct free as [f|].
        -- destruct Hfree as (j & Hj & -> & Et). exists j. split; [lia|]. split; [reflexivity|].
           rewrite Et. split; [reflexivity|]. intros k' Hk'. apply Hseen. lia.
        -- exists k. split; [lia|]. split; [reflexivity|]. rewrite Ek. split; [reflexivity|].
           intros k' Hk'. now apply Hseen.
    + (* tombstone *)
      apply IH; [lia| |].
      * apply (Hf Tomb); [reflexivity|discriminate|discriminate].
      * destruct free as [f|].
        -- destruct Hfree as (j & Hj & -> & Et). exists j. split; [lia|auto].
        -- exists k. split; [lia|auto].
    + (* element *)
      assert (Hp : In p (handles l)).
      { eapply (t_live _ _ _ T); [|exact Ek]. now apply pos_lt. }
      destruct (handles_data l p Hp) as (d & Hd).
      destruct (seg_in _ _ _ _ _ _ (rep_seg _ _ R) Hd) as (q & r & E2).
      rewrite (ld_some _ _ _ E2). cbn [bind nd_data].
      destruct (eqb d x) eqn:Edx.
      * eexists. split; [reflexivity|]. cbn. exists p, d. split; [now apply pos_lt|auto].
      * apply IH; [lia| |].
        -- apply (Hf (Elem p)); [reflexivity|discriminate|].
           intros a d' Ea Hi. inversion Ea. subst a.
           destruct (seg_in _ _ _ _ _ _ (rep_seg _ _ R) Hi) as (q' & r' & E3).
           rewrite E2 in E3. inversion E3. congruence.
        -- destruct free as [f|]; [|trivial].
           destruct Hfree as (j & Hj & -> & Et). exists j. split; [lia|auto].
Qed.

Lemma used_lt s l : hrep s l -> h_cap s <> 0 -> count nonempty (h_slots s) < h_cap s.
Proof.
  intros R H. rewrite <- (hr_used _ _ R). pose proof (hr_load _ _ R).
  destruct (hr_cap _ _ R) as [|C]; [lia|]. pose proof (capacity_ge _ C). lia.
Qed.

Lemma hfind_ok s l x : hrep s l -> h_cap s <> 0 ->
  exists r, hfind eqb hash s x = Ok r /\ search_result (h_slots s) (h_cap s) l x r.
Proof.
  intros R H. unfold hfind. destruct (N.eqb_spec (h_cap s) 0) as [|_]; [contradiction|].
  unfold index. rewrite <- (pos_0 (h_cap s) (hash x) H).
  apply (probe_ok (h_list s) (h_slots s) (h_cap s) l x (hr_list _ _ R) (hr_table _ _ R) H (used_lt s l R H)).
  - lia.
  - intros; lia.
  - trivial.
Qed.

Lemma cap0_nil s l : hrep s l -> h_cap s = 0 -> l = [].
Proof.
  intros R H. pose proof (hr_table _ _ R) as T. rewrite H in T.
  destruct l as [|[a d] r]; [reflexivity|].
  destruct (t_home _ _ _ T a d) as (j & Hj & _); [now left|]. lia.
Qed.

Lemma hfind_cases s l x : hrep s l ->
  exists r, hfind eqb hash s x = Ok r /\
   match fst r with
   | Some i => exists a d, i < h_cap s /\ sat (h_slots s) i = Elem a /\ In (a, d) l /\ eqb d x = true
   | None => (forall a d, In (a, d) l -> eqb d x = false) /\
       (h_cap s <> 0 -> search_result (h_slots s) (h_cap s) l x r)
   end.
Proof.
  intros R. destruct (N.eq_dec (h_cap s) 0) as [H|H].
  - pose proof (cap0_nil s l R H) as ->. unfold hfind.
    destruct (N.eqb_spec (h_cap s) 0) as [_|]; [|contradiction].
    eexists. split; [reflexivity|]. cbn. split; [intros ? ? []|contradiction].
  - destruct (hfind_ok s l x R H) as (r & E & S). exists r. split; [assumption|].
    destruct r as [[i|] f]; cbn [fst]; cbn [search_result] in S; [exact S|].
    destruct f as [f|]; [|destruct S]. split; [now destruct S|]. intros _. exact S.
Qed.

Lemma member_false l x : (forall a d, In (a, d) l -> eqb d x = false) ->
  member eqb (map snd l) x = false.
Proof.
  intros H. unfold member. apply not_true_is_false. intros C.
  apply existsb_exists in C as (y & Hy & Ey). apply in_map_iff in Hy as ([a d] & E & Hi).
  cbn in E. subst. rewrite (H a y Hi) in Ey. discriminate.
Qed.
Lemma member_true l a d x : In (a, d) l -> eqb d x = true -> member eqb (map snd l) x = true.
Proof.
  intros Hi E. unfold member. apply existsb_exists. exists d. split; [|assumption].
  apply in_map_iff. now exists (a, d).
Qed.

(** *** Rebuilding the table *)
Lemma first_null_ok slots cap h : size slots = cap -> cap <> 0 -> count nonempty slots < cap ->
  forall fuel k, k + N.of_nat fuel = cap + 1 ->
    (forall j, j < k -> sat slots (pos cap h j) <> Empty) ->
    exists j, j < cap /\ first_null fuel slots cap (pos cap h k) = Ok (pos cap h j) /\
      sat slots (pos cap h j) = Empty /\
      forall i, i < j -> sat slots (pos cap h i) <> Empty.
Proof.
  intros Hs Hc Hlt. rewrite <- Hs in Hlt. destruct (has_empty _ Hlt) as (i0 & Hi0 & E0).
  rewrite Hs in Hi0. destruct (pos_cover cap h i0 Hc Hi0) as (j0 & Hj0 & Ej0). rewrite <- Ej0 in E0.
  induction fuel as [|fuel IH]; intros k Hk Hseen.
  - exfalso. apply (Hseen j0); [lia|assumption].
  - cbn [first_null]. rewrite get_slot_ok by (rewrite Hs; now apply pos_lt). cbn [bind].
    rewrite pos_next by assumption.
    destruct (sat slots (pos cap h k)) eqn:Ek.
    + exists k. split; [|auto]. destruct (N.ltb_spec k cap); [assumption|].
      exfalso. apply (Hseen j0); [lia|assumption].
    + apply IH; [lia|]. intros j Hj. destruct (N.eq_dec j k) as [->|]; [congruence|apply Hseen; lia].
    + apply IH; [lia|]. intros j Hj. destruct (N.eq_dec j k) as [->|]; [congruence|apply Hseen; lia].
Qed.

(** Putting a new element in the slot the search designates. *)
Lemma table_put slots cap l a d j : table slots cap l -> cap <> 0 -> ~ In a (handles l) ->
  j < cap -> is_elem (sat slots (pos cap (hash d) j)) = false ->
  (forall k, k < j -> sat slots (pos cap (hash d) k) <> Empty) ->
  table (set_slot slots (pos cap (hash d) j) (Elem a)) cap (l ++ [(a, d)]).
Proof.
  intros T Hc Ha Hj He Hb. set (f := pos cap (hash d) j) in *.
  assert (Hf : f < cap) by (now apply pos_lt).
  assert (Hfs : f < size slots) by (now rewrite (t_size _ _ _ T)).
  constructor.
  - rewrite set_slot_size by assumption. exact (t_size _ _ _ T).
  - pose proof (count_set is_elem slots f (Elem a) Hfs) as C. rewrite He in C. cbn [is_elem] in C.
    rewrite (t_elems _ _ _ T) in C. rewrite app_length. cbn [length]. lia.
  - intros b e Hi. apply in_app_iff in Hi as [Hi|[E|[]]].
    + destruct (t_home _ _ _ T b e Hi) as (i & H1 & H2 & H3). exists i. split; [assumption|]. split.
      * rewrite sat_set by assumption. destruct (N.eqb_spec (pos cap (hash e) i) f) as [E|]; [|assumption].
        rewrite E in H2. rewrite H2 in He. discriminate.
      * intros k Hk. rewrite sat_set by assumption.
        destruct (N.eqb_spec (pos cap (hash e) k) f); [discriminate|now apply H3].
    + inversion E; subst b e. exists j. split; [assumption|]. fold f. split.
      * rewrite sat_set by assumption. now rewrite N.eqb_refl.
      * intros k Hk. rewrite sat_set by assumption.
        destruct (N.eqb_spec (pos cap (hash d) k) f); [discriminate|now apply Hb].
  - intros i b Hi E. rewrite handles_app, in_app_iff. rewrite sat_set in E by assumption.
    destruct (N.eqb_spec i f).
    + inversion E. right. now left.
    + left. eapply (t_live _ _ _ T); eassumption.
  - intros i i' b Hi Hi' E E'. rewrite sat_set in E, E' by assumption.
    destruct (N.eqb_spec i f), (N.eqb_spec i' f).
    + congruence.
    + inversion E; subst b. exfalso. apply Ha. eapply (t_live _ _ _ T); eassumption.
    + inversion E'; subst b. exfalso. apply Ha. exact (t_live _ _ _ T i a Hi E).
    + eapply (t_uniq _ _ _ T); eassumption.
Qed.

Lemma table_nil cap : table (repeat Empty (N.to_nat cap)) cap [].
Proof.
  constructor.
  - rewrite size_repeat. lia.
  - now destruct (count_repeat (N.to_nat cap)) as [_ ->].
  - intros ? ? [].
  - intros i a _ E. now rewrite sat_repeat in E.
  - intros i j a _ _ E. now rewrite sat_repeat in E.
Qed.

Lemma resize_ok tb s l new_cap : hrep s l -> capacity new_cap ->
  h_cap s < new_cap ->
  exists s', resize hash tb s new_cap = Ok (s', if tb new_cap then 0 else ENOMEM) /\ hrep s' l /\
    (tb new_cap = false -> s' = s) /\
    (tb new_cap = true -> h_cap s' = new_cap /\ h_used s' = l_len (h_list s)).
Proof.
  intros R HC Hgt. pose proof (capacity_ge _ HC) as H16. pose proof (hr_list _ _ R) as RL. pose proof (hr_table _ _ R) as T.
  assert (Hlen : 2 * N.of_nat (length l) <= h_cap s + 1).
  { pose proof (elem_le_used (h_slots s)). rewrite (t_elems _ _ _ T), <- (hr_used _ _ R) in H.
    pose proof (hr_load _ _ R). lia. }
  unfold resize. rewrite (rep_len _ _ RL).
  destruct (N.leb_spec new_cap (N.of_nat (length l))); [lia|].
  destruct (tb new_cap); cbn [negb].
  2:{ exists s. split; [reflexivity|]. split; [assumption|]. split; [auto|discriminate]. }
  destruct (foreach_rel (fst : cells A * list slot -> cells A) (reinsert hash new_cap)
    (fun todo y => fst y = l_mem (h_list s) /\ exists before, l = before ++ todo /\
       table (snd y) new_cap before /\ count nonempty (snd y) = N.of_nat (length before)))
    with (l := l) (fuel := rounds (h_list s)) (p := @None nat)
      (s := (l_mem (h_list s), repeat Empty (N.to_nat new_cap)))
    as (x & E & E1 & before & E2 & T' & C').
  - intros [a d] r [h0 sl] p Hs [E0 (before & E2 & T0 & C0)] Hn. cbn [fst snd] in *. subst h0.
    destruct Hs as [Hs1 Hs2]. cbn [fst snd] in Hs1, Hs2.
    unfold reinsert. cbn [fst snd]. rewrite (ld_some _ _ _ Hs1). cbn [bind nd_data].
    assert (Hlb : N.of_nat (length before) < new_cap).
    { rewrite E2, app_length in Hlen. cbn [length] in Hlen. lia. }
    rewrite <- (pos_0 new_cap (hash d)) by lia.
    destruct (first_null_ok sl new_cap (hash d) (t_size _ _ _ T0) ltac:(lia) ltac:(lia)
       (S (N.to_nat new_cap)) 0) as (j & Hj & Ej & He & Hb); [lia|intros; lia|].
    rewrite Ej. cbn [bind]. eexists. split; [reflexivity|]. cbn [fst snd]. split.
    + split; [reflexivity|]. exists (before ++ [(a, d)]). rewrite <- app_assoc. split; [exact E2|].
      assert (Hsz : pos new_cap (hash d) j < size sl).
      { rewrite (t_size _ _ _ T0). apply pos_lt. lia. }
      split.
      * apply table_put; [exact T0|lia| |exact Hj|now rewrite He|exact Hb].
        pose proof (rep_nodup _ _ RL) as Hnd. rewrite E2 in Hnd.
        now destruct (nodup_mid _ _ _ Hnd) as (? & _ & _).
      * pose proof (count_set nonempty sl _ (Elem a) Hsz) as C. rewrite He in C. cbn [nonempty] in C.
        rewrite app_length. cbn [length]. lia.
    + eauto.
  - now apply rounds_gt.
  - exact (rep_seg _ _ RL).
  - exact (rep_nodup _ _ RL).
  - cbn [fst snd]. split; [reflexivity|]. exists []. split; [reflexivity|]. split; [apply table_nil|].
    now destruct (count_repeat (N.to_nat new_cap)) as [-> _].
  - rewrite app_nil_r in E2. subst before.
    rewrite (rep_head _ _ RL). rewrite E. cbn [bind].
    eexists. split; [reflexivity|]. split; [|split; [discriminate|auto]].
    constructor; cbn [h_list h_slots h_cap h_used].
    + exact RL.
    + exact T'.
    + now right.
    + now rewrite C'.
    + lia.
    + exact (hr_dist _ _ R).
Qed.

Lemma grow_ok tb s l : hrep s l ->
  exists s' rc, grow hash tb s = Ok (s', rc) /\ hrep s' l /\
   ((rc = ENOMEM /\ s' = s /\ (MAX_CAP <= h_cap s \/ exists n, tb n = false)) \/
    (rc = 0 /\ 16 <= h_cap s' /\ h_cap s < h_cap s' /\ 2 * h_cap s <= h_cap s' /\
     h_used s' = l_len (h_list s))).
Proof.
  intros R. unfold grow. destruct (N.leb_spec MAX_CAP (h_cap s)) as [Hm|Hm].
  - exists s, ENOMEM. split; [reflexivity|]. split; [assumption|]. left. auto.
  - set (nc := if h_cap s =? 0 then INIT_CAP else mul64 (h_cap s) 2).
    assert (Hnc : capacity nc /\ h_cap s < nc /\ 2 * h_cap s <= nc).
    { unfold nc. destruct (N.eqb_spec (h_cap s) 0) as [E|E].
      - rewrite E. split; [|unfold INIT_CAP; lia]. exists 4. split; [lia|]. split; [lia|reflexivity].
      - destruct (hr_cap _ _ R) as [|(k & K1 & K2 & K3)]; [contradiction|].
        assert (Hk : k < 60).
        { apply (N.pow_lt_mono_r_iff 2); [lia|]. rewrite <- K3. exact Hm. }
        unfold mul64. rewrite N.mod_small; [|unfold MAX_CAP, two64 in *; lia].
        split; [|lia]. exists (k + 1). split; [lia|]. split; [lia|].
        rewrite N.pow_add_r, K3. reflexivity. }
    destruct Hnc as (HC & H1 & H2).
    destruct (resize_ok tb s l nc R HC H1) as (s' & E & R' & F & G).
    destruct (tb nc) eqn:Et.
    + exists s', 0. split; [exact E|]. split; [assumption|]. right.
      destruct (G eq_refl) as [-> ->]. pose proof (capacity_ge _ HC). auto 6.
    + exists s', ENOMEM. split; [exact E|]. split; [assumption|]. left.
      split; [reflexivity|]. split; [auto|]. right. eauto.
Qed.

(** *** Insertion *)
Lemma distinct_snoc (l : list A) x : distinct eqb l -> member eqb l x = false -> distinct eqb (l ++ [x]).
Proof.
  induction l as [|y r IH]; cbn; intros H M.
  - split; [intros ? []|trivial].
  - apply orb_false_iff in M as [M1 M2]. destruct H as [H1 H2]. split; [|auto].
    intros z Hz. apply in_app_iff in Hz as [Hz|[<-|[]]]; auto.
Qed.

Lemma insert_ok nd s l x free : hrep s l -> h_cap s <> 0 -> 2 * h_used s < h_cap s ->
  search_result (h_slots s) (h_cap s) l x (None, free) ->
  exists s' rc, insert nd s x free = Ok (s', rc) /\
    ((rc = ENOMEM /\ usable l nd = None /\ s' = s) \/
     (rc = 0 /\ exists p, usable l nd = Some p /\ hrep s' (l ++ [(p, x)]))).
Proof.
  intros R Hc Hload S. pose proof (hr_list _ _ R) as RL. pose proof (hr_table _ _ R) as T.
  unfold insert. rewrite (usable_malloc _ _ nd RL).
  destruct (usable l nd) as [p|] eqn:U.
  2:{ exists s, ENOMEM. split; [reflexivity|]. left. auto. }
  destruct free as [f|]; [|destruct S]. destruct S as (Hnew & j & Hj & -> & He & Hb).
  cbn [bind]. set (f := pos (h_cap s) (hash x) j) in *.
  assert (Hf : f < h_cap s) by (now apply pos_lt).
  assert (Hfs : f < size (h_slots s)) by (now rewrite (t_size _ _ _ T)).
  rewrite get_slot_ok by assumption. cbn [bind].
  (* the linked list part is exactly bf_list_add_tail *)
  destruct (list_add_tail_ok (h_list s) l nd x RL) as (l' & El & RL').
  rewrite U in El, RL'. unfold list_add_tail, node_new in El.
  rewrite (usable_malloc _ _ nd RL), U in El.
  unfold set_prev at 1 in El. rewrite (ld_some _ p _ (upd_same _ _ _)) in El.
  cbn [bind nd_data nd_next] in El.
  pose proof (usable_some l nd p U) as Hp.
  set (h1 := upd (upd (l_mem (h_list s)) p (Some (mkNode x None None))) p
                 (Some (mkNode x (l_tail (h_list s)) None))) in *.
  set (h1' := upd (l_mem (h_list s)) p (Some (mkNode x (l_tail (h_list s)) None))).
  assert (Hext : forall a, h1 a = h1' a).
  { intros a. unfold h1, h1', upd. now destruct (Nat.eqb a p). }
  assert (Hh : exists h2 h2',
      (match l_tail (h_list s) with Some q => set_next h1 q (Some p) | None => Ok h1 end) = Ok h2 /\
      (match l_tail (h_list s) with Some q => set_next h1' q (Some p) | None => Ok h1' end) = Ok h2' /\
      forall a, h2 a = h2' a).
  { destruct (l_tail (h_list s)) as [t|].
    - unfold set_next in *. unfold ld in *. rewrite <- (Hext t).
      destruct (h1 t) as [n|]; [|discriminate El]. cbn [bind].
      eexists _, _. split; [reflexivity|]. split; [reflexivity|].
      intros a. unfold upd. destruct (Nat.eqb a t); [reflexivity|apply Hext].
    - eexists _, _. split; [reflexivity|]. split; [reflexivity|]. exact Hext. }
  destruct Hh as (h2 & h2' & E2 & E2' & Hext2).
  rewrite E2 in El. cbn [bind] in El. rewrite E2'. cbn [bind].
  inversion El as [El']. clear El.
  eexists _, 0. split; [reflexivity|]. right. split; [reflexivity|]. exists p. split; [reflexivity|].
  pose proof (table_put _ _ _ p x j T Hc Hp Hj He Hb) as T'. fold f in T'.
  constructor; cbn [h_list h_slots h_cap h_used].
  - subst l'. destruct RL' as [q1 q2 q3 q4 q5 q6]. cbn [l_mem l_head l_tail l_len] in *.
    constructor; cbn [l_mem l_head l_tail l_len]; auto.
    + clear - q1 Hext2. revert q1. generalize (@None nat) at 1 3. generalize (l ++ [(p, x)]).
      intros m. induction m as [|e r IH]; intros o Hs; [trivial|]. destruct Hs as [H1 H2].
      split; [now rewrite <- Hext2|auto].
    + rewrite <- q3. rewrite (rep_head _ _ RL), (rep_tail _ _ RL).
      destruct l as [|e r]; [reflexivity|]. cbn [first final].
      destruct (final r (Some (fst e))) eqn:E; [reflexivity|now apply final_some in E].
    + intros a Ha. apply q6. now rewrite Hext2.
  - exact T'.
  - exact (hr_cap _ _ R).
  - pose proof (count_set nonempty (h_slots s) f (Elem p) Hfs) as C. cbn [nonempty] in C.
    rewrite (hr_used _ _ R). destruct (sat (h_slots s) f); cbn [nonempty is_elem] in *; [lia|lia|discriminate].
  - destruct (sat (h_slots s) f); lia.
  - rewrite map_app. cbn [map snd]. apply distinct_snoc; [exact (hr_dist _ _ R)|now apply member_false].
Qed.

Lemma needs_grow_ok s l : hrep s l -> needs_grow s = (h_cap s <=? 2 * h_used s).
Proof.
  intros R. unfold needs_grow, mul64.
  assert (h_cap s <= MAX_CAP).
  { destruct (hr_cap _ _ R) as [->|C]; [unfold MAX_CAP; lia|now apply capacity_max]. }
  pose proof (hr_load _ _ R). unfold MAX_CAP, two64 in *.
  rewrite !N.mod_small by lia.
  destruct (N.leb_spec (h_cap s) (2 * h_used s)), (N.leb_spec (h_cap s * 5) (h_used s * 10)); lia.
Qed.

(** bf_hashset_add: duplicate refused; added at the end; or out of memory, and
    then only for want of memory or at the maximal capacity. *)
Lemma hadd_ok nd tb s l x : hrep s l ->
  exists s' rc l', hadd eqb hash nd tb s x = Ok (s', rc) /\ hrep s' l' /\
    ((rc = EEXIST /\ l' = l /\ member eqb (map snd l) x = true) \/
     (rc = ENOMEM /\ l' = l /\ member eqb (map snd l) x = false /\
       (usable l nd = None \/ (exists n, tb n = false) \/ MAX_CAP <= h_cap s)) \/
     (rc = 0 /\ member eqb (map snd l) x = false /\ exists p, usable l nd = Some p /\ l' = l ++ [(p, x)])).
Proof.
  intros R. unfold hadd. destruct (hfind_cases s l x R) as (r & E & S). rewrite E. cbn [bind].
  destruct (fst r) as [i|] eqn:Er.
  - destruct S as (a & d & _ & _ & Hi & Ed). exists s, EEXIST, l. split; [reflexivity|].
    split; [assumption|]. left. split; [reflexivity|]. split; [reflexivity|]. eapply member_true; eassumption.
  - destruct S as [Hnew S]. pose proof (member_false l x Hnew) as M.
    assert (Hlen : l_len (h_list s) <= h_cap s).
    { rewrite (rep_len _ _ (hr_list _ _ R)). rewrite <- (t_elems _ _ _ (hr_table _ _ R)).
      rewrite <- (t_size _ _ _ (hr_table _ _ R)). apply count_le_size. }
    destruct (N.leb_spec MAX_CAP (l_len (h_list s))) as [Hm|Hm].
    { exists s, ENOMEM, l. split; [reflexivity|]. split; [assumption|]. right. left.
      split; [reflexivity|]. split; [reflexivity|]. split; [assumption|]. right. right. lia. }
    rewrite (needs_grow_ok s l R). destruct (N.leb_spec (h_cap s) (2 * h_used s)) as [Hg|Hg].
    + destruct (grow_ok tb s l R) as (s1 & rc & Eg & R1 & G). rewrite Eg. cbn [bind fst snd].
      destruct G as [(-> & -> & G)|(-> & G1 & G2 & G3 & G4)].
      * cbn. exists s, ENOMEM, l. split; [reflexivity|]. split; [assumption|]. right. left.
        split; [reflexivity|]. split; [reflexivity|]. split; [assumption|]. right. tauto.
      * cbn [N.eqb]. destruct (hfind_cases s1 l x R1) as (r1 & E1 & S1). rewrite E1. cbn [bind].
        destruct (fst r1) as [i|] eqn:Er1.
        { exfalso. destruct S1 as (a & d & _ & _ & Hi & Ed). rewrite (Hnew a d Hi) in Ed. discriminate. }
        destruct S1 as [_ S1].
        destruct (insert_ok nd s1 l x (snd r1) R1 ltac:(lia)) as (s2 & rc & E2 & I).
        -- rewrite G4. rewrite (rep_len _ _ (hr_list _ _ R)).
           pose proof (elem_le_used (h_slots s)) as C. rewrite (t_elems _ _ _ (hr_table _ _ R)), <- (hr_used _ _ R) in C.
           pose proof (hr_load _ _ R). destruct (hr_cap _ _ R) as [C0|C0].
           ++ lia.
           ++ pose proof (capacity_ge _ C0). lia.
        -- destruct r1 as [o1 o2]. cbn [fst snd] in *. subst o1. apply S1. lia.
        -- rewrite E2. destruct I as [(-> & U & ->)|(-> & p & U & R2)].
           ++ exists s1, ENOMEM, l. split; [reflexivity|]. split; [assumption|]. right. left. auto.
           ++ exists s2, 0, (l ++ [(p, x)]). split; [reflexivity|]. split; [assumption|]. right. right. eauto.
    + assert (Hc : h_cap s <> 0) by lia.
      destruct (insert_ok nd s l x (snd r) R Hc Hg) as (s2 & rc & E2 & I).
      * destruct r as [o1 o2]. cbn [fst snd] in *. subst o1. now apply S.
      * rewrite E2. destruct I as [(-> & U & ->)|(-> & p & U & R2)].
        -- exists s, ENOMEM, l. split; [reflexivity|]. split; [assumption|]. right. left. auto.
        -- exists s2, 0, (l ++ [(p, x)]). split; [reflexivity|]. split; [assumption|]. right. right. eauto.
Qed.

(** *** Removal *)
Lemma distinct_app_inv (l1 : list A) y (l2 : list A) : distinct eqb (l1 ++ y :: l2) ->
  distinct eqb (l1 ++ l2) /\ (forall z, In z (l1 ++ l2) -> eqb z y = false).
Proof.
  destruct good as (Hr & Hs & Ht & _).
  induction l1 as [|z r IH]; cbn; intros H.
  - destruct H as [H1 H2]. split; [assumption|]. intros z Hz.
    destruct (eqb z y) eqn:E; [|reflexivity]. apply Hs in E. now rewrite (H1 z Hz) in E.
  - destruct H as [H1 H2]. destruct (IH H2) as [I1 I2]. split.
    + split; [|assumption]. intros w Hw. apply H1. rewrite in_app_iff in *. cbn. tauto.
    + intros w [<-|Hw]; [|auto]. apply H1. rewrite in_app_iff. right. now left.
Qed.
Lemma minus_mid (l1 : list A) y (l2 : list A) x : distinct eqb (l1 ++ y :: l2) -> eqb y x = true ->
  minus eqb (l1 ++ y :: l2) x = l1 ++ l2.
Proof.
  intros D E. destruct (distinct_app_inv _ _ _ D) as [_ H]. destruct good as (Hr & Hs & Ht & _).
  assert (G : forall z, In z (l1 ++ l2) -> eqb z x = false).
  { intros z Hz. destruct (eqb z x) eqn:Ez; [|reflexivity].
    rewrite <- (H z Hz). symmetry. eapply Ht; [exact Ez|]. now apply Hs. }
  unfold minus. rewrite filter_app. cbn [filter]. rewrite E. cbn [negb].
  assert (F : forall m, (forall z, In z m -> eqb z x = false) -> filter (fun y => negb (eqb y x)) m = m).
  { induction m as [|z r IH]; intros Hm; [reflexivity|]. cbn. rewrite (Hm z) by now left. cbn.
    rewrite IH; [reflexivity|]. intros; apply Hm; now right. }
  rewrite !F; [reflexivity| |]; intros z Hz; apply G; rewrite in_app_iff; tauto.
Qed.

Lemma hunlink_ok s l1 a d l2 i : hrep s (l1 ++ (a, d) :: l2) -> i < h_cap s ->
  sat (h_slots s) i = Elem a ->
  exists s', hunlink s i = Ok s' /\ hrep s' (l1 ++ l2).
Proof.
  intros R Hi Es. pose proof (hr_list _ _ R) as RL. pose proof (hr_table _ _ R) as T.
  pose proof (rep_nodup _ _ RL) as Hn. pose proof (rep_seg _ _ RL) as Hs.
  destruct (nodup_mid l1 (a,d) l2 Hn) as (Ha1 & Ha2 & Hn12). cbn [fst] in Ha1, Ha2.
  assert (His : i < size (h_slots s)) by (now rewrite (t_size _ _ _ T)).
  destruct (unlink_seg _ l1 a d l2 Hn Hs) as (h1 & h2 & h3 & E1 & E2 & E3 & Hseg & _ & Ht & _).
  unfold hunlink. rewrite get_slot_ok, Es by assumption. cbn [bind].
  assert (Ha : l_mem (h_list s) a = Some (mkNode d (final l1 None) (first l2 None))).
  { apply seg_app in Hs as [_ [Hs _]]. exact Hs. }
  rewrite (ld_some _ _ _ Ha). cbn [bind nd_data nd_prev nd_next].
  rewrite E1. cbn [bind]. rewrite E2. cbn [bind]. rewrite E3. cbn [bind].
  eexists. split; [reflexivity|]. constructor; cbn [h_list h_slots h_cap h_used].
  - constructor; cbn [l_mem l_head l_tail l_len].
    + exact Hseg.
    + assumption.
    + rewrite (rep_head _ _ RL). destruct l1 as [|e r]; [reflexivity|]. cbn [final first app].
      destruct (final r (Some (fst e))) eqn:E; [reflexivity|now apply final_some in E].
    + rewrite (rep_tail _ _ RL). rewrite !final_app. cbn [final fst].
      destruct l2 as [|e r]; [reflexivity|]. reflexivity.
    + rewrite (rep_len _ _ RL), !app_length. cbn [length]. lia.
    + intros b Hb. destruct (Ht b Hb) as [Hba Hh].
      pose proof (rep_tight _ _ RL b Hh) as Hin. rewrite handles_app, in_app_iff in *.
      cbn in Hin. destruct Hin as [|[|]]; [tauto|congruence|tauto].
  - constructor.
    + rewrite set_slot_size by assumption. exact (t_size _ _ _ T).
    + pose proof (count_set is_elem (h_slots s) i Tomb His) as C. rewrite Es in C. cbn [is_elem] in C.
      rewrite (t_elems _ _ _ T), app_length in C. rewrite app_length. cbn [length] in C. lia.
    + intros b e Hin. destruct (t_home _ _ _ T b e) as (j & J1 & J2 & J3).
      { rewrite in_app_iff in *. cbn. tauto. }
      assert (Hba : b <> a).
      { intros ->. apply (in_map fst) in Hin. cbn in Hin. fold (handles (l1 ++ l2)) in Hin.
        rewrite handles_app, in_app_iff in Hin. tauto. }
      exists j. split; [assumption|]. split.
      * rewrite sat_set by assumption. destruct (N.eqb_spec (pos (h_cap s) (hash e) j) i) as [E|]; [|assumption].
        rewrite E in J2. rewrite Es in J2. congruence.
      * intros k Hk. rewrite sat_set by assumption.
        destruct (N.eqb_spec (pos (h_cap s) (hash e) k) i); [discriminate|now apply J3].
    + intros k b Hk E. rewrite sat_set in E by assumption. destruct (N.eqb_spec k i); [discriminate|].
      pose proof (t_live _ _ _ T k b Hk E) as Hin. rewrite handles_app, in_app_iff in *. cbn in Hin.
      destruct Hin as [|[|]]; [tauto| |tauto]. subst b. exfalso. apply n.
      eapply (t_uniq _ _ _ T); eassumption.
    + intros k k' b Hk Hk' E E'. rewrite sat_set in E, E' by assumption.
      destruct (N.eqb_spec k i); [discriminate|]. destruct (N.eqb_spec k' i); [discriminate|].
      eapply (t_uniq _ _ _ T); eassumption.
  - exact (hr_cap _ _ R).
  - pose proof (count_set nonempty (h_slots s) i Tomb His) as C. rewrite Es in C. cbn [nonempty] in C.
    rewrite (hr_used _ _ R). lia.
  - exact (hr_load _ _ R).
  - pose proof (hr_dist _ _ R) as D. rewrite !map_app in *. cbn [map snd] in D.
    now destruct (distinct_app_inv _ _ _ D).
Qed.

Lemma remove_ok s l x : hrep s l ->
  exists r, hfind eqb hash s x = Ok r /\
   match fst r with
   | None => member eqb (map snd l) x = false
   | Some i => exists d s' l', slot_data s i = Ok d /\ hunlink s i = Ok s' /\ hrep s' l' /\
        In d (map snd l) /\ eqb d x = true /\ map snd l' = minus eqb (map snd l) x
   end.
Proof.
  intros R. destruct (hfind_cases s l x R) as (r & E & S). exists r. split; [assumption|].
  destruct (fst r) as [i|].
  - destruct S as (a & d & Hi & Es & Hin & Ed).
    destruct (in_split _ _ Hin) as (l1 & l2 & ->).
    destruct (hunlink_ok s l1 a d l2 i R Hi Es) as (s' & E' & R').
    exists d, s', (l1 ++ l2). split.
    + unfold slot_data. rewrite get_slot_ok, Es by (now rewrite (t_size _ _ _ (hr_table _ _ R))).
      cbn [bind]. destruct (seg_in _ _ _ _ _ _ (rep_seg _ _ (hr_list _ _ R)) Hin) as (q & q' & Eq).
      rewrite (ld_some _ _ _ Eq). reflexivity.
    + split; [assumption|]. split; [assumption|]. rewrite map_app. cbn [map snd].
      split; [apply in_app_iff; right; now left|]. split; [assumption|].
      pose proof (hr_dist _ _ R) as D. rewrite map_app in D. cbn [map snd] in D.
      now rewrite minus_mid, map_app.
  - destruct S as [S _]. now apply member_false.
Qed.

(** *** Reserving and cleaning *)
Lemma hreserve_ok tb s l n : hrep s l ->
  exists s' rc, hreserve hash tb s n = Ok (s', rc) /\ hrep s' l /\ (rc = 0 \/ rc = ENOMEM) /\
    (rc = ENOMEM -> s' = s /\ ((exists m, tb m = false) \/ 2 ^ 59 < n)) /\
    (rc = 0 -> 2 * n <= h_cap s').
Proof.
  intros R. unfold hreserve. destruct (N.eqb_spec n 0) as [->|Hn].
  { exists s, 0. split; [reflexivity|]. split; [assumption|]. split; [auto|]. split; [discriminate|]. lia. }
  destruct (N.ltb_spec MAX_CAP n) as [Hm|Hm].
  { exists s, ENOMEM. split; [reflexivity|]. split; [assumption|]. split; [auto|]. split; [|discriminate].
    intros _. split; [reflexivity|]. right. change (2 ^ 59) with 576460752303423488. unfold MAX_CAP in Hm. lia. }
  assert (Hneed : mul64 n 10 / 5 = 2 * n).
  { unfold mul64. rewrite N.mod_small by (unfold MAX_CAP, two64 in *; lia).
    replace (n * 10) with (2 * n * 5) by lia. now rewrite N.div_mul by lia. }
  rewrite Hneed. destruct (N.leb_spec (2 * n) (h_cap s)) as [Hc|Hc].
  { exists s, 0. split; [reflexivity|]. split; [assumption|]. split; [auto|]. split; [discriminate|]. auto. }
  set (v := N.max (2 * n) INIT_CAP).
  assert (Hv : 16 <= v) by (unfold v, INIT_CAP; lia).
  destruct (next_pow2_spec v ltac:(lia)) as (k & E & K1 & K2).
  { change (2 ^ 63) with 9223372036854775808. unfold v, MAX_CAP, INIT_CAP in *. lia. }
  rewrite E. destruct (N.ltb_spec MAX_CAP (2 ^ k)) as [Hx|Hx].
  { exists s, ENOMEM. split; [reflexivity|]. split; [assumption|]. split; [auto|]. split; [|discriminate].
    intros _. split; [reflexivity|]. right.
    change MAX_CAP with (2 ^ 60) in Hx. apply N.pow_lt_mono_r_iff in Hx; [|lia].
    assert (~ v <= 2 ^ 60) as C by (intros C; apply K2 in C; lia).
    change (2 ^ 60) with 1152921504606846976 in C. change (2 ^ 59) with 576460752303423488.
    unfold v, INIT_CAP in C. lia. }
  assert (HC : capacity (2 ^ k)).
  { exists k. split; [|split; [|reflexivity]].
    - apply (N.pow_le_mono_r_iff 2); [lia|]. change (2 ^ 4) with 16. lia.
    - apply (N.pow_le_mono_r_iff 2); [lia|]. exact Hx. }
  destruct (resize_ok tb s l (2 ^ k) R HC ltac:(unfold v in K1; lia)) as (s' & Er & R' & F & G).
  exists s', (if tb (2 ^ k) then 0 else ENOMEM). split; [assumption|]. split; [assumption|].
  destruct (tb (2 ^ k)) eqn:Et.
  - split; [auto|]. split; [discriminate|]. intros _. destruct (G eq_refl) as [-> _]. unfold v in K1. lia.
  - split; [auto|]. split; [|discriminate]. intros _. split; [auto|]. left. eauto.
Qed.

Lemma hrep_init (h : cells A) : (forall a, h a = None) -> hrep (hash_init h) [].
Proof.
  intros H. constructor; cbn [h_list h_slots h_cap h_used hash_init].
  - now apply rep_init.
  - constructor; cbn; try reflexivity; intros; try lia; try contradiction.
  - now left.
  - reflexivity.
  - lia.
  - cbn. trivial.
Qed.

Lemma hclean_ok s l : hrep s l -> exists s', hclean s = Ok (s', map snd l) /\ hrep s' [].
Proof.
  intros R. destruct (list_clean_ok _ _ (hr_list _ _ R)) as (l' & E & RL).
  unfold list_clean in E. unfold hclean.
  destruct (foreach nd_next fst clean_body (rounds (h_list s)) (l_head (h_list s)) (l_mem (h_list s), []))
    as [r|]; [|discriminate E]. cbn [bind] in *. inversion E; subst. 
  eexists. split; [reflexivity|].
  constructor; cbn [h_list h_slots h_cap h_used].
  - exact RL.
  - constructor; cbn; try reflexivity; intros; try lia; try contradiction.
  - now left.
  - reflexivity.
  - lia.
  - cbn. trivial.
Qed.

(** *** Histories *)
Lemma hash_call_ok s l o : hrep s l ->
  exists s' a l', hash_call eqb hash s o = Ok (s', a) /\ hrep s' l' /\
    hstep eqb (map snd l) o a (map snd l').
Proof.
  intros R. destruct o; cbn [hash_call].
  - destruct (hadd_ok node table0 s l x R) as (s' & rc & l' & E & R' & C). rewrite E. cbn [bind fst snd].
    exists s', (HCode rc), l'. split; [reflexivity|]. split; [assumption|].
    destruct C as [(-> & -> & M)|[(-> & -> & M & _)|(-> & M & p & _ & ->)]].
    + now constructor.
    + now constructor.
    + rewrite map_app. now constructor.
  - destruct (hfind_cases s l x R) as (r & E & S). unfold hcontains. rewrite E. cbn [bind].
    exists s, (HBool (member eqb (map snd l) x)), l.
    split; [|split; [assumption|constructor]].
    destruct (fst r) as [i|].
    + destruct S as (a & d & _ & _ & Hi & Ed). now rewrite (member_true l a d x Hi Ed).
    + destruct S as [S _]. now rewrite (member_false l x S).
  - destruct (remove_ok s l x R) as (r & E & S). unfold hdelete. rewrite E. cbn [bind].
    destruct (fst r) as [i|].
    + destruct S as (d & s' & l' & E1 & E2 & R' & Hin & Ed & Em). rewrite E1. cbn [bind]. rewrite E2. cbn [bind fst snd].
      exists s', (HFreed 0 [d]), l'. split; [reflexivity|]. split; [assumption|]. rewrite Em. now constructor.
    + exists s, (HFreed ENOENT []), l. split; [reflexivity|]. split; [assumption|]. now constructor.
  - destruct (remove_ok s l x R) as (r & E & S). unfold htake. rewrite E. cbn [bind].
    destruct (fst r) as [i|].
    + destruct S as (d & s' & l' & E1 & E2 & R' & Hin & Ed & Em). rewrite E1. cbn [bind]. rewrite E2. cbn [bind fst snd].
      exists s', (HTook 0 (Some d)), l'. split; [reflexivity|]. split; [assumption|]. rewrite Em. now constructor.
    + exists s, (HTook ENOENT None), l. split; [reflexivity|]. split; [assumption|]. now constructor.
  - destruct (hreserve_ok table0 s l n R) as (s' & rc & E & R' & C & _). rewrite E. cbn [bind fst snd].
    exists s', (HCode rc), l. split; [reflexivity|]. split; [assumption|]. now constructor.
  - exists s, (HNum (l_len (h_list s))), l. split; [reflexivity|]. split; [assumption|].
    rewrite (rep_len _ _ (hr_list _ _ R)). rewrite <- (map_length snd l). constructor.
  - exists s, (HBool (match map snd l with [] => true | _ => false end)), l.
    split; [|split; [assumption|constructor]]. rewrite (rep_len _ _ (hr_list _ _ R)).
    now destruct l.
  - unfold hread. rewrite (list_read_ok _ _ (hr_list _ _ R)). cbn [bind].
    exists s, (HSaw (map snd l)), l. split; [reflexivity|]. split; [assumption|]. constructor.
  - destruct (hclean_ok s l R) as (s' & E & R'). rewrite E. cbn [bind fst snd].
    exists s', (HFreed 0 (map snd l)), []. split; [reflexivity|]. split; [assumption|]. constructor.
Qed.

Lemma hash_calls_ok : forall os s l, hrep s l ->
  exists s' ans l', hash_calls eqb hash s os = Ok (s', ans) /\ hrep s' l' /\
    hsteps eqb (map snd l) os ans (map snd l').
Proof.
  induction os as [|o r IH]; intros s l R; cbn [hash_calls].
  - exists s, [], l. split; [reflexivity|]. split; [assumption|constructor].
  - destruct (hash_call_ok s l o R) as (s1 & a & l1 & E1 & R1 & S1). rewrite E1. cbn [bind fst snd].
    destruct (IH s1 l1 R1) as (s2 & ans & l2 & E2 & R2 & S2). rewrite E2. cbn [bind fst snd].
    exists s2, (a :: ans), l2. split; [reflexivity|]. split; [assumption|]. econstructor; eassumption.
Qed.
End Facts.
