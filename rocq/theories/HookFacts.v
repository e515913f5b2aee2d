From Coq Require Import String NArith ZArith List Bool Arith Lia Permutation.
From Verif Require Import Bytes Types GenModel BytesFacts ChainModel NewFacts StrModel StrFacts PackModel PackSpec PackFacts PackFacts3 HookModel HookSpec.
Import ListNotations.
Local Open Scope string_scope.
Local Open Scope list_scope.
Local Open Scope N_scope.
Local Open Scope res_scope.

Lemma split_at_iff c s a b : split_at c s = Some (a, b) <-> s = a ++ c :: b /\ ~ In c a.
Proof.
  revert a b. induction s as [|x s IH]; intros a b; cbn [split_at].
  - split; [discriminate|]. intros (H & _). destruct a; discriminate H.
  - destruct (N.eqb_spec x c) as [Hx|Hx].
    + subst x. split.
      * intros H. injection H as <- <-. auto.
      * intros (H & Hn). destruct a as [|y a]; [cbn in H; injection H as ->; reflexivity|].
        cbn in H. injection H as -> _. exfalso. apply Hn. now left.
    + split.
      * destruct (split_at c s) as [(a', b')|] eqn:E; [|discriminate]. intros H. injection H as <- <-.
        destruct (proj1 (IH a' b') eq_refl) as (-> & Hn). split; [reflexivity|]. intros [H|H]; auto.
      * intros (H & Hn). destruct a as [|y a]; [cbn in H; injection H as -> _; congruence|]. cbn in H. injection H as -> H.
        assert (split_at c s = Some (a, b)) as ->; [|reflexivity]. apply IH. split; auto. intros Hi. apply Hn. now right.
Qed.

Lemma number_iff v n : number v n <-> exists rest, strtoul 0 v = (n, rest, false) /\ (two31 - 1 <? n) = false.
Proof.
  unfold number. split.
  - intros ((r & E) & L). exists r. split; [auto|]. apply N.ltb_ge. unfold two31 in *. lia.
  - intros (r & E & L). apply N.ltb_ge in L. split; [eauto|]. unfold two31 in *. lia.
Qed.

(** What one text does to the options. *)
Definition put (o : hookopts) (s : setting) : hookopts :=
  match s with
  | S_ifindex n => mkHO (Some (Z.of_N n)) (ho_cgpath o) (ho_family o) (ho_priorities o)
  | S_cgpath p => mkHO (ho_ifindex o) (Some p) (ho_family o) (ho_priorities o)
  | S_family => o
  | S_priorities a b => mkHO (ho_ifindex o) (ho_cgpath o) (ho_family o) (Some (Z.of_N a, Z.of_N b))
  end.

Lemma get_ops_iff name k : get_ops name = Some k <-> name = opt_name k.
Proof.
  unfold get_ops, optkinds. cbn [find]. unfold streq. split.
  - destruct (bytes_eqb (opt_name K_IFINDEX) name) eqn:E1. { apply bytes_eqb_eq in E1. intros H; injection H as <-. auto. }
    destruct (bytes_eqb (opt_name K_CGPATH) name) eqn:E2. { apply bytes_eqb_eq in E2. intros H; injection H as <-. auto. }
    destruct (bytes_eqb (opt_name K_FAMILY) name) eqn:E3. { apply bytes_eqb_eq in E3. intros H; injection H as <-. auto. }
    destruct (bytes_eqb (opt_name K_PRIORITIES) name) eqn:E4. { apply bytes_eqb_eq in E4. intros H; injection H as <-. auto. }
    discriminate.
  - intros ->. destruct k; reflexivity.
Qed.

Lemma name_no_eq k : ~ In 61 (opt_name k).
Proof. destruct k; cbn; intuition discriminate. Qed.

Lemma parse_opt_iff o s o' : parse_opt true o s = Ok o' <->
  exists v, reads s v /\ used o (kind v) = false /\ o' = put o v.
Proof.
  unfold parse_opt. split.
  - destruct (split_at 61 s) as [(name, value)|] eqn:E; [|discriminate]. apply split_at_iff in E as (-> & Hn).
    destruct (get_ops name) as [k|] eqn:Ek; [|discriminate]. apply get_ops_iff in Ek as ->. clear Hn.
    destruct k.
    + unfold parse_ifindex. destruct (used o K_IFINDEX) eqn:U; [discriminate|].
      destruct (strtoul 0 value) as [[n rest] range] eqn:Es. destruct range; [discriminate|].
      destruct (two31 - 1 <? n) eqn:El; [discriminate|]. intros H. apply Ok_inj in H as <-. exists (S_ifindex n). split; [|auto].
      apply (RD_ifindex value n). apply number_iff. eauto.
    + unfold parse_cgpath. destruct (used o K_CGPATH) eqn:U; [discriminate|]. cbn [negb]. intros H. apply Ok_inj in H as <-.
      exists (S_cgpath value). split; [apply (RD_cgpath value)|auto].
    + unfold parse_family. destruct (used o K_FAMILY) eqn:U; [discriminate|]. destruct (streq (lit "inet4") value || streq (lit "inet6") value) eqn:Ef; [|discriminate].
      intros H. apply Ok_inj in H as <-. exists S_family. split; [|auto]. apply (RD_family value). unfold streq in Ef.
      apply orb_prop in Ef as [Ef|Ef]; apply bytes_eqb_eq in Ef; auto.
    + unfold parse_priorities. destruct (used o K_PRIORITIES) eqn:U; [discriminate|]. cbn [negb].
      destruct (split_at 45 value) as [(x, y)|] eqn:Es; [|discriminate]. apply split_at_iff in Es as (-> & Hx).
      destruct y as [|y0 y1] eqn:Ey; [discriminate|]. rewrite <- Ey in *.
      destruct (strtoul 0 x) as [[a ra] r0] eqn:E1. destruct r0; [discriminate|].
      destruct (strtoul 0 y) as [[b rb] r1] eqn:E2. destruct r1; [discriminate|].
      destruct ((two31 - 1 <? a) || (two31 - 1 <? b)) eqn:El; [discriminate|]. apply orb_false_elim in El as (L1 & L2).
      destruct (N.eqb_spec a b); [discriminate|]. destruct ((a =? 0) || (b =? 0)) eqn:Ez; [discriminate|].
      apply orb_false_elim in Ez as (Z1 & Z2). apply N.eqb_neq in Z1, Z2. intros H. apply Ok_inj in H as <-.
      exists (S_priorities a b). split; [|auto]. apply (RD_priorities x y a b); auto; try (rewrite Ey; discriminate); apply number_iff; eauto.
  - intros (v & R & U & ->). destruct R as [v n N|v|v F|x y a b Hx Hy Na Nb Hab Ha Hb]; cbn [kind] in U.
    + assert (split_at 61 (lit "ifindex=" ++ v) = Some (opt_name K_IFINDEX, v)) as -> by (apply split_at_iff; split; [reflexivity|apply name_no_eq]).
      change (get_ops (opt_name K_IFINDEX)) with (Some K_IFINDEX). cbv iota beta. unfold parse_ifindex. rewrite U.
      apply number_iff in N as (r & -> & ->). reflexivity.
    + assert (split_at 61 (lit "cgpath=" ++ v) = Some (opt_name K_CGPATH, v)) as -> by (apply split_at_iff; split; [reflexivity|apply name_no_eq]).
      change (get_ops (opt_name K_CGPATH)) with (Some K_CGPATH). cbv iota beta. unfold parse_cgpath. rewrite U. reflexivity.
    + assert (split_at 61 (lit "family=" ++ v) = Some (opt_name K_FAMILY, v)) as -> by (apply split_at_iff; split; [reflexivity|apply name_no_eq]).
      change (get_ops (opt_name K_FAMILY)) with (Some K_FAMILY). cbv iota beta. unfold parse_family. rewrite U.
      destruct F as [-> | ->]; reflexivity.
    + assert (split_at 61 (lit "priorities=" ++ x ++ lit "-" ++ y) = Some (opt_name K_PRIORITIES, x ++ lit "-" ++ y)) as ->
        by (apply split_at_iff; split; [reflexivity|apply name_no_eq]).
      change (get_ops (opt_name K_PRIORITIES)) with (Some K_PRIORITIES). cbv iota beta. unfold parse_priorities. rewrite U. cbn [negb].
      assert (split_at 45 (x ++ lit "-" ++ y) = Some (x, y)) as -> by (apply split_at_iff; split; [reflexivity|auto]).
      destruct y as [|y0 y1] eqn:Ey; [congruence|]. rewrite <- Ey in *.
      apply number_iff in Na as (ra & -> & La). apply number_iff in Nb as (rb & -> & Lb). rewrite La, Lb. cbn [orb].
      apply N.eqb_neq in Hab, Ha, Hb. rewrite Hab, Ha, Hb. reflexivity.
Qed.

Lemma parse_opts_iff l : forall i o o', parse_opts (fun _ => true) i o l = Ok o' <->
  exists vs, Forall2 reads l vs /\
    (forall j v, nth_error vs j = Some v -> used (fold_left put (firstn j vs) o) (kind v) = false) /\ o' = fold_left put vs o.
Proof.
  induction l as [|s l IH]; intros i o o'; cbn [parse_opts].
  - split.
    + intros H. apply Ok_inj in H as <-. exists []. split; [constructor|]. split; [|reflexivity]. intros [|j] v; discriminate.
    + intros (vs & F & _ & ->). inversion F. reflexivity.
  - split.
    + intros H. binv H. apply parse_opt_iff in E as (v & R & U & ->). apply IH in H as (vs & F & D & ->).
      exists (v :: vs). split; [constructor; auto|]. split; [|reflexivity]. intros [|j] w; cbn [nth_error firstn fold_left]; [|apply D].
      intros K. injection K as <-. exact U.
    + intros (vs & F & D & ->). inversion F as [|? v ? vs' R F']; subst.
      assert (parse_opt true o s = Ok (put o v)) as ->. { apply parse_opt_iff. exists v. split; auto. split; auto. exact (D 0%nat v eq_refl). }
      cbn [bind]. apply IH. exists vs'. split; auto. split; [|reflexivity]. intros j w K. exact (D (S j) w K).
Qed.

Definition optkind_eq_dec (a b : optkind) : {a = b} + {a <> b}.
Proof. decide equality. Defined.

Lemma used_put o v k : used (put o v) k = used o k || (match kind v with K_FAMILY => false | kv => if optkind_eq_dec kv k then true else false end).
Proof. destruct v, k; cbn; rewrite ?orb_false_r, ?orb_true_r; reflexivity. Qed.

Definition sets_kind (k : optkind) (v : setting) : bool :=
  match kind v with K_FAMILY => false | kv => if optkind_eq_dec kv k then true else false end.

Lemma used_fold vs : forall o k, used (fold_left put vs o) k = used o k || existsb (sets_kind k) vs.
Proof.
  induction vs as [|v vs IH]; intros o k; cbn [fold_left existsb]; [now rewrite orb_false_r|].
  rewrite IH, used_put. unfold sets_kind at 2. now rewrite orb_assoc.
Qed.

Lemma in_firstn {A} (l : list A) j x : In x (firstn j l) <-> exists i, (i < j)%nat /\ nth_error l i = Some x.
Proof.
  revert j. induction l as [|y l IH]; intros [|j]; cbn [firstn In].
  - split; [intros []|intros (i & H & _); lia].
  - split; [intros []|intros (i & _ & H); destruct i; discriminate H].
  - split; [intros []|intros (i & H & _); lia].
  - rewrite IH. split.
    + intros [<-|(i & H & E)]; [exists 0%nat; split; [lia|reflexivity]|exists (S i); split; [lia|exact E]].
    + intros ([|i] & H & E); [left; cbn in E; congruence|right; exists i; split; [lia|exact E]].
Qed.

Lemma sets_kind_iff k v : sets_kind k v = true <-> kind v = k /\ k <> K_FAMILY.
Proof.
  unfold sets_kind. destruct (kind v), k; cbn; split; intros X; try discriminate X; try reflexivity;
    try (split; [reflexivity|discriminate]); destruct X as (X & Y); try discriminate X; congruence.
Qed.

Lemma fresh_iff vs : (forall j v, nth_error vs j = Some v -> used (fold_left put (firstn j vs) hookopts_new) (kind v) = false) <-> no_duplicates vs.
Proof.
  split.
  - intros H a b i j Hi Hj K F. destruct (Nat.lt_trichotomy i j) as [L|[L|L]]; auto; exfalso.
    + pose proof (H j b Hj) as U. rewrite used_fold in U. apply orb_false_elim in U as (_ & U).
      assert (existsb (sets_kind (kind b)) (firstn j vs) = true); [|congruence]. apply existsb_exists. exists a. split; [apply in_firstn; eauto|].
      apply sets_kind_iff. split; congruence.
    + pose proof (H i a Hi) as U. rewrite used_fold in U. apply orb_false_elim in U as (_ & U).
      assert (existsb (sets_kind (kind a)) (firstn i vs) = true); [|congruence]. apply existsb_exists. exists b. split; [apply in_firstn; eauto|].
      apply sets_kind_iff. split; congruence.
  - intros H j v Hj. rewrite used_fold. assert (used hookopts_new (kind v) = false) as -> by now destruct v.
    destruct (existsb (sets_kind (kind v)) (firstn j vs)) eqn:E; auto. apply existsb_exists in E as (w & Hw & E).
    apply sets_kind_iff in E as (E1 & E2). apply in_firstn in Hw as (i & Li & Hi). assert (i = j); [|lia].
    eapply (H w v i j); eauto. congruence.
Qed.

Lemma no_dup_app vs v : no_duplicates (vs ++ [v]) -> no_duplicates vs /\ (forall w, In w vs -> kind w = kind v -> kind w = K_FAMILY).
Proof.
  intros H. split.
  - intros a b i j Hi Hj. apply H; rewrite nth_error_app1; auto; apply nth_error_Some; congruence.
  - intros w Hw K. destruct (optkind_eq_dec (kind w) K_FAMILY); auto. exfalso.
    apply In_nth_error in Hw as (i & Hi). assert (i < length vs)%nat by (apply nth_error_Some; congruence).
    assert (i = length vs); [|lia]. apply (H w v); auto.
    + now rewrite nth_error_app1.
    + rewrite nth_error_app2 by lia. now rewrite Nat.sub_diag.
Qed.

Lemma fold_holds vs : no_duplicates vs -> holds_settings (fold_left put vs hookopts_new) vs.
Proof.
  induction vs as [|v vs IH] using rev_ind; intros H.
  - unfold holds_settings. cbn. split; [|split; [|split; [reflexivity|]]].
    + intros z. split; [discriminate|intros (n & [] & _)].
    + intros s. split; [discriminate|intros []].
    + intros p. split; [discriminate|intros (a & b & [] & _)].
  - apply no_dup_app in H as (H1 & H2). destruct (IH H1) as (A & B & C & D). rewrite fold_left_app. cbn [fold_left].
    set (o := fold_left put vs hookopts_new) in *. clearbody o. clear IH H1.
    assert (I : forall x, In x (vs ++ [v]) <-> In x vs \/ x = v) by (intros x; rewrite in_app_iff; cbn [In]; intuition).
    destruct v as [n|s| |x y]; cbn [put]; unfold holds_settings; cbn [ho_ifindex ho_cgpath ho_family ho_priorities].
    + split; [|split; [|split; auto]].
      * intros z. split.
        -- intros E. injection E as <-. exists n. rewrite I. auto.
        -- intros (m & Hm & ->). apply I in Hm as [Hm|Hm]; [pose proof (H2 _ Hm eq_refl) as Q; discriminate Q|congruence].
      * intros s. rewrite B, I. split; auto. intros [X|X]; [auto|discriminate X].
      * intros p. rewrite D. split; intros (a & b & X & Y); exists a, b; rewrite ?I in *; split; auto. destruct X as [X|X]; [auto|discriminate X].
    + split; [|split; [|split; auto]].
      * intros z. rewrite A. split; intros (m & X & Y); exists m; rewrite ?I in *; split; auto. destruct X as [X|X]; [auto|discriminate X].
      * intros w. rewrite I. split.
        -- intros E. injection E as <-. auto.
        -- intros [X|X]; [pose proof (H2 _ X eq_refl) as Q; discriminate Q|congruence].
      * intros p. rewrite D. split; intros (a & b & X & Y); exists a, b; rewrite ?I in *; split; auto. destruct X as [X|X]; [auto|discriminate X].
    + split; [|split; [|split; auto]].
      * intros z. rewrite A. split; intros (m & X & Y); exists m; rewrite ?I in *; split; auto. destruct X as [X|X]; [auto|discriminate X].
      * intros w. rewrite B, I. split; auto. intros [X|X]; [auto|discriminate X].
      * intros p. rewrite D. split; intros (a & b & X & Y); exists a, b; rewrite ?I in *; split; auto. destruct X as [X|X]; [auto|discriminate X].
    + split; [|split; [|split; auto]].
      * intros z. rewrite A. split; intros (m & X & Y); exists m; rewrite ?I in *; split; auto. destruct X as [X|X]; [auto|discriminate X].
      * intros w. rewrite B, I. split; auto. intros [X|X]; [auto|discriminate X].
      * intros p. split.
        -- intros E. injection E as <-. exists x, y. rewrite I. auto.
        -- intros (a & b & X & ->). apply I in X as [X|X]; [pose proof (H2 _ X eq_refl) as Q; discriminate Q|congruence].
Qed.

Lemma holds_unique o o' l : holds_settings o l -> holds_settings o' l -> o = o'.
Proof.
  intros (A & B & C & D) (A' & B' & C' & D'). destruct o as [i c f p], o' as [i' c' f' p']. cbn in *. subst f f'.
  assert (i = i') as <-.
  { destruct i as [z|], i' as [z'|]; auto.
    - symmetry. apply A'. apply A. reflexivity.
    - pose proof (proj2 (A' z) (proj1 (A z) eq_refl)) as Q. discriminate Q.
    - pose proof (proj2 (A z') (proj1 (A' z') eq_refl)) as Q. discriminate Q. }
  assert (c = c') as <-.
  { destruct c as [z|], c' as [z'|]; auto.
    - symmetry. apply B'. apply B. reflexivity.
    - pose proof (proj2 (B' z) (proj1 (B z) eq_refl)) as Q. discriminate Q.
    - pose proof (proj2 (B z') (proj1 (B' z') eq_refl)) as Q. discriminate Q. }
  assert (p = p') as <-; auto.
  destruct p as [z|], p' as [z'|]; auto.
  - symmetry. apply D'. apply D. reflexivity.
  - pose proof (proj2 (D' z) (proj1 (D z) eq_refl)) as Q. discriminate Q.
  - pose proof (proj2 (D z') (proj1 (D' z') eq_refl)) as Q. discriminate Q.
Qed.

Lemma parse_all_iff l o : parse_opts (fun _ => true) 0 hookopts_new l = Ok o <->
  exists vs, Forall2 reads l vs /\ no_duplicates vs /\ holds_settings o vs.
Proof.
  rewrite parse_opts_iff. split; intros (vs & F & D & H); exists vs; split; auto.
  - apply fresh_iff in D. split; auto. subst o. now apply fold_holds.
  - split; [now apply fresh_iff|]. eapply holds_unique; [exact H|]. now apply fold_holds.
Qed.

(** Order. *)
Lemma f2_perm {A B} (R : A -> B -> Prop) l l' : Permutation l l' -> forall r, Forall2 R l r -> exists r', Permutation r r' /\ Forall2 R l' r'.
Proof.
  induction 1 as [|x l l' P IH|x y l|l1 l2 l3 P1 IH1 P2 IH2]; intros r F.
  - exists r. auto.
  - inversion F as [|? b ? r0 F1 F2]; subst. destruct (IH _ F2) as (r' & Q & F'). exists (b :: r'). auto.
  - inversion F as [|? b ? r0 F1 F2]; subst. inversion F2 as [|? c ? r1 F3 F4]; subst. exists (c :: b :: r1). split; [constructor|auto].
  - destruct (IH1 _ F) as (r1 & Q1 & F1). destruct (IH2 _ F1) as (r2 & Q2 & F2). exists r2. split; [eapply perm_trans; eauto|auto].
Qed.

Lemma no_dup_kinds vs : no_duplicates vs <-> NoDup (filter (fun k => if optkind_eq_dec k K_FAMILY then false else true) (map kind vs)).
Proof.
  induction vs as [|v vs IH].
  - split; [constructor|intros _ a b [|i]; discriminate].
  - cbn [map filter]. assert (no_duplicates (v :: vs) <-> no_duplicates vs /\ (kind v <> K_FAMILY -> forall w, In w vs -> kind w <> kind v)) as ->.
    { split.
      - intros H. split.
        + intros a b i j Hi Hj K F. assert (S i = S j) by (eapply (H a b); eauto). lia.
        + intros F w Hw K. apply In_nth_error in Hw as (j & Hj). assert (0 = S j)%nat by (apply (H v w); auto). lia.
      - intros (H1 & H2) a b [|i] [|j] Hi Hj K F; auto; cbn [nth_error] in *.
        + injection Hi as ->. exfalso. apply (H2 F b); [eapply nth_error_In; eauto|auto].
        + injection Hj as ->. exfalso. rewrite K in F. apply (H2 F a); [eapply nth_error_In; eauto|auto].
        + f_equal. eapply H1; eauto. }
    rewrite IH. destruct (optkind_eq_dec (kind v) K_FAMILY) as [E|E].
    + split; [intros (H & _); auto|intros H; split; auto; congruence].
    + split.
      * intros (H1 & H2). constructor; auto. intros Hi. apply filter_In in Hi as (Hi & _). apply in_map_iff in Hi as (w & Ew & Hw).
        exact (H2 E w Hw Ew).
      * intros H. inversion H as [|? ? H1 H2]; subst. split; auto. intros _ w Hw K. apply H1. apply filter_In. split.
        -- rewrite <- K. now apply in_map.
        -- destruct (optkind_eq_dec (kind v) K_FAMILY); [congruence|reflexivity].
Qed.

Lemma perm_filter {A} (f : A -> bool) l l' : Permutation l l' -> Permutation (filter f l) (filter f l').
Proof.
  induction 1 as [|x l l' P IH|x y l|l1 l2 l3 P1 IH1 P2 IH2]; cbn [filter]; auto.
  - destruct (f x); auto.
  - destruct (f x), (f y); auto. constructor.
  - eapply perm_trans; eauto.
Qed.

Lemma parse_perm l l' o : Permutation l l' -> parse_opts (fun _ => true) 0 hookopts_new l = Ok o -> parse_opts (fun _ => true) 0 hookopts_new l' = Ok o.
Proof.
  intros P. rewrite !parse_all_iff. intros (vs & F & D & (A & B & C & E)). destruct (f2_perm _ _ _ P _ F) as (vs' & Q & F'). exists vs'. split; auto.
  split.
  - apply no_dup_kinds in D. apply no_dup_kinds. eapply Permutation_NoDup; [|exact D]. apply perm_filter, Permutation_map, Q.
  - assert (I : forall x, In x vs <-> In x vs') by (intros x; split; apply Permutation_in; auto; now apply Permutation_sym).
    unfold holds_settings. split; [|split; [|split; auto]].
    + intros z. rewrite A. split; intros (n & X & Y); exists n; split; auto; now apply I.
    + intros s. rewrite B. apply I.
    + intros p. rewrite E. split; intros (a & b & X & Y); exists a, b; split; auto; now apply I.
Qed.

(** ** validate. *)
Lemma validate_iff o h : validate o h = Ok tt <-> forall k, used o k = true <-> k = needs h.
Proof.
  unfold validate. split.
  - intros H k. unfold optkinds, validate_from, supported, supported_by in H. cbn [orb] in H.
    destruct (used o K_IFINDEX) eqn:U1, (used o K_CGPATH) eqn:U2, (used o K_FAMILY) eqn:U3, (used o K_PRIORITIES) eqn:U4;
      destruct h; cbn in H; try discriminate H; destruct k; cbn [needs]; split; congruence.
  - intros H. pose proof (H K_IFINDEX) as H1. pose proof (H K_CGPATH) as H2. pose proof (H K_FAMILY) as H3. pose proof (H K_PRIORITIES) as H4.
    unfold optkinds, validate_from, supported, supported_by. cbn [orb].
    destruct (used o K_IFINDEX), (used o K_CGPATH), (used o K_FAMILY), (used o K_PRIORITIES);
      destruct h; cbn [needs] in *; cbn; try reflexivity; exfalso;
      repeat match goal with
      | X : true = true <-> _ |- _ => apply proj1 in X; specialize (X eq_refl)
      | X : false = true <-> ?a = ?a |- _ => apply proj2 in X; specialize (X eq_refl)
      end; discriminate.
Qed.

Lemma validate_error o h e : validate o h = Er e ->
  (e = EINVAL /\ used o (needs h) = false) \/ (e = ENOTSUP /\ exists k, k <> needs h /\ used o k = true).
Proof.
  unfold validate, optkinds, validate_from, supported, supported_by. cbn [orb].
  destruct (used o K_IFINDEX) eqn:U1, (used o K_CGPATH) eqn:U2, (used o K_FAMILY) eqn:U3, (used o K_PRIORITIES) eqn:U4;
    destruct h; cbn; intros H; try discriminate H; injection H as <-; cbn [needs];
    try (left; split; [reflexivity|assumption]); right; (split; [reflexivity|]);
    solve [exists K_IFINDEX; split; [discriminate|assumption]|exists K_CGPATH; split; [discriminate|assumption]
          |exists K_FAMILY; split; [discriminate|assumption]|exists K_PRIORITIES; split; [discriminate|assumption]].
Qed.

(** ** Serialisation. *)
Lemma rd_wr_int z : is_int z -> rd_int (wr_int z) = Ok z.
Proof.
  unfold is_int, wr_int. intros (A & B). destruct (Z.ltb_spec z 0); cbn [rd_int].
  - assert ((- Z.of_N two31 <=? z)%Z && (z <? Z.of_N two31)%Z = true) as ->; [|reflexivity].
    apply andb_true_iff. split; [now apply Z.leb_le|now apply Z.ltb_lt].
  - assert ((Z.to_N z <? two31) = true) as -> by (apply N.ltb_lt; lia). now rewrite Z2N.id.
Qed.

Lemma nil_or_back {A} (rd : node -> res A) (wr : A -> node) v : (forall a, v = Some a -> rd (wr a) = Ok a /\ wr a <> NNil) ->
  nil_or rd (or_nil wr v) = Ok v.
Proof.
  intros H. destruct v as [a|]; [|reflexivity]. destruct (H a eq_refl) as (E & N). cbn [or_nil]. unfold nil_or.
  destruct (wr a); try rewrite E; try reflexivity. congruence.
Qed.

Lemma kv_entry {A} (rd : node -> res A) n k c : entry n k c -> kv rd n k = rd c.
Proof. intros H. unfold kv. apply kv_node_iff in H as ->. reflexivity. Qed.

Lemma hookopts_round o : opts_in_range o -> hookopts_unpack (hookopts_pack o) = Ok o.
Proof.
  intros (A & B & C & D). unfold hookopts_unpack.
  rewrite (kv_entry (nil_or rd_int) _ "ifindex" (or_nil wr_int (ho_ifindex o))) by is_entry.
  rewrite (nil_or_back rd_int wr_int).
  2:{ intros z E. split; [apply rd_wr_int; auto|]. unfold wr_int. destruct (z <? 0)%Z; discriminate. }
  cbn [bind]. rewrite (kv_entry (nil_or rd_str) _ "cgpath" (or_nil NStr (ho_cgpath o))) by is_entry.
  rewrite (nil_or_back rd_str NStr). 2:{ intros s E. split; [|discriminate]. apply rd_str_iff. split; auto. }
  cbn [bind]. rewrite (kv_entry (nil_or (rd_uint two32)) _ "family" (or_nil NUint (ho_family o))) by is_entry.
  rewrite (nil_or_back (rd_uint two32) NUint). 2:{ intros n E. split; [|discriminate]. apply rd_uint_iff. split; auto. }
  cbn [bind]. rewrite (kv_entry (nil_or rd_priorities) _ "priorities" (or_nil (fun p => NArr [wr_int (fst p); wr_int (snd p)]) (ho_priorities o))) by is_entry.
  rewrite (nil_or_back rd_priorities (fun p => NArr [wr_int (fst p); wr_int (snd p)])).
  2:{ intros (x & y) E. destruct (D x y E) as (Hx & Hy). split; [|discriminate]. unfold rd_priorities. cbn [rd_arr bind fst snd].
      rewrite (rd_wr_int x Hx). cbn [bind]. now rewrite (rd_wr_int y Hy). }
  cbn [bind]. now destruct o.
Qed.

Lemma parsed_in_range l o : (forall s, In s l -> ~ In 0 s) -> parse_opts (fun _ => true) 0 hookopts_new l = Ok o -> opts_in_range o /\
  (forall a b, ho_priorities o = Some (a, b) -> (0 < a)%Z /\ (0 < b)%Z /\ a <> b) /\ (forall z, ho_ifindex o = Some z -> (0 <= z)%Z).
Proof.
  intros L H. apply parse_all_iff in H as (vs & F & D & (A & B & C & E)).
  assert (K : forall v, In v vs -> exists s, In s l /\ reads s v).
  { clear -F. induction F as [|s v l vs R F IH]; intros w []; [subst; exists s; split; [now left|auto]|].
    destruct (IH w) as (x & Hx & Rx); auto. exists x. split; [now right|auto]. }
  split; [split; [|split; [|split]]|split].
  - intros z Hz. apply A in Hz as (n & Hn & ->). destruct (K _ Hn) as (s & _ & R). inversion R as [v n' (_ & Hl)| | |]; subst. unfold is_int, two31 in *. lia.
  - intros s Hs. apply B in Hs. destruct (K _ Hs) as (x & Hx & R). inversion R; subst. intros Hi. apply (L _ Hx). apply in_app_iff. auto.
  - intros n Hn. congruence.
  - intros a b Hp. apply E in Hp as (x & y & Hi & Q). injection Q as -> ->. destruct (K _ Hi) as (s & _ & R).
    inversion R as [| | |x' y' a b _ _ (_ & La) (_ & Lb) _ _ _]; subst. unfold is_int, two31 in *. lia.
  - intros a b Hp. apply E in Hp as (x & y & Hi & Q). injection Q as -> ->. destruct (K _ Hi) as (s & _ & R).
    inversion R as [| | |x' y' a b _ _ (_ & La) (_ & Lb) Hab Ha Hb]; subst. lia.
  - intros z Hz. apply A in Hz as (n & Hn & ->). lia.
Qed.
