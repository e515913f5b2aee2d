(** Patterns, derivatives and the longest match. *)
From Coq Require Import String NArith List Bool Arith Lia.
From Verif Require Import Bytes Types GenModel StrModel EnumModel RulesTextModel RulesTextSpec LexModel LexSpec.
Import ListNotations.
Local Open Scope string_scope.
Local Open Scope list_scope.
Local Open Scope N_scope.

Lemma in_cls_iff c x : in_cls c x = true <-> exists r, In r c /\ fst r <= x <= snd r.
Proof.
  unfold in_cls. rewrite existsb_exists. split; intros (r & I & H); exists r; (split; [exact I|]).
  - apply andb_prop in H. destruct H as (A & B). apply N.leb_le in A, B. auto.
  - destruct H as (A & B). apply N.leb_le in A, B. rewrite A, B. reflexivity.
Qed.

Lemma mt_cls c x s : matches (R_cls c) (x :: s) <-> in_cls c x = true /\ s = [].
Proof.
  split.
  - intros M. inversion M; subst. split; [apply in_cls_iff; assumption|reflexivity].
  - intros (A & ->). constructor. apply in_cls_iff. exact A.
Qed.
Lemma mt_cat a b s : matches (R_cat a b) s <-> exists u v, s = u ++ v /\ matches a u /\ matches b v.
Proof.
  split.
  - intros M. inversion M; subst. eauto.
  - intros (u & v & -> & A & B). constructor; assumption.
Qed.
Lemma mt_alt a b s : matches (R_alt a b) s <-> matches a s \/ matches b s.
Proof. split; [intros M; inversion M; subst; auto|intros [H|H]; [apply Mt_left|apply Mt_right]; exact H]. Qed.
Lemma mt_empty s : matches R_empty s <-> s = [].
Proof. split; [intros M; inversion M; reflexivity|intros ->; constructor]. Qed.
Lemma mt_none s : ~ matches R_none s.
Proof. intros M. inversion M. Qed.

Lemma nullable_iff r : nullable r = true <-> matches r [].
Proof.
  induction r as [| |c|a IHa b IHb|a IHa b IHb|a IHa]; cbn [nullable].
  - split; [discriminate|intros M; inversion M].
  - split; [constructor|reflexivity].
  - split; [discriminate|intros M; inversion M].
  - rewrite andb_true_iff, IHa, IHb, mt_cat. split.
    + intros (A & B). exists [], []. auto.
    + intros (u & v & E & A & B). symmetry in E. apply app_eq_nil in E. destruct E as (-> & ->). auto.
  - rewrite orb_true_iff, IHa, IHb, mt_alt. reflexivity.
  - split; [constructor|reflexivity].
Qed.

Lemma cat_mt a b s : matches (cat a b) s <-> matches (R_cat a b) s.
Proof.
  assert (E1 : forall b s, matches R_none s <-> matches (R_cat R_none b) s).
  { intros b' t. rewrite mt_cat. split; [intros M; inversion M|intros (u & v & _ & M & _); inversion M]. }
  assert (E2 : forall a s, matches R_none s <-> matches (R_cat a R_none) s).
  { intros b' t. rewrite mt_cat. split; [intros M; inversion M|intros (u & v & _ & _ & M); inversion M]. }
  assert (E3 : forall b s, matches b s <-> matches (R_cat R_empty b) s).
  { intros b' t. rewrite mt_cat. split; [intros M; exists [], t; split; [reflexivity|]; split; [constructor|exact M]|].
    intros (u & v & -> & A & B). apply mt_empty in A. subst u. exact B. }
  destruct a, b; cbn [cat]; first [apply E1|apply E2|apply E3|reflexivity].
Qed.
Lemma alt_mt a b s : matches (alt a b) s <-> matches (R_alt a b) s.
Proof.
  assert (E1 : forall b s, matches b s <-> matches (R_alt R_none b) s).
  { intros b' t. rewrite mt_alt. split; [auto|intros [M|M]; [inversion M|exact M]]. }
  assert (E2 : forall a s, matches a s <-> matches (R_alt a R_none) s).
  { intros b' t. rewrite mt_alt. split; [auto|intros [M|M]; [exact M|inversion M]]. }
  destruct a, b; cbn [alt]; first [apply E1|apply E2|reflexivity].
Qed.

Lemma star_cons a x s : matches (R_star a) (x :: s) <-> exists u v, s = u ++ v /\ matches a (x :: u) /\ matches (R_star a) v.
Proof.
  split.
  - intros M. remember (R_star a) as r eqn:E. remember (x :: s) as w eqn:W. revert x s W.
    induction M as [|c0 y0 H0|a0 b0 u0 v0 H0 _ H1 _|a0 b0 u0 H0 _|a0 b0 u0 H0 _|a0|a' u v M1 _ M2 IH]; intros x s W; try discriminate. injection E as ->.
    destruct u as [|y u]; cbn [app] in W.
    + apply IH; [reflexivity|exact W].
    + injection W as -> <-. exists u, v. auto.
  - intros (u & v & -> & A & B). change (x :: u ++ v) with ((x :: u) ++ v). constructor; assumption.
Qed.

Lemma der_iff r : forall x s, matches (der x r) s <-> matches r (x :: s).
Proof.
  induction r as [| |c|a IHa b IHb|a IHa b IHb|a IHa]; intros x s; cbn [der].
  - split; intros M; inversion M.
  - split; intros M; inversion M.
  - rewrite mt_cls. destruct (in_cls c x); [rewrite mt_empty; intuition|]. split; [intros M; inversion M|intros (A & _); discriminate].
  - assert (C : matches (cat (der x a) b) s <-> exists u v, s = u ++ v /\ matches a (x :: u) /\ matches b v).
    { rewrite cat_mt, mt_cat. split; intros (u & v & E & A & B); exists u, v; (split; [exact E|]); (split; [apply IHa; exact A|exact B]). }
    rewrite mt_cat. destruct (nullable a) eqn:NA.
    + rewrite alt_mt, mt_alt, C, IHb. split.
      * intros [(u & v & -> & A & B)|B]; [exists (x :: u), v; auto|]. exists [], (x :: s). split; [reflexivity|]. split; [apply nullable_iff; exact NA|exact B].
      * intros (u & v & E & A & B). destruct u as [|y u]; cbn [app] in E; [right; subst v; exact B|]. injection E as <- ->. left. exists u, v. auto.
    + rewrite C. split.
      * intros (u & v & -> & A & B). exists (x :: u), v. auto.
      * intros (u & v & E & A & B). destruct u as [|y u]; cbn [app] in E; [|injection E as <- ->; exists u, v; auto].
        apply nullable_iff in A. congruence.
  - rewrite alt_mt, !mt_alt, IHa, IHb. reflexivity.
  - rewrite cat_mt, mt_cat, star_cons. split; intros (u & v & E & A & B); exists u, v; (split; [exact E|]); (split; [apply IHa; exact A|exact B]).
Qed.

(** All of a word. *)
Fixpoint ders (w : cstr) (r : re) : re := match w with [] => r | x :: w' => ders w' (der x r) end.
Lemma ders_iff w : forall r s, matches (ders w r) s <-> matches r (w ++ s).
Proof. induction w as [|x w IH]; intros r s; cbn [ders app]; [reflexivity|]. rewrite IH, der_iff. reflexivity. Qed.
Definition whole (r : re) (w : cstr) : bool := nullable (ders w r).
Lemma whole_iff r w : whole r w = true <-> matches r w.
Proof. unfold whole. rewrite nullable_iff, ders_iff, app_nil_r. reflexivity. Qed.

Lemma longest_eq r x s : longest r (x :: s) =
  match longest (der x r) s with Some k => Some (S k) | None => if nullable r then Some O else None end.
Proof.
  assert (Q : longest R_none s = None) by (destruct s; reflexivity).
  destruct r; cbn [longest]; try reflexivity. cbn [der]. rewrite Q. reflexivity.
Qed.
(** [longest] finds the longest prefix that matches, if one does. *)
Lemma longest_some s : forall r k, longest r s = Some k <->
  (k <= length s)%nat /\ matches r (firstn k s) /\ forall j, (k < j <= length s)%nat -> ~ matches r (firstn j s).
Proof.
  induction s as [|x s IH]; intros r k.
  - assert (L : longest r [] = if nullable r then Some O else None) by (destruct r; reflexivity). rewrite L.
    pose proof (nullable_iff r) as NI. destruct (nullable r); split.
    + intros E. injection E as <-. split; [lia|]. split; [apply NI; reflexivity|]. cbn [length]. intros j J. lia.
    + intros (K & _). destruct k; [reflexivity|cbn [length] in K; lia].
    + discriminate.
    + intros (K & M & _). rewrite firstn_nil in M. apply NI in M. discriminate.
  - rewrite longest_eq. specialize (IH (der x r)). pose proof (nullable_iff r) as NI. split.
    + intros E. destruct (longest (der x r) s) as [n|] eqn:EN.
      * injection E as <-. destruct (proj1 (IH n) eq_refl) as (A & B & C). cbn [length firstn]. split; [lia|]. split; [apply der_iff; exact B|].
        intros [|j] J M; [lia|]. cbn [firstn] in M. apply der_iff in M. apply (C j); [lia|exact M].
      * destruct (nullable r) eqn:NR; [|discriminate]. injection E as <-. split; [lia|]. split; [apply NI; reflexivity|].
        intros [|j] J M; [lia|]. cbn [firstn length] in *. apply der_iff in M.
        assert (X : forall n, (n <= length s)%nat -> ~ matches (der x r) (firstn n s)).
        { intros n. remember (length s - n)%nat as d eqn:D. revert n D. induction d as [d IHd] using lt_wf_ind. intros n D L M'.
          assert (H : @None nat = Some n); [|discriminate]. apply IH. split; [exact L|]. split; [exact M'|]. intros j' J'. apply (IHd (length s - j')%nat); lia. }
        apply (X j); [lia|exact M].
    + intros (A & B & C). destruct k as [|k].
      * cbn [firstn] in B. assert (EN : longest (der x r) s = None).
        { destruct (longest (der x r) s) as [n|] eqn:EN; [|reflexivity]. destruct (proj1 (IH n) eq_refl) as (A' & B' & _). exfalso.
          apply (C (S n)); [cbn [length]; lia|]. cbn [firstn]. apply der_iff. exact B'. }
        rewrite EN. apply NI in B. rewrite B. reflexivity.
      * cbn [firstn length] in *. rewrite (proj2 (IH k)); [reflexivity|]. split; [lia|]. split; [apply der_iff; exact B|].
        intros j J M. apply (C (S j)); [lia|]. cbn [firstn]. apply der_iff. exact M.
Qed.
Lemma longest_none s r : longest r s = None <-> forall k, (k <= length s)%nat -> ~ matches r (firstn k s).
Proof.
  split.
  - intros E k. remember (length s - k)%nat as d eqn:D. revert k D. induction d as [d IH] using lt_wf_ind. intros k D L M.
    assert (X : longest r s = Some k); [|congruence]. apply longest_some. split; [exact L|]. split; [exact M|].
    intros j J. apply (IH (length s - j)%nat); lia.
  - intros H. destruct (longest r s) as [k|] eqn:E; [|reflexivity]. apply longest_some in E. destruct E as (A & B & _). exfalso. exact (H k A B).
Qed.

(** ** The rule that is used *)
Lemma lstate_eqb_iff a b : lstate_beq a b = true <-> a = b.
Proof. split; [apply internal_lstate_dec_bl|apply internal_lstate_dec_lb]. Qed.
Definition active_in (r : lrule) (st : lstate) : Prop := lr_state r = None \/ lr_state r = Some st.
Lemma active_iff st r : active st r = true <-> active_in r st.
Proof.
  unfold active, active_in. destruct (lr_state r) as [s|]; [|intuition]. rewrite lstate_eqb_iff. split; [intros ->; auto|intros [H|H]; [discriminate|congruence]].
Qed.

(** As [usable] and [chosen], for any list of rules. *)
Definition usable_of (l : list lrule) (st : lstate) (s : cstr) (i k : nat) (a : lact) : Prop :=
  exists r, nth_error l i = Some r /\ active_in r st /\ lr_act r = a /\ (k <= length s)%nat /\ matches (lr_re r) (firstn k s).
Definition chosen_of (l : list lrule) (st : lstate) (s : cstr) (k : nat) (a : lact) : Prop :=
  exists i, usable_of l st s i k a /\ forall i' k' a', usable_of l st s i' k' a' -> (k' < k)%nat \/ (k' = k /\ (i <= i')%nat).

Lemma usable_cons r l st s i k a : usable_of (r :: l) st s (S i) k a <-> usable_of l st s i k a.
Proof. reflexivity. Qed.
Lemma usable_head r l st s k a : usable_of (r :: l) st s 0 k a <->
  active_in r st /\ lr_act r = a /\ (k <= length s)%nat /\ matches (lr_re r) (firstn k s).
Proof. split; [intros (q & E & H); injection E as <-; exact H|intros H; exists r; split; [reflexivity|exact H]]. Qed.
Lemma cand_some st r s k : (if active st r then longest (lr_re r) s else None) = Some k <->
  active_in r st /\ (k <= length s)%nat /\ matches (lr_re r) (firstn k s) /\ forall j, (k < j <= length s)%nat -> ~ matches (lr_re r) (firstn j s).
Proof.
  pose proof (active_iff st r) as AI. destruct (active st r).
  - rewrite longest_some. intuition.
  - split; [discriminate|]. intros (A & _). apply AI in A. discriminate.
Qed.
Lemma cand_none st r s : (if active st r then longest (lr_re r) s else None) = None <->
  (active_in r st -> forall k, (k <= length s)%nat -> ~ matches (lr_re r) (firstn k s)).
Proof.
  pose proof (active_iff st r) as AI. destruct (active st r).
  - rewrite longest_none. intuition.
  - split; [|reflexivity]. intros _ A. apply AI in A. discriminate.
Qed.

Lemma best_none l st s : best st l s = None <-> forall i k a, ~ usable_of l st s i k a.
Proof.
  induction l as [|r l IH]; cbn [best].
  - split; [intros _ [|i] k a (q & E & _); discriminate|reflexivity].
  - destruct (if active st r then longest (lr_re r) s else None) as [k|] eqn:C.
    + split.
      * destruct (best st l s) as [[k' a']|]; [destruct (k' <=? k)%nat|]; discriminate.
      * intros H. exfalso. apply cand_some in C. apply (H 0%nat k (lr_act r)). apply usable_head. intuition.
    + rewrite cand_none in C. split.
      * intros E. rewrite IH in E. intros [|i] k a U.
        { apply usable_head in U. destruct U as (A & _ & K & M). exact (C A k K M). }
        { exact (E i k a U). }
      * intros H. apply IH. intros i k a U. apply (H (S i) k a). exact U.
Qed.
Lemma chosen_fun l st s k a k' a' : chosen_of l st s k a -> chosen_of l st s k' a' -> k = k' /\ a = a'.
Proof.
  intros (i & U & M) (i' & U' & M'). destruct (M _ _ _ U') as [H|(E & H)]; destruct (M' _ _ _ U) as [H'|(E' & H')]; try lia.
  assert (i = i') by lia. subst. split; [reflexivity|]. destruct U as (r & N1 & _ & <- & _). destruct U' as (r' & N2 & _ & <- & _). congruence.
Qed.
Lemma best_chosen l st s k a : best st l s = Some (k, a) -> chosen_of l st s k a.
Proof.
  revert k a. induction l as [|r l IH]; intros k a; cbn [best]; [discriminate|].
  destruct (if active st r then longest (lr_re r) s else None) as [n|] eqn:C.
  - apply cand_some in C. destruct C as (AC & NL & MT & MX).
    assert (HD : usable_of (r :: l) st s 0 n (lr_act r)) by (apply usable_head; auto).
    assert (HX : forall k' a', usable_of (r :: l) st s 0 k' a' -> (k' <= n)%nat).
    { intros k' a' U. apply usable_head in U. destruct U as (_ & _ & K & M). destruct (le_lt_dec k' n); [assumption|]. exfalso. apply (MX k'); [lia|exact M]. }
    destruct (best st l s) as [[k' a']|] eqn:B.
    + destruct (Nat.leb_spec k' n) as [L|L]; intros E; injection E as <- <-.
      * exists 0%nat. split; [exact HD|]. intros [|i'] k2 a2 U; [specialize (HX _ _ U); lia|]. change (usable_of l st s i' k2 a2) in U.
        destruct (IH _ _ eq_refl) as (i & _ & M). destruct (M _ _ _ U); lia.
      * destruct (IH _ _ eq_refl) as (i & U0 & M). exists (S i). split; [exact U0|]. intros [|i'] k2 a2 U; [specialize (HX _ _ U); lia|].
        change (usable_of l st s i' k2 a2) in U. destruct (M _ _ _ U); lia.
    + intros E. injection E as <- <-. exists 0%nat. split; [exact HD|]. intros [|i'] k2 a2 U; [specialize (HX _ _ U); lia|].
      exfalso. exact (proj1 (best_none l st s) B _ _ _ U).
  - intros E. destruct (IH _ _ E) as (i & U & M). exists (S i). split; [exact U|]. intros [|i'] k2 a2 U2; [|change (usable_of l st s i' k2 a2) in U2; destruct (M _ _ _ U2); lia].
    exfalso. apply usable_head in U2. destruct U2 as (A & _ & K & X). exact (proj1 (cand_none st r s) C A _ K X).
Qed.
Lemma best_iff l st s k a : best st l s = Some (k, a) <-> chosen_of l st s k a.
Proof.
  split; [apply best_chosen|]. intros C. destruct (best st l s) as [[k' a']|] eqn:B.
  - destruct (chosen_fun _ _ _ _ _ _ _ C (best_chosen _ _ _ _ _ B)) as (-> & ->). reflexivity.
  - exfalso. destruct C as (i & U & _). exact (proj1 (best_none l st s) B _ _ _ U).
Qed.

(** ** Rounds *)
Lemma never_empty : forallb (fun r => negb (nullable (lr_re r))) lrules = true.
Proof. vm_compute. reflexivity. Qed.
Lemma best_advances st s k a : best st lrules s = Some (k, a) -> (1 <= k <= length s)%nat.
Proof.
  intros B. apply best_chosen in B. destruct B as (i & (r & N & _ & _ & L & M) & _). split; [|exact L]. destruct k; [|lia]. exfalso.
  cbn [firstn] in M. apply nullable_iff in M. pose proof (proj1 (forallb_forall _ _) never_empty r (nth_error_In _ _ N)) as F. cbv beta in F. rewrite M in F. discriminate.
Qed.
(** Every character is some token: the last rules take any. *)
Lemma some_rule st c s : c < 256 -> exists k a, best st lrules (c :: s) = Some (k, a).
Proof.
  intros L. destruct (best st lrules (c :: s)) as [[k a]|] eqn:B; [eauto|]. exfalso. rewrite best_none in B.
  destruct (N.eq_dec c 10) as [->|NE].
  - apply (B 0%nat 1%nat (A_skip None)). exists (any_state (R_cls [(32, 32); (9, 9); (10, 10)]) (A_skip None)). split; [reflexivity|]. split; [left; reflexivity|].
    split; [reflexivity|]. split; [cbn [length]; lia|]. cbn [firstn]. apply Mt_cls. exists (10, 10). cbn [In fst snd]. split; [auto|lia].
  - apply (B (length lrules - 1)%nat 1%nat A_char). exists (any_state (R_cls [(0, 9); (11, 255)]) A_char). split; [vm_compute; reflexivity|].
    split; [left; reflexivity|]. split; [reflexivity|]. split; [cbn [length]; lia|]. cbn [firstn]. apply Mt_cls.
    destruct (N.lt_ge_cases c 10) as [H|H]; [exists (0, 9)|exists (11, 255)]; cbn [In fst snd]; (split; [auto|lia]).
Qed.

Lemma lex_enough f1 : forall f2 st s, (length s <= f1)%nat -> (length s <= f2)%nat -> lex_from f1 st s = lex_from f2 st s.
Proof.
  induction f1 as [|f1 IH]; intros f2 st s L1 L2.
  - destruct s; [|cbn [length] in L1; lia]. destruct f2; reflexivity.
  - destruct s as [|c s]; [destruct f2; reflexivity|]. destruct f2 as [|f2]; [cbn [length] in L2; lia|]. cbn [lex_from].
    destruct (best st lrules (c :: s)) as [[k a]|] eqn:B; [|reflexivity]. pose proof (best_advances _ _ _ _ B) as K.
    assert (E : forall st', lex_from f1 st' (skipn k (c :: s)) = lex_from f2 st' (skipn k (c :: s)))
      by (intros st'; apply IH; rewrite skipn_length; cbn [length] in *; lia).
    destruct a; rewrite E; reflexivity.
Qed.
(** What is left to scan. *)
Definition lexed (st : lstate) (s : cstr) : list token := lex_from (length s) st s.
Lemma lexed_step st c s k a : best st lrules (c :: s) = Some (k, a) ->
  lexed st (c :: s) =
  match a with
  | A_skip n => lexed (next_state n st) (skipn k (c :: s))
  | A_emit mk n => mk (firstn k (c :: s)) :: lexed (next_state n st) (skipn k (c :: s))
  | A_char => if (c =? 0) || (128 <=? c) then [] else (if c =? 44 then T_COMMA else T_OTHER c) :: lexed st (skipn k (c :: s))
  end.
Proof.
  intros B. pose proof (best_advances _ _ _ _ B) as K. unfold lexed at 1. cbn [length lex_from]. rewrite B.
  assert (E : forall st', lex_from (length s) st' (skipn k (c :: s)) = lexed st' (skipn k (c :: s))).
  { intros st'. unfold lexed. apply lex_enough; rewrite ?skipn_length; cbn [length] in *; lia. }
  destruct a as [n|mk n|]; rewrite E; reflexivity.
Qed.

Lemma chosen_eq st s k a : chosen st s k a <-> best st lrules s = Some (k, a).
Proof. symmetry. apply best_iff. Qed.
Lemma scans_lexed st s l : scans st s l -> lexed st s = l.
Proof.
  induction 1 as [st|st s k n l NE C _ IH|st s k mk n l NE C _ IH|st s k l C _ IH|st c s k l C NC R _ IH|st c s k C R].
  - reflexivity.
  - destruct s as [|c s]; [congruence|]. rewrite chosen_eq in C. rewrite (lexed_step _ _ _ _ _ C). exact IH.
  - destruct s as [|c s]; [congruence|]. rewrite chosen_eq in C. rewrite (lexed_step _ _ _ _ _ C). rewrite IH. reflexivity.
  - rewrite chosen_eq in C. rewrite (lexed_step _ _ _ _ _ C). rewrite IH. reflexivity.
  - rewrite chosen_eq in C. rewrite (lexed_step _ _ _ _ _ C).
    replace (c =? 0) with false by (symmetry; apply N.eqb_neq; lia). replace (128 <=? c) with false by (symmetry; apply N.leb_gt; lia).
    replace (c =? 44) with false by (symmetry; apply N.eqb_neq; exact NC). rewrite IH. reflexivity.
  - rewrite chosen_eq in C. rewrite (lexed_step _ _ _ _ _ C). destruct R as [->|R]; [reflexivity|]. apply N.leb_le in R. rewrite R, orb_true_r. reflexivity.
Qed.
Lemma lexed_scans n : forall st s, (length s <= n)%nat -> bytes s -> scans st s (lexed st s).
Proof.
  induction n as [|n IH]; intros st s L BY.
  - destruct s; [constructor|cbn [length] in L; lia].
  - destruct s as [|c s]; [constructor|]. destruct (some_rule st c s (Forall_inv BY)) as (k & a & B).
    pose proof (best_advances _ _ _ _ B) as K. rewrite (lexed_step _ _ _ _ _ B).
    assert (R : forall st', scans st' (skipn k (c :: s)) (lexed st' (skipn k (c :: s)))).
    { intros st'. apply IH; [rewrite skipn_length; cbn [length] in *; lia|]. rewrite <- (firstn_skipn k (c :: s)) in BY. apply Forall_app in BY. exact (proj2 BY). }
    destruct a as [nx|mk nx|].
    + apply (Sc_skip _ _ k nx); [discriminate|apply chosen_eq; exact B|apply R].
    + apply (Sc_emit _ _ k mk nx); [discriminate|apply chosen_eq; exact B|apply R].
    + destruct (N.eqb_spec c 0) as [->|N0]; cbn [orb]; [apply (Sc_stop _ _ _ k); [apply chosen_eq; exact B|auto]|].
      destruct (N.leb_spec 128 c) as [H|H]; [apply (Sc_stop _ _ _ k); [apply chosen_eq; exact B|auto]|].
      destruct (N.eqb_spec c 44) as [->|NC]; [apply (Sc_comma _ _ k); [apply chosen_eq; exact B|apply R]|].
      apply (Sc_char _ _ _ k); [apply chosen_eq; exact B|exact NC|lia|apply R].
Qed.
