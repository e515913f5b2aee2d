(** The tokens of words, of blanks and of punctuation. *)
From Coq Require Import String NArith List Bool Arith Lia.
From Verif Require Import Bytes Types GenModel BytesFacts StrModel StrFacts EnumModel PrintFacts2 RulesTextModel RulesTextSpec LexModel LexSpec LexFacts LexFacts2.
Import ListNotations.
Local Open Scope string_scope.
Local Open Scope list_scope.
Local Open Scope N_scope.

(** ** Given the first character *)
Definition live (st : lstate) (c : N) (r : lrule) : bool := active st r && negb (match der c (lr_re r) with R_none => true | _ => false end).
Lemma longest_no s : longest R_none s = None.
Proof. destruct s; reflexivity. Qed.
Lemma longest_nil s : longest R_empty s = Some O.
Proof. destruct s as [|y s]; [reflexivity|]. rewrite longest_eq. cbn [der]. rewrite longest_no. reflexivity. Qed.
Lemma best_live st c s l : (forall r, In r l -> nullable (lr_re r) = false) -> best st l (c :: s) = best st (filter (live st c) l) (c :: s).
Proof.
  induction l as [|r l IH]; intros NE; [reflexivity|]. cbn [best filter]. rewrite IH by (intros q I; apply NE; right; exact I).
  destruct (live st c r) eqn:LV; cbn [best]; [reflexivity|]. unfold live in LV. destruct (active st r) eqn:A; cbn [andb] in LV.
  - rewrite longest_dead; [destruct (best st (filter (live st c) l) (c :: s)); reflexivity| |apply NE; left; reflexivity].
    destruct (der c (lr_re r)); try discriminate. reflexivity.
  - destruct (best st (filter (live st c) l) (c :: s)); reflexivity.
Qed.
Lemma best_lrules st c s : best st lrules (c :: s) = best st (filter (live st c) lrules) (c :: s).
Proof.
  apply best_live. intros r I. pose proof (proj1 (forallb_forall _ _) never_empty r I) as F. cbv beta in F. apply negb_true_iff in F. exact F.
Qed.
Lemma longest_cls c x s : longest (R_cls c) (x :: s) = if in_cls c x then Some 1%nat else None.
Proof. rewrite longest_eq. cbn [der nullable]. destruct (in_cls c x); [rewrite longest_nil|rewrite longest_no]; reflexivity. Qed.
Lemma whole_longest r w : matches r w -> longest r w = Some (length w).
Proof. intros M. apply longest_some. rewrite firstn_all. split; [lia|]. split; [exact M|]. intros j J. lia. Qed.

Definition r_blank : lrule := any_state (R_cls [(32, 32); (9, 9); (10, 10)]) (A_skip None).
Definition comment_re : re := R_cat (text "#") (R_star (R_cls [(0, 9); (11, 255)])).
Definition r_comment : lrule := any_state comment_re (A_skip None).
Definition r_any : lrule := any_state (R_cls [(0, 9); (11, 255)]) A_char.
Definition r_ignore : lrule := only_in L_HOOK_OPTS (R_cls [(123, 123); (44, 44)]) (A_skip None).
Definition r_close : lrule := only_in L_HOOK_OPTS (text "}") (A_skip (Some L_INITIAL)).

Lemma live_blank : forall st c, In c [32; 9] -> filter (live st c) lrules = [r_blank; r_any].
Proof. intros st c [ <- |[ <- |[]]]; destruct st; reflexivity. Qed.
Lemma live_newline : forall st, filter (live st 10) lrules = [r_blank].
Proof. destruct st; reflexivity. Qed.
Lemma live_comment : forall st, filter (live st 35) lrules = [r_comment; r_any].
Proof. destruct st; reflexivity. Qed.

Lemma best_blank st c s : In c [32; 9; 10] -> best st lrules (c :: s) = Some (1%nat, A_skip None).
Proof.
  intros I. rewrite best_lrules. assert (H : In c [32; 9] \/ c = 10) by (cbn [In] in *; intuition). destruct H as [H| ->].
  - rewrite (live_blank st c H). cbn [best active r_blank r_any any_state lr_state lr_re lr_act]. rewrite !longest_cls.
    destruct H as [ <- |[ <- |[]]]; reflexivity.
  - rewrite live_newline. cbn [best active r_blank any_state lr_state lr_re lr_act]. rewrite longest_cls. reflexivity.
Qed.
Lemma star_cls c w : Forall (fun x => in_cls c x = true) w -> matches (R_star (R_cls c)) w.
Proof.
  induction 1 as [|x w H _ IH]; [constructor|]. change (x :: w) with ([x] ++ w). apply Mt_more; [|exact IH]. constructor. apply in_cls_iff. exact H.
Qed.
Lemma best_comment st t s : bytes t -> ~ In 10 t -> best st lrules (35 :: t ++ 10 :: s) = Some (S (length t), A_skip None).
Proof.
  intros BY NI. rewrite best_lrules, live_comment. cbn [best active r_comment r_any any_state lr_state lr_re lr_act]. rewrite longest_cls.
  change (35 :: t ++ 10 :: s) with ((35 :: t) ++ 10 :: s). rewrite longest_stop by reflexivity. rewrite whole_longest; [reflexivity|].
  unfold comment_re. change (35 :: t) with ([35] ++ t). apply Mt_cat; [repeat constructor; exists (35, 35); split; [left; reflexivity|cbn; lia]|].
  apply star_cls. apply Forall_forall. intros x X. unfold bytes in BY. rewrite Forall_forall in BY. specialize (BY x X); cbv beta in BY; unfold byte in BY. apply in_cls_iff.
  assert (x <> 10) by (intros ->; exact (NI X)). destruct (N.lt_ge_cases x 10) as [H1|H1]; [exists (0, 9)|exists (11, 255)]; cbn [In fst snd]; (split; [auto|lia]).
Qed.
Lemma lexed_gap g : gap g -> forall st s, lexed st (g ++ s) = lexed st s.
Proof.
  induction 1 as [|c g I _ IH|t g BY NI _ IH]; intros st s; [reflexivity| |].
  - cbn [app]. rewrite (lexed_step _ _ _ _ _ (best_blank st c (g ++ s) I)). apply IH.
  - assert (E : (35 :: t ++ 10 :: g) ++ s = 35 :: t ++ 10 :: g ++ s) by (cbn [app]; rewrite <- app_assoc; reflexivity). rewrite E.
    rewrite (lexed_step _ _ _ _ _ (best_comment st t (g ++ s) BY NI)). cbn [next_state].
    change (35 :: t ++ 10 :: g ++ s) with ((35 :: t) ++ 10 :: g ++ s).
    assert (SK : skipn (S (length t)) ((35 :: t) ++ 10 :: g ++ s) = 10 :: g ++ s).
    { change (S (length t)) with (length (35 :: t)). rewrite skipn_app, skipn_all, Nat.sub_diag. reflexivity. }
    rewrite SK. rewrite (lexed_step _ _ _ _ _ (best_blank st 10 (g ++ s) ltac:(cbn; auto))). apply IH.
Qed.

(** ** Words *)
Definition tok (st : lstate) (w : cstr) (t : token) (st' : lstate) : Prop :=
  w <> [] /\ forall s, ends_word st s -> exists mk n, best st lrules (w ++ s) = Some (length w, A_emit mk n) /\ mk w = t /\ next_state n st = st'.
Lemma tok_lexed st w t st' s : tok st w t st' -> ends_word st s -> lexed st (w ++ s) = t :: lexed st' s.
Proof.
  intros (NE & T) E. destruct (T s E) as (mk & n & B & <- & <-). destruct w as [|c w]; [congruence|]. cbn [app] in *.
  rewrite (lexed_step _ _ _ _ _ B). change (c :: w ++ s) with ((c :: w) ++ s).
  rewrite firstn_app, firstn_all, Nat.sub_diag, firstn_O, app_nil_r, skipn_app, skipn_all, Nat.sub_diag. reflexivity.
Qed.
Definition starts (w : cstr) : Prop := match w with [] => False | c :: _ => in_cls word_start c = true end.
Lemma tok_best st w mk n : starts w -> best st lrules w = Some (length w, A_emit mk n) -> tok st w (mk w) (next_state n st).
Proof.
  intros ST B. destruct w as [|c w]; [destruct ST|]. split; [discriminate|]. intros s E. exists mk, n. split; [|auto].
  rewrite (best_word st c w s ST E). exact B.
Qed.
(** Given words. *)
Definition known (st : lstate) (w : cstr) (t : token) (st' : lstate) : Prop :=
  starts w /\ match best st lrules w with Some (k, A_emit mk n) => k = length w /\ mk w = t /\ next_state n st = st' | _ => False end.
Lemma known_tok st w t st' : known st w t st' -> tok st w t st'.
Proof.
  intros (ST & K). destruct (best st lrules w) as [[k a]|] eqn:B; [|destruct K]. destruct a as [|mk n|]; [destruct K| |destruct K].
  destruct K as (-> & <- & <-). apply tok_best; [exact ST|exact B].
Qed.

(** Words that end with the only [x] they have. *)
Fixpoint last_only (x : N) (r : re) : bool :=
  match r with
  | R_cat a b => avoids x a && last_only x b
  | R_cls [(a, b)] => (a =? x) && (b =? x)
  | _ => false
  end.
Lemma avoids_in x r w : avoids x r = true -> matches r w -> ~ In x w.
Proof.
  intros A M. induction M as [|c y H|a b u v H IHu H1 IHv|a b u H IH|a b u H IH|a|a u v H IHu H1 IHv]; cbn [avoids] in A.
  - intros [].
  - intros [ -> |[]]. apply in_cls_iff in H. rewrite H in A. discriminate.
  - apply andb_prop in A. destruct A as (A1 & A2). intros I. apply in_app_or in I. destruct I as [I|I]; [exact (IHu A1 I)|exact (IHv A2 I)].
  - apply andb_prop in A. exact (IH (proj1 A)).
  - apply andb_prop in A. exact (IH (proj2 A)).
  - intros [].
  - intros I. apply in_app_or in I. destruct I as [I|I]; [exact (IHu A I)|exact (IHv A I)].
Qed.
Lemma last_only_ok x r : forall w, last_only x r = true -> matches r w -> exists u, w = u ++ [x] /\ ~ In x u.
Proof.
  induction r as [| |c|a _ b IHb|a _ b _|a _]; intros w L M; cbn [last_only] in L; try discriminate.
  - destruct c as [|[a b] [|? ?]]; try discriminate. apply andb_prop in L. destruct L as (L1 & L2). apply N.eqb_eq in L1, L2. subst a b.
    inversion M as [|c y H| | | | |]; subst. destruct H as (q & [ <- |[]] & R). cbn [fst snd] in R. assert (y = x) by lia. subst y. exists []. split; [reflexivity|intros []].
  - apply andb_prop in L. destruct L as (L1 & L2). apply mt_cat in M. destruct M as (u & v & -> & A & B). destruct (IHb v L2 B) as (v' & -> & NI).
    exists (u ++ v'). split; [apply app_assoc|]. intros I. apply in_app_or in I. destruct I as [I|I]; [exact (avoids_in _ _ _ L1 A I)|exact (NI I)].
Qed.
Lemma last_only_longest x r w s : last_only x r = true -> matches r w -> longest r (w ++ s) = Some (length w).
Proof.
  intros L M. apply longest_some. rewrite firstn_app, firstn_all, Nat.sub_diag, firstn_O, app_nil_r. split; [rewrite app_length; lia|]. split; [exact M|].
  intros j J MJ. destruct (last_only_ok x r _ L M) as (u & -> & NI). destruct (last_only_ok x r _ L MJ) as (v & E & NV).
  rewrite <- app_assoc in E. cbn [app] in E. rewrite firstn_app in E. rewrite !app_length in J. cbn [length] in J.
  rewrite firstn_all2 in E by lia. destruct (j - length u)%nat as [|[|d]] eqn:D; try lia. cbn [firstn] in E.
  assert (EL : exists z zs, firstn (S d) s = z :: zs).
  { destruct s as [|z s]; [cbn [length] in J; lia|]. cbn [firstn]. eauto. }
  change (u ++ x :: firstn (S d) s = v ++ [x]) in E. destruct EL as (z & zs & EL). rewrite EL in E.
  assert (IX : In x v).
  { destruct (exists_last (l := z :: zs) ltac:(discriminate)) as (q & y & Q). rewrite Q in E. rewrite app_comm_cons, app_assoc in E.
    apply app_inj_tail in E. destruct E as (<- & _). apply in_or_app. right. left. reflexivity. }
  exact (NV IX).
Qed.

(** ** Keys and elements of sets *)
Lemma plus_cls c w : w <> [] -> Forall (fun x => in_cls c x = true) w -> matches (plus (R_cls c)) w.
Proof.
  intros NE F. destruct w as [|x w]; [congruence|]. change (x :: w) with ([x] ++ w). apply Mt_cat; [constructor; apply in_cls_iff; exact (Forall_inv F)|].
  apply star_cls. exact (Forall_inv_tail F).
Qed.
Lemma word_cls c (p : N -> Prop) w : (forall x, p x -> in_cls c x = true) -> word_of p w -> matches (plus (R_cls c)) w.
Proof. intros H (NE & F). apply plus_cls; [exact NE|]. apply Forall_forall. intros x X. rewrite Forall_forall in F. apply H. exact (F x X). Qed.
Lemma in_range c a b x : In (a, b) c -> a <= x <= b -> in_cls c x = true.
Proof. intros I H. apply in_cls_iff. exists (a, b). auto. Qed.
Ltac incls := repeat match goal with H : _ \/ _ |- _ => destruct H as [H|H] end; subst;
  match goal with
  | |- in_cls ?c ?x = true => first [reflexivity|match goal with H : ?a <= x <= ?b |- _ => apply (in_range c a b); [cbn [In]; tauto|exact H] end]
  end.
Definition name_cls : cls := [lower; upper; digit; (95, 95)].
Lemma name_char_cls x : name_char x -> in_cls name_cls x = true.
Proof. unfold name_char, letter, figure, name_cls, lower, upper, digit. intros H. incls. Qed.
Lemma name_mt w : word_of name_char w -> matches name_re w.
Proof. apply word_cls. exact name_char_cls. Qed.
Lemma blanks_mt b : blanks b -> matches blanks_re b.
Proof. intros H. apply star_cls. apply Forall_forall. intros x X. unfold blanks in H. rewrite Forall_forall in H. specialize (H x X). cbn [In] in H. repeat (destruct H as [ <- |H]; [reflexivity|]). destruct H. Qed.
Lemma chr_mt x : matches (chr x) [x].
Proof. constructor. exists (x, x). split; [left; reflexivity|cbn; lia]. Qed.

Definition pair_re : re := R_cat name_re (R_cat dot name_re).
Definition more_re : re := R_cat blanks_re (R_cat (text ",") (R_cat blanks_re pair_re)).
Definition key_re : re := R_cat (text "(") (R_cat blanks_re (R_cat pair_re (R_cat (R_star more_re) (R_cat blanks_re (text ")"))))).
Definition r_key : lrule := any_state key_re (A_emit T_SET_TYPE (Some L_MATCHER_SET)).
Lemma live_key : forall st, filter (live st 40) lrules = [r_key; r_any].
Proof. destruct st; reflexivity. Qed.
Lemma component_mt s : component s -> matches pair_re s.
Proof. intros (a & b & -> & A & B). apply Mt_cat; [apply name_mt; exact A|]. change (46 :: b) with ([46] ++ b). apply Mt_cat; [apply chr_mt|apply name_mt; exact B]. Qed.
Lemma components_mt l : components l -> exists b s m b', l = b ++ s ++ m ++ b' /\ blanks b /\ component s /\ matches (R_star more_re) m /\ blanks b'.
Proof.
  induction 1 as [b s b' B C B'|b s b' r B C B' _ (b2 & s2 & m & b3 & -> & B2 & C2 & M & B3)].
  - exists b, s, [], b'. split; [reflexivity|]. split; [exact B|]. split; [exact C|]. split; [constructor|exact B'].
  - exists b, s, ((b' ++ [44] ++ b2 ++ s2) ++ m), b3. split; [|split; [exact B|split; [exact C|split; [|exact B3]]]].
    + rewrite <- !app_assoc. reflexivity.
    + apply Mt_more; [|exact M]. apply Mt_cat; [apply blanks_mt; exact B'|]. apply Mt_cat; [apply chr_mt|]. apply Mt_cat; [apply blanks_mt; exact B2|apply component_mt; exact C2].
Qed.
Lemma key_mt k : key_spelled k -> matches key_re k.
Proof.
  intros (l & -> & C). destruct (components_mt l C) as (b & s & m & b' & -> & B & CS & M & B'). change (40 :: (b ++ s ++ m ++ b') ++ [41]) with ([40] ++ (b ++ s ++ m ++ b') ++ [41]).
  apply Mt_cat; [apply chr_mt|]. rewrite <- app_assoc. apply Mt_cat; [apply blanks_mt; exact B|]. rewrite <- app_assoc. apply Mt_cat; [apply component_mt; exact CS|].
  rewrite <- app_assoc. apply Mt_cat; [exact M|]. apply Mt_cat; [apply blanks_mt; exact B'|apply chr_mt].
Qed.
Lemma two_best st a b s (w : cstr) : active st a = true -> active st b = true -> longest (lr_re a) s = Some (length w) -> (1 <= length w)%nat ->
  (exists c, lr_re b = R_cls c) -> best st [a; b] s = Some (length w, lr_act a).
Proof.
  intros A B L LW (c & E). cbn [best]. rewrite A, B, L, E. destruct s as [|x s]; [cbn [longest nullable]; reflexivity|]. rewrite longest_cls.
  destruct (in_cls c x); [|reflexivity]. apply Nat.leb_le in LW. rewrite LW. reflexivity.
Qed.
Lemma key_tok st k : key_spelled k -> tok st k (T_SET_TYPE k) L_MATCHER_SET.
Proof.
  intros K. pose proof (key_mt k K) as M. destruct K as (l & E & _). assert (NE : k <> []) by (rewrite E; discriminate). split; [exact NE|]. intros s _.
  exists T_SET_TYPE, (Some L_MATCHER_SET). split; [|auto]. assert (L : longest key_re (k ++ s) = Some (length k)) by (apply (last_only_longest 41); [reflexivity|exact M]).
  assert (Q : k ++ s = 40 :: (l ++ [41]) ++ s) by (rewrite E; reflexivity). rewrite Q in L |- *. rewrite best_lrules, live_key.
  rewrite (two_best st r_key r_any _ k); [reflexivity|reflexivity|reflexivity|exact L|destruct k; [congruence|cbn [length]; lia]|eexists; reflexivity].
Qed.

Definition elements_re : re := R_cat (text "{") (R_cat (R_star (R_cls [(0, 124); (126, 255)])) (text "}")).
Definition r_elements : lrule := only_in L_MATCHER_SET elements_re (A_emit T_SET_PAYLOAD (Some L_INITIAL)).
Lemma live_elements : filter (live L_MATCHER_SET 123) lrules = [r_elements; r_any].
Proof. reflexivity. Qed.
Lemma elements_tok p : elements_spelled p -> tok L_MATCHER_SET p (T_SET_PAYLOAD p) L_INITIAL.
Proof.
  intros (l & -> & BY & NI). split; [discriminate|]. intros s _. exists T_SET_PAYLOAD, (Some L_INITIAL). split; [|auto].
  assert (M : matches elements_re ([123] ++ l ++ [125])).
  { apply Mt_cat; [apply chr_mt|]. apply Mt_cat; [|apply chr_mt]. apply star_cls. apply Forall_forall. intros x X. unfold bytes in BY. rewrite Forall_forall in BY. specialize (BY x X); cbv beta in BY; unfold byte in BY.
    assert (x <> 125) by (intros ->; exact (NI X)). apply in_cls_iff. destruct (N.lt_ge_cases x 125); [exists (0, 124)|exists (126, 255)]; cbn [In fst snd]; (split; [auto|lia]). }
  assert (L : longest elements_re ((123 :: l ++ [125]) ++ s) = Some (length (123 :: l ++ [125]))) by (apply (last_only_longest 125); [reflexivity|exact M]).
  change ((123 :: l ++ [125]) ++ s) with (123 :: (l ++ [125]) ++ s) in L |- *. rewrite best_lrules, live_elements.
  rewrite (two_best L_MATCHER_SET r_elements r_any _ (123 :: l ++ [125])); [reflexivity|reflexivity|reflexivity|exact L|cbn [length]; lia|eexists; reflexivity].
Qed.

(** ** Punctuation *)
Definition calm (st : lstate) : Prop := st = L_INITIAL \/ st = L_MATCHER_SET.
Lemma calm_quiet st : calm st -> quiet st = true.
Proof. intros [ -> | -> ]; reflexivity. Qed.
Lemma live_comma st : calm st -> filter (live st 44) lrules = [r_any].
Proof. intros [ -> | -> ]; reflexivity. Qed.
Lemma comma_lexed st s : calm st -> lexed st (44 :: s) = T_COMMA :: lexed st s.
Proof.
  intros C. assert (B : best st lrules (44 :: s) = Some (1%nat, A_char)).
  { rewrite best_lrules, (live_comma st C). cbn [best active r_any any_state lr_state lr_re lr_act]. rewrite longest_cls. reflexivity. }
  rewrite (lexed_step _ _ _ _ _ B). reflexivity.
Qed.
Lemma live_ignore c : In c [123; 44] -> filter (live L_HOOK_OPTS c) lrules = [r_ignore; r_any].
Proof. intros [ <- |[ <- |[]]]; reflexivity. Qed.
Lemma ignore_lexed c s : In c [123; 44] -> lexed L_HOOK_OPTS (c :: s) = lexed L_HOOK_OPTS s.
Proof.
  intros I. assert (B : best L_HOOK_OPTS lrules (c :: s) = Some (1%nat, A_skip None)).
  { rewrite best_lrules, (live_ignore c I). cbn [best r_ignore r_any only_in any_state lr_state lr_re lr_act active]. rewrite !longest_cls.
    destruct I as [ <- |[ <- |[]]]; reflexivity. }
  rewrite (lexed_step _ _ _ _ _ B). reflexivity.
Qed.
Lemma live_close : filter (live L_HOOK_OPTS 125) lrules = [r_close; r_any].
Proof. reflexivity. Qed.
Lemma close_lexed s : lexed L_HOOK_OPTS (125 :: s) = lexed L_INITIAL s.
Proof.
  assert (B : best L_HOOK_OPTS lrules (125 :: s) = Some (1%nat, A_skip (Some L_INITIAL))).
  { rewrite best_lrules, live_close. change (lr_re r_close) with (R_cls [(125, 125)]).
    cbn [best r_close r_any only_in any_state lr_state lr_re lr_act active]. change (text "}") with (R_cls [(125, 125)]). rewrite !longest_cls. reflexivity. }
  rewrite (lexed_step _ _ _ _ _ B). reflexivity.
Qed.

(** ** Sequences *)
Inductive runs : lstate -> list lexeme -> list token -> lstate -> Prop :=
| Ru_nil st : runs st [] [] st
| Ru_word st w t st' l ts st2 : tok st w t st' -> match l with Pn _ :: _ => quiet st = true | _ => True end ->
    runs st' l ts st2 -> runs st (Wd w :: l) (t :: ts) st2
| Ru_comma st l ts st2 : calm st -> runs st l ts st2 -> runs st (Pn 44 :: l) (T_COMMA :: ts) st2
| Ru_ignore c l ts st2 : In c [123; 44] -> runs L_HOOK_OPTS l ts st2 -> runs L_HOOK_OPTS (Pn c :: l) ts st2
| Ru_close l ts st2 : runs L_INITIAL l ts st2 -> runs L_HOOK_OPTS (Pn 125 :: l) ts st2.
Definition no_punct (l : list lexeme) : Prop := match l with Pn _ :: _ => False | _ => True end.
Lemma runs_app st l1 t1 st1 l2 t2 st2 : runs st l1 t1 st1 -> runs st1 l2 t2 st2 -> no_punct l2 -> runs st (l1 ++ l2) (t1 ++ t2) st2.
Proof.
  intros R1 R2 NP. induction R1 as [st|st w t st' l ts st3 T Q _ IH|st l ts st3 C _ IH|c l ts st3 I _ IH|l ts st3 _ IH]; cbn [app].
  - exact R2.
  - apply (Ru_word _ _ _ st'); [exact T| |exact (IH R2)]. destruct l as [|[w'|c'] l]; cbn [app]; auto. destruct l2 as [|[w'|c'] l2]; auto; destruct NP.
  - apply Ru_comma; auto.
  - apply Ru_ignore; auto.
  - apply Ru_close; auto.
Qed.
Lemma gap_head g : gap g -> match g with [] => True | c :: _ => In c [32; 9; 10; 35] end.
Proof. intros G. destruct G as [|c s I _|t s _ _ _]; cbn [In] in *; tauto. Qed.
Lemma runs_lexed st l ts st2 : runs st l ts st2 -> forall s, laid_out l s -> lexed st s = ts.
Proof.
  induction 1 as [st|st w t st' l ts st3 T Q R IH|st l ts st3 C _ IH|c l ts st3 I _ IH|l ts st3 _ IH]; intros s LO.
  - inversion LO as [g G| |]; subst. rewrite <- (app_nil_r s), lexed_gap by exact G. reflexivity.
  - inversion LO as [| |w' l' g u G LO' SEP E1 E2]; subst. rewrite lexed_gap by exact G. rewrite (tok_lexed _ _ _ _ _ T); [f_equal; apply IH; exact LO'|].
    destruct l as [|[w'|c'] l].
    + inversion LO' as [g' G'| |]; subst. pose proof (gap_head _ G') as H. destruct u as [|x u]; cbn [ends_word]; [exact Logic.I|]. unfold stops_of. apply in_or_app. left. exact H.
    + destruct SEP as (x & u' & -> & IX). cbn [ends_word]. unfold stops_of. apply in_or_app. left. exact IX.
    + assert (PC : In c' [44; 123; 125]).
      { inversion R; subst; cbn [In] in *; tauto. }
      inversion LO' as [|c2 l2 g' u' G' LO2 E1 E2|]; subst. unfold ends_word, stops_of. rewrite Q. pose proof (gap_head _ G') as H. destruct g' as [|x g']; cbn [app].
      * cbn [In] in PC |- *. tauto.
      * cbn [In] in H |- *. tauto.
  - inversion LO as [|c2 l2 g' u' G' LO2 E1 E2|]; subst. rewrite lexed_gap by exact G'. rewrite (comma_lexed _ _ C). f_equal. apply IH. exact LO2.
  - inversion LO as [|c2 l2 g' u' G' LO2 E1 E2|]; subst. rewrite lexed_gap by exact G'. rewrite (ignore_lexed _ _ I). apply IH. exact LO2.
  - inversion LO as [|c2 l2 g' u' G' LO2 E1 E2|]; subst. rewrite lexed_gap by exact G'. rewrite close_lexed. apply IH. exact LO2.
Qed.
