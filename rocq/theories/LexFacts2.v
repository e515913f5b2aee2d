(** A word, and what follows it. *)
From Coq Require Import String NArith List Bool Arith Lia.
From Verif Require Import Bytes Types GenModel BytesFacts StrModel StrFacts EnumModel PrintFacts2 RulesTextModel RulesTextSpec LexModel LexSpec LexFacts.
Import ListNotations.
Local Open Scope string_scope.
Local Open Scope list_scope.
Local Open Scope N_scope.

(** ** Characters that end words *)
Fixpoint avoids (x : N) (r : re) : bool :=
  match r with
  | R_none | R_empty => true
  | R_cls c => negb (in_cls c x)
  | R_cat a b | R_alt a b => avoids x a && avoids x b
  | R_star a => avoids x a
  end.
Lemma avoids_der x r : avoids x r = true -> der x r = R_none.
Proof.
  induction r as [| |c|a IHa b IHb|a IHa b IHb|a IHa]; cbn [avoids der]; intros H; try reflexivity.
  - apply negb_true_iff in H. rewrite H. reflexivity.
  - apply andb_prop in H. destruct H as (A & B). rewrite (IHa A), (IHb B). destruct (nullable a); reflexivity.
  - apply andb_prop in H. destruct H as (A & B). rewrite (IHa A), (IHb B). reflexivity.
  - rewrite (IHa H). reflexivity.
Qed.
Lemma avoids_cat x a b : avoids x a = true -> avoids x b = true -> avoids x (cat a b) = true.
Proof. intros A B. destruct a, b; cbn [cat avoids] in *; rewrite ?A, ?B; reflexivity. Qed.
Lemma avoids_alt x a b : avoids x a = true -> avoids x b = true -> avoids x (alt a b) = true.
Proof. intros A B. destruct a, b; cbn [alt avoids] in *; rewrite ?A, ?B; reflexivity. Qed.
Lemma avoids_kept x y r : avoids x r = true -> avoids x (der y r) = true.
Proof.
  induction r as [| |c|a IHa b IHb|a IHa b IHb|a IHa]; cbn [avoids der]; intros H; try reflexivity.
  - destruct (in_cls c y); reflexivity.
  - apply andb_prop in H. destruct H as (A & B). destruct (nullable a).
    + apply avoids_alt; [apply avoids_cat; auto|auto].
    + apply avoids_cat; auto.
  - apply andb_prop in H. destruct H as (A & B). apply avoids_alt; auto.
  - apply avoids_cat; auto.
Qed.
Lemma longest_stop x s w : forall r, avoids x r = true -> longest r (w ++ x :: s) = longest r w.
Proof.
  induction w as [|y w IH]; intros r A; cbn [app].
  - rewrite longest_eq, (avoids_der _ _ A). assert (Q : longest R_none s = None) by (destruct s; reflexivity). rewrite Q. destruct r; reflexivity.
  - rewrite !longest_eq, IH; [reflexivity|]. apply avoids_kept. exact A.
Qed.

(** What a pattern can begin with. *)
Fixpoint firsts_of (r : re) : cls :=
  match r with
  | R_none | R_empty => []
  | R_cls c => c
  | R_cat a b => if nullable a then firsts_of a ++ firsts_of b else firsts_of a
  | R_alt a b => firsts_of a ++ firsts_of b
  | R_star a => firsts_of a
  end.
Lemma in_cls_app a b x : in_cls (a ++ b) x = in_cls a x || in_cls b x.
Proof. unfold in_cls. apply existsb_app. Qed.
Lemma firsts_der x r : in_cls (firsts_of r) x = false -> der x r = R_none.
Proof.
  induction r as [| |c|a IHa b IHb|a IHa b IHb|a IHa]; cbn [firsts_of der]; intros H; try reflexivity.
  - rewrite H. reflexivity.
  - destruct (nullable a).
    + rewrite in_cls_app in H. apply orb_false_elim in H. destruct H as (A & B). rewrite (IHa A), (IHb B). reflexivity.
    + rewrite (IHa H). reflexivity.
  - rewrite in_cls_app in H. apply orb_false_elim in H. destruct H as (A & B). rewrite (IHa A), (IHb B). reflexivity.
  - rewrite (IHa H). reflexivity.
Qed.

(** Words start with one of these. *)
Definition word_start : cls := [(48, 57); (65, 90); (97, 122); (95, 95); (45, 45); (58, 58); (47, 47)].
Definition no_start (r : re) : bool := forallb (fun x => negb (in_cls word_start x && in_cls (firsts_of r) x)) (below 256).
Definition small_start : forall x, in_cls word_start x = true -> x < 256.
Proof. intros x H. apply in_cls_iff in H. destruct H as (q & I & A). cbn [In word_start] in I. repeat (destruct I as [ <- |I]; [cbn [fst snd] in A; lia|]). destruct I. Qed.
Lemma no_start_der r x : no_start r = true -> in_cls word_start x = true -> der x r = R_none.
Proof.
  intros H W. apply firsts_der. unfold no_start in H. rewrite forallb_forall in H. specialize (H x (below_in _ _ (small_start x W))).
  rewrite W in H. destruct (in_cls (firsts_of r) x); [discriminate H|reflexivity].
Qed.
Lemma longest_dead r x s : der x r = R_none -> nullable r = false -> longest r (x :: s) = None.
Proof. intros D N. rewrite longest_eq, D, N. assert (Q : longest R_none s = None) by (destruct s; reflexivity). rewrite Q. reflexivity. Qed.

(** In state [st], these end words. *)
Definition quiet (st : lstate) : bool := match st with L_INITIAL | L_HOOK_OPTS | L_MATCHER_SET => true | _ => false end.
Definition stops_of (st : lstate) : list N := [32; 9; 10; 35] ++ if quiet st then [44; 123; 125] else [].
Definition all_states : list lstate :=
  [L_INITIAL; L_HOOK_OPTS; L_MARK_OPTS; L_LOG_EVERY; L_REDIRECT_IFACE; L_REDIRECT_DIR; L_MATCHER_SET; L_META_IFACE; L_META_L3_PROTO;
   L_META_MARK; L_META_FLOW_HASH; L_L4_PROTO; L_META_PROBA; L_IPV4_ADDR; L_IP4_NET; L_IP4_DSCP; L_IP6_ADDR; L_IP6_NET; L_IP6_DSCP;
   L_PORT; L_ICMP_TYPE; L_ICMP_CODE; L_TCP_FLAGS].
Lemma all_states_in st : In st all_states.
Proof. destruct st; cbn [all_states In]; tauto. Qed.
Definition is_cls (r : re) : bool := match r with R_cls _ => true | _ => false end.
Definition stopped (st : lstate) (r : lrule) : bool :=
  negb (active st r) || forallb (fun x => avoids x (lr_re r)) (stops_of st) || no_start (lr_re r) || is_cls (lr_re r).
Lemma all_stopped : forallb (fun st => forallb (stopped st) lrules) all_states = true.
Proof. vm_compute. reflexivity. Qed.

Lemma best_ext st l s s' : (forall r, In r l -> active st r = true -> longest (lr_re r) s = longest (lr_re r) s') -> best st l s = best st l s'.
Proof.
  induction l as [|r l IH]; intros H; cbn [best]; [reflexivity|]. rewrite IH by (intros q I; apply H; right; exact I).
  destruct (active st r) eqn:A; [rewrite (H r (or_introl eq_refl) A)|]; reflexivity.
Qed.
Definition ends_word (st : lstate) (t : cstr) : Prop := match t with [] => True | x :: _ => In x (stops_of st) end.
Lemma best_word st c w t : in_cls word_start c = true -> ends_word st t -> best st lrules ((c :: w) ++ t) = best st lrules (c :: w).
Proof.
  intros W S. destruct t as [|x t]; [rewrite app_nil_r; reflexivity|]. cbn [ends_word] in S. apply best_ext. intros r I A.
  pose proof (proj1 (forallb_forall _ _) (proj1 (forallb_forall _ _) all_stopped st (all_states_in st)) r I) as ST. unfold stopped in ST.
  rewrite A in ST. cbn [negb orb] in ST. apply orb_prop in ST. destruct ST as [ST|ST]; [apply orb_prop in ST; destruct ST as [ST|ST]|].
  - rewrite forallb_forall in ST. apply longest_stop. apply ST. exact S.
  - assert (N : nullable (lr_re r) = false) by (pose proof (proj1 (forallb_forall _ _) never_empty r I) as F; cbv beta in F; apply negb_true_iff in F; exact F).
    cbn [app]. rewrite !longest_dead; auto; apply no_start_der; assumption.
  - destruct (lr_re r) as [| |cl| | |]; try discriminate. cbn [app]. rewrite !longest_eq. cbn [der].
    destruct (in_cls cl c).
    + assert (Q : forall s, longest R_empty s = Some O).
      { intros [|y s]; [reflexivity|]. rewrite longest_eq. cbn [der]. assert (Q : longest R_none s = None) by (destruct s; reflexivity). rewrite Q. reflexivity. }
      rewrite !Q. reflexivity.
    + assert (Q : forall s, longest R_none s = None) by (intros [|]; reflexivity). rewrite !Q. reflexivity.
Qed.

(** ** A word that is one token *)
Lemma firstn_length_all (s : cstr) k : (k <= length s)%nat -> (k = length s)%nat -> firstn k s = s.
Proof. intros _ ->. apply firstn_all. Qed.
Lemma whole_best st w i r : nth_error lrules i = Some r -> active st r = true -> w <> [] -> whole (lr_re r) w = true ->
  (forall j q, (j < i)%nat -> nth_error lrules j = Some q -> active st q = true -> whole (lr_re q) w = false) ->
  best st lrules w = Some (length w, lr_act r).
Proof.
  intros N A NE M O. apply best_iff. exists i. split.
  - exists r. split; [exact N|]. split; [apply active_iff; exact A|]. split; [reflexivity|]. split; [lia|]. rewrite firstn_all. apply whole_iff. exact M.
  - intros i' k' a' (q & N' & A' & _ & K & M'). destruct (Nat.eq_dec k' (length w)) as [->|NK]; [|left; lia]. right. split; [reflexivity|].
    destruct (le_lt_dec i i') as [L|L]; [exact L|]. exfalso. rewrite firstn_all in M'. apply whole_iff in M'. apply active_iff in A'.
    rewrite (O i' q L N' A') in M'. discriminate.
Qed.

(** The patterns that are lists of words. *)
Fixpoint lang (r : re) : option (list cstr) :=
  match r with
  | R_none => Some []
  | R_empty => Some [[]]
  | R_cls [(a, b)] => if a =? b then Some [[a]] else None
  | R_cls _ => None
  | R_cat a b => match lang a, lang b with Some x, Some y => Some (flat_map (fun u => map (app u) y) x) | _, _ => None end
  | R_alt a b => match lang a, lang b with Some x, Some y => Some (x ++ y) | _, _ => None end
  | R_star _ => None
  end.
Lemma lang_ok r : forall l w, lang r = Some l -> matches r w -> In w l.
Proof.
  induction r as [| |c|a IHa b IHb|a IHa b IHb|a IHa]; intros l w; cbn [lang].
  - intros _ M. inversion M.
  - intros E M. injection E as <-. apply mt_empty in M. left. congruence.
  - destruct c as [|[a b] [|? ?]]; try discriminate. destruct (N.eqb_spec a b) as [->|]; [|discriminate]. intros E M. injection E as <-.
    inversion M as [|c x H| | | | |]; subst. destruct H as (q & [ <- |[]] & R). cbn [fst snd] in R. left. f_equal. lia.
  - destruct (lang a) as [x|]; [|discriminate]. destruct (lang b) as [y|]; [|discriminate]. intros E M. injection E as <-.
    apply mt_cat in M. destruct M as (u & v & -> & A & B). apply in_flat_map. exists u. split; [exact (IHa _ _ eq_refl A)|]. apply in_map. exact (IHb _ _ eq_refl B).
  - destruct (lang a) as [x|]; [|discriminate]. destruct (lang b) as [y|]; [|discriminate]. intros E M. injection E as <-.
    apply mt_alt in M. apply in_or_app. destruct M as [M|M]; [left; exact (IHa _ _ eq_refl M)|right; exact (IHb _ _ eq_refl M)].
  - discriminate.
Qed.

(** The patterns whose words all have a character that is not in [cl]. *)
Fixpoint strays (cl : cls) (r : re) : bool :=
  match r with
  | R_none => true
  | R_empty => false
  | R_cls c => forallb (fun q => (snd q <? 256) && true) c && forallb (fun x => negb (in_cls c x && in_cls cl x)) (below 256)
  | R_cat a b => strays cl a || strays cl b
  | R_alt a b => strays cl a && strays cl b
  | R_star _ => false
  end.
Lemma strays_ok cl r : forall w, strays cl r = true -> matches r w -> exists x, In x w /\ in_cls cl x = false.
Proof.
  induction r as [| |c|a IHa b IHb|a IHa b IHb|a IHa]; intros w S M; cbn [strays] in S; try discriminate.
  - inversion M.
  - apply andb_prop in S. destruct S as (S1 & S2). inversion M as [|c' x H| | | | |]; subst. exists x. split; [left; reflexivity|].
    pose proof (proj2 (in_cls_iff c x) H) as IC. destruct H as (q & I & R). rewrite forallb_forall in S1, S2. specialize (S1 q I).
    rewrite andb_true_r in S1. apply N.ltb_lt in S1. assert (L : x < 256) by lia. specialize (S2 x (below_in _ _ L)). rewrite IC in S2.
    destruct (in_cls cl x); [discriminate|reflexivity].
  - apply mt_cat in M. destruct M as (u & v & -> & A & B). apply orb_prop in S. destruct S as [S|S].
    + destruct (IHa _ S A) as (x & I & C). exists x. split; [apply in_or_app; auto|exact C].
    + destruct (IHb _ S B) as (x & I & C). exists x. split; [apply in_or_app; auto|exact C].
  - apply andb_prop in S. destruct S as (S1 & S2). apply mt_alt in M. destruct M as [M|M]; eauto.
Qed.

(** Rule [i] is the first for a word made of [cl] that is not in [except] and that the
    pattern of hooks does not match. *)
Definition HOOK_RULE : nat := 7.
Definition hook_pattern : re := (R_cat (text "BF_HOOK_") (plus (R_cls [upper; digit; (95, 95)]))).
Lemma hook_rule : option_map lr_re (nth_error lrules HOOK_RULE) = Some hook_pattern.
Proof. reflexivity. Qed.
Definition other (cl : cls) (except : list cstr) (st : lstate) (q : lrule) : bool :=
  negb (active st q) || strays cl (lr_re q) ||
  match lang (lr_re q) with Some l => forallb (fun u => existsb (bytes_eqb u) except || existsb (fun x => negb (in_cls cl x)) u) l | None => false end.
Definition others (cl : cls) (except : list cstr) (st : lstate) (i : nat) (hooks : bool) : bool :=
  forallb (fun j => match nth_error lrules j with
                    | Some q => other cl except st q || (negb hooks && (j =? HOOK_RULE)%nat)
                    | None => true
                    end) (seq 0 i).
Lemma first_word st cl except i r w hooks :
  nth_error lrules i = Some r -> active st r = true -> others cl except st i hooks = true ->
  w <> [] -> Forall (fun x => in_cls cl x = true) w -> ~ In w except -> (hooks = false -> ~ matches hook_pattern w) -> whole (lr_re r) w = true ->
  best st lrules w = Some (length w, lr_act r).
Proof.
  intros N A O NE C X H M. apply (whole_best st w i r N A NE M). intros j q L NJ AJ.
  destruct (whole (lr_re q) w) eqn:W; [|reflexivity]. exfalso. unfold others in O. rewrite forallb_forall in O.
  specialize (O j). rewrite NJ in O. rewrite in_seq in O. specialize (O ltac:(lia)). apply whole_iff in W. apply orb_prop in O. destruct O as [O|O].
  - unfold other in O. rewrite AJ in O. cbn [negb orb] in O. apply orb_prop in O. destruct O as [O|O].
    + destruct (strays_ok _ _ _ O W) as (x & I & E). rewrite Forall_forall in C. rewrite (C x I) in E. discriminate.
    + destruct (lang (lr_re q)) as [l|] eqn:EL; [|discriminate]. pose proof (lang_ok _ _ _ EL W) as IW.
      rewrite forallb_forall in O. specialize (O w IW). apply orb_prop in O. destruct O as [O|O]; apply existsb_exists in O; destruct O as (x & I & E).
      * apply bytes_eqb_eq in E. subst x. exact (X I).
      * rewrite Forall_forall in C. rewrite (C x I) in E. discriminate.
  - apply andb_prop in O. destruct O as (O1 & O2). apply negb_true_iff in O1. apply Nat.eqb_eq in O2. subst j. apply (H O1).
    pose proof hook_rule as HR. rewrite NJ in HR. cbn [option_map] in HR. injection HR as HR. rewrite HR in W. exact W.
Qed.
Lemma hook_pattern_like w : matches hook_pattern w -> hook_like w.
Proof.
  intros W. apply mt_cat in W. destruct W as (u & v & -> & A1 & _). assert (LU : lang (text "BF_HOOK_") = Some [lit "BF_HOOK_"]) by reflexivity.
  destruct (lang_ok _ _ _ LU A1) as [ <- |[]]. exists v. reflexivity.
Qed.
