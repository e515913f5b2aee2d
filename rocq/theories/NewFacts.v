(** Chain construction. *)
From Coq Require Import NArith ZArith List Bool Lia.
From Verif Require Import Bytes Types World BpfModel GenModel PktSpec Wf BytesFacts ChainModel NewSpec.
Import ListNotations.
Local Open Scope N_scope.
Local Open Scope res_scope.

Lemma bind_ok {A B} (m : res A) (k : A -> res B) b : bind m k = Ok b -> exists a, m = Ok a /\ k a = Ok b.
Proof. destruct m; cbn; [eauto|discriminate]. Qed.

Lemma Ok_inj {A} (x y : A) : Ok x = Ok y -> x = y.
Proof. congruence. Qed.

Ltac binv H := let a := fresh "a" in let E := fresh "E" in apply bind_ok in H as (a & E & H).

Section R.
  Variable sets : list bset.

  Definition refs ms := forall m, In m ms -> m_type m = M_SET -> exists s, set_of sets m = Some s.
  Definition uses_empty ms := exists m s, In m ms /\ m_type m = M_SET /\ set_of sets m = Some s /\ s_elems s = [].

  Lemma is_set_dec m : m_type m = M_SET \/ m_type m <> M_SET.
  Proof. destruct (mtype_eq_dec (m_type m) M_SET); auto. Qed.

  Lemma not_set_match {A} m (a b : A) : m_type m <> M_SET -> match m_type m with M_SET => a | _ => b end = b.
  Proof. destruct (m_type m); auto. congruence. Qed.

  Lemma refs_cons m ms : refs (m :: ms) <-> (m_type m = M_SET -> exists s, set_of sets m = Some s) /\ refs ms.
  Proof.
    unfold refs. split.
    - intros H. split; [apply H; left; auto|]. intros x Hx. apply H. right. exact Hx.
    - intros [A B] x [<-|Hx]; auto.
  Qed.

  Lemma uses_empty_cons m ms : uses_empty (m :: ms) <->
    (m_type m = M_SET /\ exists s, set_of sets m = Some s /\ s_elems s = []) \/ uses_empty ms.
  Proof.
    unfold uses_empty. split.
    - intros (x & s & [<-|Hx] & A & B & C); [left; split; eauto|right; exists x, s; auto].
    - intros [[A (s & B & C)]|(x & s & Hx & A & B & C)].
      + exists m, s. cbn; auto.
      + exists x, s. cbn; auto.
  Qed.

  Lemma references_empty_ok ms b : references_empty sets ms = Ok b -> (b = true <-> uses_empty ms).
  Proof.
    induction ms as [|m ms IH]; cbn [references_empty].
    - intros H. injection H as <-. split; [discriminate|]. intros (m & s & [] & _).
    - destruct (is_set_dec m) as [E|E].
      + rewrite E. destruct (set_of sets m) as [s|] eqn:Es; [|discriminate]. rewrite uses_empty_cons.
        destruct (s_elems s) as [|x l] eqn:El.
        * intros H. injection H as <-. split; auto. intros _. left. split; auto. exists s. auto.
        * intros H. rewrite IH by exact H. split; auto. intros [[_ (s' & E1 & E2)]|K]; auto. rewrite Es in E1. injection E1 as <-. congruence.
      + rewrite not_set_match by exact E. intros H. rewrite IH by exact H. rewrite uses_empty_cons. tauto.
  Qed.

  Lemma references_empty_def ms : refs ms -> exists b, references_empty sets ms = Ok b.
  Proof.
    induction ms as [|m ms IH]; cbn [references_empty]; [eauto|]. rewrite refs_cons. intros [A B].
    destruct (is_set_dec m) as [E|E].
    - rewrite E. destruct (A E) as (s & ->). destruct (s_elems s); eauto.
    - rewrite not_set_match by exact E. auto.
  Qed.

  (** Layers. *)
  Definition types ms := flat_map (types_of sets) ms.
  Definition agrees (tr : option N * option N) (t : mtype) : Prop :=
    match mt_layer (meta_of t) with
    | L_NONE => True
    | L_3 => forall h, fst tr = Some h -> h = mt_hdr (meta_of t)
    | L_4 => forall h, snd tr = Some h -> h = mt_hdr (meta_of t)
    end.

  Lemma hdr_conflict t t' : mt_layer (meta_of t) = mt_layer (meta_of t') -> mt_layer (meta_of t) <> L_NONE -> 
    mt_hdr (meta_of t) = mt_hdr (meta_of t') \/ mt_hdr (meta_of t) <> mt_hdr (meta_of t').
  Proof. intros _ _. destruct (N.eq_dec (mt_hdr (meta_of t)) (mt_hdr (meta_of t'))); auto. Qed.

  (** Types seen so far, with the tracking array they produce. *)
  Definition conflict (ts : list mtype) : Prop := exists t t', In t ts /\ In t' ts /\
    mt_layer (meta_of t) = mt_layer (meta_of t') /\ mt_layer (meta_of t) <> L_NONE /\ mt_hdr (meta_of t) <> mt_hdr (meta_of t').

  Definition tracks (seen : list mtype) (tr : option N * option N) : Prop :=
    (forall t, In t seen -> mt_layer (meta_of t) = L_3 -> fst tr = Some (mt_hdr (meta_of t))) /\
    (forall t, In t seen -> mt_layer (meta_of t) = L_4 -> snd tr = Some (mt_hdr (meta_of t))) /\
    (forall h, fst tr = Some h -> exists t, In t seen /\ mt_layer (meta_of t) = L_3 /\ mt_hdr (meta_of t) = h) /\
    (forall h, snd tr = Some h -> exists t, In t seen /\ mt_layer (meta_of t) = L_4 /\ mt_hdr (meta_of t) = h).

  Lemma conflict_mono a b : conflict a -> conflict (a ++ b).
  Proof. intros (t & t' & A & B & C). exists t, t'. split; [apply in_or_app; auto|]. split; [apply in_or_app; auto|]. exact C. Qed.

  Lemma check_layer_ok t seen tr b tr' : tracks seen tr -> check_layer t tr = (b, tr') ->
    if b then conflict (seen ++ [t]) else tracks (seen ++ [t]) tr'.
  Proof.
    intros (A3 & A4 & B3 & B4). unfold check_layer. destruct tr as [h3 h4]. cbn [fst snd] in *.
    assert (IN : forall x, In x (seen ++ [t]) <-> In x seen \/ x = t).
    { intros x. rewrite in_app_iff. cbn. intuition. }
    destruct (mt_layer (meta_of t)) eqn:L.
    - intros H. injection H as <- <-. split; [|split; [|split]]; cbn [fst snd].
      + intros x. rewrite IN. intros [Hx|Hx] K; [auto|congruence].
      + intros x. rewrite IN. intros [Hx|Hx] K; [auto|congruence].
      + intros h E. destruct (B3 h E) as (x & Hx & K). exists x. rewrite IN. auto.
      + intros h E. destruct (B4 h E) as (x & Hx & K). exists x. rewrite IN. auto.
    - destruct h3 as [h|].
      + intros H. injection H as <- <-. destruct (B3 h eq_refl) as (x & Hx & Lx & Ex).
        destruct (N.eqb_spec h (mt_hdr (meta_of t))) as [E|E]; cbn [negb].
        * split; [|split; [|split]]; cbn [fst snd].
          -- intros y. rewrite IN. intros [Hy|Hy] K; [auto|]. subst y. congruence.
          -- intros y. rewrite IN. intros [Hy|Hy] K; [auto|congruence].
          -- intros h' E'. exists x. rewrite IN. intuition congruence.
          -- intros h' E'. destruct (B4 h' E') as (y & Hy & K). exists y. rewrite IN. auto.
        * exists x, t. rewrite !IN. intuition congruence.
      + intros H. injection H as <- <-. split; [|split; [|split]]; cbn [fst snd].
        * intros y. rewrite IN. intros [Hy|Hy] K; [rewrite (A3 y Hy K) in *; discriminate (A3 y Hy K)|subst; auto].
        * intros y. rewrite IN. intros [Hy|Hy] K; [auto|congruence].
        * intros h' E'. injection E' as <-. exists t. rewrite IN. auto.
        * intros h' E'. destruct (B4 h' E') as (y & Hy & K). exists y. rewrite IN. auto.
    - destruct h4 as [h|].
      + intros H. injection H as <- <-. destruct (B4 h eq_refl) as (x & Hx & Lx & Ex).
        destruct (N.eqb_spec h (mt_hdr (meta_of t))) as [E|E]; cbn [negb].
        * split; [|split; [|split]]; cbn [fst snd].
          -- intros y. rewrite IN. intros [Hy|Hy] K; [auto|congruence].
          -- intros y. rewrite IN. intros [Hy|Hy] K; [auto|]. subst y. congruence.
          -- intros h' E'. destruct (B3 h' E') as (y & Hy & K). exists y. rewrite IN. auto.
          -- intros h' E'. exists x. rewrite IN. intuition congruence.
        * exists x, t. rewrite !IN. intuition congruence.
      + intros H. injection H as <- <-. split; [|split; [|split]]; cbn [fst snd].
        * intros y. rewrite IN. intros [Hy|Hy] K; [auto|congruence].
        * intros y. rewrite IN. intros [Hy|Hy] K; [discriminate (A4 y Hy K)|subst; auto].
        * intros h' E'. destruct (B3 h' E') as (y & Hy & K). exists y. rewrite IN. auto.
        * intros h' E'. injection E' as <-. exists t. rewrite IN. auto.
  Qed.

  Lemma tracks_no_conflict seen tr : tracks seen tr -> ~ conflict seen.
  Proof.
    intros (A3 & A4 & _) (t & t' & H & H' & L & N & D). destruct (mt_layer (meta_of t)) eqn:E; [congruence| |].
    - apply D. pose proof (A3 t H E) as X. pose proof (A3 t' H' (eq_sym L)) as Y. congruence.
    - apply D. pose proof (A4 t H E) as X. pose proof (A4 t' H' (eq_sym L)) as Y. congruence.
  Qed.

  Lemma check_layers_ok ts : forall seen tr b tr', tracks seen tr -> check_layers ts tr = (b, tr') ->
    if b then conflict (seen ++ ts) else tracks (seen ++ ts) tr'.
  Proof.
    induction ts as [|t ts IH]; intros seen tr b tr' T; cbn [check_layers].
    - intros H. injection H as <- <-. rewrite app_nil_r. exact T.
    - destruct (check_layer t tr) as [x tr1] eqn:E. pose proof (check_layer_ok _ _ _ _ _ T E) as X.
      destruct x.
      + intros H. injection H as <- <-. change (t :: ts) with ([t] ++ ts). rewrite app_assoc. apply conflict_mono. exact X.
      + intros H. change (t :: ts) with ([t] ++ ts). rewrite app_assoc. eapply IH; eauto.
  Qed.

  Lemma types_bind m : refs [m] ->
    match m_type m with M_SET => match set_of sets m with Some s => Ok (s_key s) | None => Er ENOENT end | t => Ok [t] end =
    Ok (types_of sets m).
  Proof.
    intros R. unfold types_of. destruct (is_set_dec m) as [E|E].
    - rewrite E. destruct (R m (or_introl eq_refl) E) as (s & ->). reflexivity.
    - destruct (m_type m); try reflexivity. congruence.
  Qed.

  Lemma types_bind_inv m ts : 
    match m_type m with M_SET => match set_of sets m with Some s => Ok (s_key s) | None => Er ENOENT end | t => Ok [t] end = Ok ts ->
    ts = types_of sets m.
  Proof.
    unfold types_of. intros H. destruct (m_type m); try (injection H as <-; reflexivity).
    destruct (set_of sets m); [|discriminate]. injection H as <-. reflexivity.
  Qed.

  Lemma incompatible_ok ms : forall seen tr b, tracks seen tr -> has_incompatible sets ms tr = Ok b ->
    (b = true <-> conflict (seen ++ types ms)).
  Proof.
    induction ms as [|m ms IH]; intros seen tr b T; cbn [has_incompatible].
    - intros H. injection H as <-. unfold types. cbn [flat_map]. rewrite app_nil_r. split; [discriminate|].
      intros C. exfalso. eapply tracks_no_conflict; eauto.
    - intros H. binv H. apply types_bind_inv in E. subst a.
      destruct (check_layers (types_of sets m) tr) as [x tr1] eqn:E. pose proof (check_layers_ok _ _ _ _ _ T E) as X.
      unfold types. cbn [flat_map]. fold (types ms). rewrite app_assoc. destruct x.
      + injection H as <-. split; auto. intros _. apply conflict_mono. exact X.
      + eapply IH; eauto.
  Qed.

  Lemma incompatible_def ms : forall tr, refs ms -> exists b, has_incompatible sets ms tr = Ok b.
  Proof.
    induction ms as [|m ms IH]; intros tr; cbn [has_incompatible]; [eauto|].
    rewrite refs_cons. intros [A B]. rewrite types_bind by (rewrite refs_cons; split; [exact A|intros ? []]). cbn [bind].
    destruct (check_layers _ _) as [[] ?]; eauto.
  Qed.

  Variable h : hook.
  Definition fine m := unsupported (m_type m) h = false /\
    (m_type m = M_SET -> exists s, set_of sets m = Some s /\ forall t, In t (s_key s) -> unsupported t h = false).

  Lemma check_matchers_ok d ms : forall nh, (exists b, check_matchers h sets d ms nh = Ok b) <-> Forall fine ms.
  Proof.
    induction ms as [|m ms IH]; intros nh; cbn [check_matchers].
    - split; eauto.
    - cbv zeta. set (nh' := nh || _). clearbody nh'. split.
      + intros (b & H). destruct (unsupported (m_type m) h) eqn:U; [discriminate|].
        destruct (is_set_dec m) as [E|E].
        * rewrite E in H. destruct (set_of sets m) as [s|] eqn:Es; [|discriminate].
          destruct (existsb _ (s_key s)) eqn:X; [discriminate|].
          constructor; [|apply (IH nh'); eauto]. split; auto. intros _. exists s. split; auto. intros t Ht.
          destruct (unsupported t h) eqn:Ut; auto. exfalso. rewrite <- not_true_iff_false in X. apply X. apply existsb_exists. eauto.
        * rewrite not_set_match in H by exact E. constructor; [|apply (IH nh'); eauto]. split; auto. congruence.
      + intros H. inversion H as [|x l [U F] Fs]; subst. rewrite U. destruct (is_set_dec m) as [E|E].
        * rewrite E. destruct (F E) as (s & -> & K).
          replace (existsb (fun t => unsupported t h) (s_key s)) with false; [apply IH; exact Fs|].
          symmetry. apply not_true_iff_false. intros X. apply existsb_exists in X as (t & Ht & Ut). rewrite K in Ut by exact Ht. discriminate.
        * rewrite not_set_match by exact E. apply IH. exact Fs.
  Qed.

  Lemma check_matchers_nh d ms : forall nh b, check_matchers h sets d ms nh = Ok b ->
    b = nh || (negb d && existsb (fun m => match m_type m with M_IP6_NEXTHDR => true | _ => false end) ms).
  Proof.
    induction ms as [|m ms IH]; intros nh b; cbn [check_matchers existsb].
    - intros H. injection H as <-. rewrite andb_false_r, orb_false_r. reflexivity.
    - cbv zeta. destruct (unsupported _ h); [discriminate|]. intros H.
      assert (H' : exists nh', check_matchers h sets d ms nh' = Ok b /\ nh' = nh || match m_type m with M_IP6_NEXTHDR => negb d | _ => false end).
      { destruct (is_set_dec m) as [E|E].
        - rewrite E in H. destruct (set_of sets m) as [s|]; [|discriminate]. destruct (existsb _ (s_key s)); [discriminate H|]. rewrite E. eauto.
        - rewrite not_set_match in H by exact E. eauto. }
      destruct H' as (nh' & H' & ->). apply IH in H'. rewrite H'.
      destruct (m_type m); destruct nh, d; cbn [negb andb orb]; try reflexivity; destruct (existsb _ ms); reflexivity.
  Qed.
End R.

Lemma mark_set_iff r : mark_is_set r = true <-> 4294967296 <= r_mark r.
Proof.
  unfold mark_is_set. rewrite negb_true_iff, N.eqb_neq. change two32 with 4294967296. split.
  - intros H. destruct (N.lt_ge_cases (r_mark r) 4294967296) as [L|L]; auto. exfalso. apply H. apply N.div_small. exact L.
  - intros H E. apply N.div_small_iff in E; [lia|discriminate].
Qed.

Lemma talks_conflict sets r : conflict (types sets (r_matchers r)) <-> mixes_protocols sets r.
Proof.
  unfold conflict, mixes_protocols, talks_about, types. split; intros (t & t' & A & B & C); exists t, t'.
  - apply in_flat_map in A, B. destruct A as (m & A1 & A2), B as (m' & B1 & B2). split; [eauto|]. split; [eauto|exact C].
  - destruct A as (m & A1 & A2), B as (m' & B1 & B2). rewrite !in_flat_map. split; [eauto|]. split; [eauto|exact C].
Qed.

Lemma tracks_nil : tracks [] (None, None).
Proof. repeat split; cbn; try contradiction; discriminate. Qed.

Definition has_nexthdr (r : rule) : bool := existsb (fun m => match m_type m with M_IP6_NEXTHDR => true | _ => false end) (r_matchers r).

Lemma check_rule_ok h sets fl r r' fl' : check_rule h sets fl r = Ok (r', fl') ->
  rule_ok h sets r /\ same_options r r' /\ r_index r' = r_index r /\
  (r_disabled r' = true <-> uses_empty_set sets r \/ mixes_protocols sets r) /\
  f_log fl' = f_log fl || (negb (r_log r =? 0) && negb (r_disabled r')) /\
  f_rate fl' = f_rate fl || (negb (r_log r =? 0) && negb (r_log_rate r =? 0) && negb (r_disabled r')) /\
  f_nexthdr fl' = f_nexthdr fl || (negb (r_disabled r') && has_nexthdr r).
Proof.
  unfold check_rule. intros H. binv H. binv H. rename a into e, a0 into d. cbv zeta in H.
  destruct (negb (r_log (with_disabled r d) =? 0) && _ && _) eqn:EL; [discriminate|].
  destruct (mark_is_set (with_disabled r d) && _) eqn:EM; [discriminate|]. binv H. rename a into nh. apply Ok_inj in H.
  injection H as <- <-. cbn [with_disabled r_disabled r_index r_log r_log_rate f_log f_rate f_nexthdr] in *.
  change (mark_is_set (with_disabled r d)) with (mark_is_set r) in EM. cbn [with_disabled r_matchers] in E1.
  pose proof (references_empty_ok _ _ _ E) as RE.
  pose proof (proj1 (check_matchers_ok sets h d (r_matchers r) (f_nexthdr fl)) (ex_intro _ _ E1)) as FM. rewrite Forall_forall in FM.
  assert (RO : rule_ok h sets r).
  { constructor.
    - intros m Hm Es. destruct (FM m Hm) as [_ K]. destruct (K Es) as (s & Hs & _). eauto.
    - intros m Hm. apply FM. exact Hm.
    - intros m s t Hm Es Hs Ht. destruct (FM m Hm) as [_ K]. destruct (K Es) as (s' & Hs' & K'). rewrite Hs in Hs'. injection Hs' as <-. auto.
    - intros Hm. apply mark_set_iff in Hm. rewrite Hm in EM. cbn [andb] in EM. destruct (hook_flavor h); cbn in EM; auto; congruence.
    - intros Hf. rewrite andb_false_iff, andb_false_iff, !negb_false_iff, !N.eqb_eq in EL. destruct EL as [[?|?]|EL]; auto.
      unfold is_sock_addr in EL. rewrite Hf in EL. discriminate. }
  split; [exact RO|]. split; [constructor; reflexivity|]. split; [reflexivity|]. split; [|split; [reflexivity|split; [reflexivity|]]].
  - destruct e.
    + apply Ok_inj in E0. subst d. split; auto. intros _. left. apply RE. reflexivity.
    + rewrite (incompatible_ok _ _ _ _ _ tracks_nil E0). cbn [app]. rewrite talks_conflict. split; auto.
      intros [U|M]; auto. apply RE in U. discriminate.
  - apply (check_matchers_nh _ _ _ _ _ _ E1).
Qed.

Lemma check_rule_def h sets fl r : rule_ok h sets r -> exists r' fl', check_rule h sets fl r = Ok (r', fl').
Proof.
  intros [R1 R2 R3 R4 R5]. unfold check_rule.
  destruct (references_empty_def sets (r_matchers r) R1) as (e & ->). cbn [bind].
  assert (X : exists d, (if e then Ok true else has_incompatible sets (r_matchers r) (None, None)) = Ok d).
  { destruct e; [eauto|]. apply incompatible_def. exact R1. }
  destruct X as (d & ->). cbn [bind]. cbn [with_disabled r_log r_log_rate r_matchers].
  change (mark_is_set (with_disabled r d)) with (mark_is_set r).
  replace (negb (r_log r =? 0) && negb (r_log r =? LOG_OPT_DEFAULT) && is_sock_addr h) with false.
  2:{ symmetry. unfold is_sock_addr. destruct (hook_flavor h) eqn:F; try apply andb_false_r. destruct (R5 eq_refl) as [-> | ->]; reflexivity. }
  replace (mark_is_set r && negb match hook_flavor h with F_TC | F_CGROUP_SKB => true | _ => false end) with false.
  2:{ symmetry. destruct (mark_is_set r) eqn:M; [|reflexivity]. apply mark_set_iff in M. destruct (R4 M) as [-> | ->]; reflexivity. }
  assert (FM : Forall (fine sets h) (r_matchers r)).
  { apply Forall_forall. intros m Hm. split; [auto|]. intros Es. destruct (R1 m Hm Es) as (s & Hs). exists s. split; auto. intros t Ht. eapply R3; eauto. }
  destruct (proj2 (check_matchers_ok sets h d (r_matchers r) (f_nexthdr fl)) FM) as (b & ->). cbn [bind]. eauto.
Qed.

Lemma rule_ok_index h sets r i : rule_ok h sets (with_index r i) <-> rule_ok h sets r.
Proof. split; intros [A B C D E]; constructor; assumption. Qed.

Lemma check_rules_def h sets rs : forall fl i, Forall (rule_ok h sets) rs -> exists rs' fl', check_rules h sets fl i rs = Ok (rs', fl').
Proof.
  induction rs as [|r rs IH]; intros fl i F; cbn [check_rules]; [eauto|]. inversion F as [|? ? F1 F2]; subst.
  destruct (check_rule_def h sets fl (with_index r i)) as (r' & fl' & ->); [apply rule_ok_index; exact F1|]. cbn [bind snd fst].
  destruct (IH fl' (i + 1) F2) as (rs' & fl2 & ->). cbn [bind]. eauto.
Qed.

Lemma check_rules_ok h sets rs : forall fl i rs' fl', check_rules h sets fl i rs = Ok (rs', fl') ->
  Forall (rule_ok h sets) rs /\ length rs' = length rs /\
  (forall k r, nth_error rs k = Some r -> exists r', nth_error rs' k = Some r' /\ same_options r r' /\ r_index r' = i + N.of_nat k /\
     (r_disabled r' = true <-> uses_empty_set sets r \/ mixes_protocols sets r)) /\
  f_log fl' = f_log fl || existsb (fun r => negb (r_log r =? 0) && negb (r_disabled r)) rs' /\
  f_rate fl' = f_rate fl || existsb (fun r => negb (r_log r =? 0) && negb (r_log_rate r =? 0) && negb (r_disabled r)) rs' /\
  f_nexthdr fl' = f_nexthdr fl || existsb (fun r => negb (r_disabled r) && has_nexthdr r) rs'.
Proof.
  induction rs as [|r rs IH]; intros fl i rs' fl' H; cbn [check_rules] in H.
  - apply Ok_inj in H. injection H as <- <-. cbn [existsb]. rewrite !orb_false_r. split; [constructor|]. split; [reflexivity|].
    split; [|auto]. intros [|k] r; discriminate.
  - binv H. destruct a as [r' fl1]. binv H. destruct a as [rs1 fl2]. apply Ok_inj in H. cbn [fst snd] in *. injection H as <- <-.
    destruct (check_rule_ok _ _ _ _ _ _ E) as (A & B & C & D & F1 & F2 & F3).
    destruct (IH _ _ _ _ E0) as (A' & B' & C' & D' & E' & F').
    split; [constructor; auto; eapply rule_ok_index; eauto|]. split; [cbn [length]; lia|]. split; [|split; [|split]].
    + intros [|k] q Hq; cbn [nth_error] in *.
      * injection Hq as <-. exists r'. split; [reflexivity|]. split; [destruct B; constructor; assumption|]. split; [rewrite C; cbn; lia|]. exact D.
      * destruct (C' k q Hq) as (q' & X1 & X2 & X3 & X4). exists q'. split; auto. split; auto. split; auto. lia.
    + cbn [existsb]. rewrite D', F1. rewrite (so_log _ _ B). cbn [with_index r_log]. rewrite orb_assoc. reflexivity.
    + cbn [existsb]. rewrite E', F2. rewrite (so_log _ _ B), (so_rate _ _ B). cbn [with_index r_log r_log_rate]. rewrite orb_assoc. reflexivity.
    + cbn [existsb]. rewrite F', F3. unfold has_nexthdr at 1 3. rewrite (so_matchers _ _ B). cbn [with_index r_matchers]. rewrite orb_assoc. reflexivity.
Qed.

Lemma policy_iff p : (exists v, verdict_of_id p = Some v /\ valid_policy v = true) <-> In p [0; 1; 4].
Proof.
  split.
  - intros (v & E & V). unfold verdict_of_id in E. cbn [In].
    assert (L : (N.to_nat p < length verdicts)%nat) by (apply nth_error_Some; congruence). cbn [verdicts length] in L.
    assert (K : p = 0 \/ p = 1 \/ p = 2 \/ p = 3 \/ p = 4) by lia.
    destruct K as [-> | [-> | [-> | [-> | ->]]]]; auto; cbn in E; injection E as <-; discriminate.
  - intros [<-|[<-|[<-|[]]]]; eexists; split; reflexivity.
Qed.

Lemma hook_iff n : (exists h, hook_of_id n = Some h) <-> n < 14.
Proof.
  unfold hook_of_id. split.
  - intros (h & E). assert (L : (N.to_nat n < length hooks)%nat) by (apply nth_error_Some; congruence). cbn [hooks length] in L. lia.
  - intros L. destruct (nth_error hooks (N.to_nat n)) eqn:E; eauto. apply nth_error_None in E. cbn [hooks length] in E. lia.
Qed.

Lemma chain_new_inv hk pk sets rs c : chain_new hk pk sets rs = Ok c ->
  hook_of_id hk = Some (c_hook c) /\ verdict_of_id pk = Some (c_policy c) /\ valid_policy (c_policy c) = true /\ c_sets c = sets /\
  check_rules (c_hook c) sets (mkF false false false) 0 rs = Ok (c_rules c, mkF (c_log c) (c_nexthdr c) (c_ratelimit c)).
Proof.
  unfold chain_new. destruct (hook_of_id hk) as [h|] eqn:Eh; [|discriminate]. destruct (verdict_of_id pk) as [p|] eqn:Ep; [|discriminate].
  destruct (valid_policy p) eqn:V; [|discriminate]. intros H. binv H. apply Ok_inj in H. subst c. destruct a as [a [x y z]].
  cbn [c_hook c_policy c_sets c_rules c_log c_nexthdr c_ratelimit fst snd f_log f_nexthdr f_rate]. auto.
Qed.

Lemma chain_new_iff hk pk sets rs : (exists c, chain_new hk pk sets rs = Ok c) <->
  exists h, hook_of_id hk = Some h /\ In pk [0; 1; 4] /\ Forall (rule_ok h sets) rs.
Proof.
  split.
  - intros (c & H). apply chain_new_inv in H as (A & B & C & D & E). exists (c_hook c). split; auto. split; [apply policy_iff; eauto|].
    apply check_rules_ok in E. tauto.
  - intros (h & A & B & C). apply policy_iff in B as (v & B & V). unfold chain_new. rewrite A, B, V.
    destruct (check_rules_def h sets rs (mkF false false false) 0 C) as (rs' & fl & ->). cbn [bind]. eauto.
Qed.

Lemma chain_new_result hk pk sets rs c : chain_new hk pk sets rs = Ok c ->
  hook_of_id hk = Some (c_hook c) /\ verdict_of_id pk = Some (c_policy c) /\ c_sets c = sets /\ length (c_rules c) = length rs /\
  (forall k r, nth_error rs k = Some r -> exists r', nth_error (c_rules c) k = Some r' /\ same_options r r' /\ r_index r' = N.of_nat k /\
     (r_disabled r' = true <-> uses_empty_set sets r \/ mixes_protocols sets r)).
Proof.
  intros H. apply chain_new_inv in H as (A & B & C & D & E). apply check_rules_ok in E as (F & L & K & _). repeat split; auto.
Qed.
