(** The parser accepts the rulesets it should. *)
From Coq Require Import String NArith List Bool Arith Lia.
From Verif Require Import Bytes Types GenModel ChainModel BytesFacts StrModel StrSpec EnumModel EnumFacts ParseModel ParseFacts2 HashModel SetModel SetSpec
  PackSpec PackModel NewFacts HookModel SetTextModel SetTextSpec SetTextFacts RateModel RulesTextModel RulesTextSpec RulesTextFacts RulesTextFacts2.
Import ListNotations.
Local Open Scope string_scope.
Local Open Scope list_scope.
Local Open Scope N_scope.
Local Open Scope res_scope.

Lemma parser_any_op pe t o p : parser_of pe t o = Some p -> accepts_any p.
Proof. intros H. destruct t, o; cbn [parser_of] in H; try discriminate H; apply (f_equal (fun x => match x with Some y => y | None => p end)) in H;
  cbn in H; subst p; clear; any1. Qed.

Lemma field_any pe heap h t o p neg m : matcher_new_from_raw pe (Some heap) t o p neg = Ok m -> exists m', matcher_new_from_raw pe (Some h) t o p neg = Ok m'.
Proof.
  unfold matcher_new_from_raw. destruct (parser_of pe t o) as [q|] eqn:P; [|discriminate]. destruct (ops_size t o) as [n|]; [|discriminate].
  intros E. binv E. destruct (parser_any_op _ _ _ _ P _ _ _ E0 (firstn n h)) as (v & ->). cbn [bind]. eauto.
Qed.

Lemma set_from_rich ce st name k p : ce_rich ce -> set_ok (ce_pe ce) k p -> exists u, set_from ce st name k p = Ok u.
Proof.
  intros ((PE & HE) & HN & G & _) (ks & es & KN & GK & F & SW & M).
  destruct (from_raw_succeeds (S (length p)) (ce_pe ce) (ce_heap ce (p_calls st)) (ce_node ce (p_calls st)) (ce_table ce) name k p ks es
    PE (HE _) (HN _) (G _) M SW ltac:(lia) KN GK F) as (u & E). exists u. unfold set_from. rewrite E. reflexivity.
Qed.

Lemma p_negate_w b r : hd_is (fun t => match t with T_NEGATE => true | _ => false end) r = false -> p_negate (w_negate b ++ r) = (b, r).
Proof. destruct b; [reflexivity|]. cbn [w_negate app]. destruct r as [|[] r]; try reflexivity. discriminate. Qed.

Lemma p_op_w ot o r : op_named ot o -> hd_is (fun t => match t with T_MATCHER_OP _ => true | _ => false end) r = false -> p_op (w_op ot ++ r) = Ok (o, r).
Proof.
  destruct ot as [s|]; cbn [op_named w_op app]; intros N H.
  - cbn [p_op]. apply mop_named in N. rewrite N. reflexivity.
  - subst o. destruct r as [|[] r]; try reflexivity. discriminate H.
Qed.

(** The sets known while the rules are read: the declared ones, then literals. *)
Definition known (pe : penv) (ss : list a_set) (l : list uset) : Prop :=
  exists us more, l = us ++ more /\ Forall2 (described pe) (map declared ss) us /\ Forall (fun u => u_name u = None) more.

Lemma find_set_app name us more : forall i, (exists u, In u us /\ u_name u = Some name) -> find_set name i (us ++ more) = find_set name i us.
Proof.
  induction us as [|x us IH]; intros i (u & I & N); [destruct I|]. cbn [app find_set]. destruct (u_name x) as [n|] eqn:X.
  - destruct (streq n name) eqn:Q; [reflexivity|]. apply IH. destruct I as [ -> |I]; [|eauto]. rewrite N in X. inv X. rewrite streq_refl in Q. discriminate Q.
  - apply IH. destruct I as [ -> |I]; [congruence|eauto].
Qed.
Lemma find_set_first name : forall before us1 u us2 i, (forall x, In x before -> x <> Some name) -> map u_name us1 = before -> u_name u = Some name ->
  find_set name i (us1 ++ u :: us2) = Some (i + N.of_nat (length us1), u).
Proof.
  induction before as [|b before IH]; intros [|x us1] u us2 i B M N; try discriminate M; cbn [app find_set].
  - rewrite N, streq_refl. f_equal. f_equal. cbn [length]. lia.
  - cbn [map] in M. injection M as <- M. specialize (IH us1 u us2 (i + 1) (fun y Y => B y (or_intror Y)) M N).
    assert (R : i + 1 + N.of_nat (length us1) = i + N.of_nat (length (x :: us1))) by (cbn [length]; lia). rewrite R in IH.
    destruct (u_name x) as [n|] eqn:X; [|exact IH]. destruct (streq n name) eqn:Q; [|exact IH]. apply streq_iff in Q. subst n.
    exfalso. apply (B (Some name)); [left; reflexivity|reflexivity].
Qed.
Lemma f2_length {A B} {R : A -> B -> Prop} {l k} : Forall2 R l k -> length l = length k.
Proof. induction 1; cbn; congruence. Qed.
Lemma f2_split {A B} (R : A -> B -> Prop) l1 x l2 k : Forall2 R (l1 ++ x :: l2) k -> exists k1 y k2, k = k1 ++ y :: k2 /\ Forall2 R l1 k1 /\ R x y /\ Forall2 R l2 k2.
Proof.
  revert k. induction l1 as [|a l1 IH]; intros k F; inversion F; subst.
  - exists [], y, l'. repeat split; auto.
  - destruct (IH _ H3) as (k1 & z & k2 & -> & F1 & Z & F2). exists (y :: k1), z, k2. repeat split; auto.
Qed.
Lemma key_names_fun w : forall a b, key_names w a -> key_names w b -> a = b.
Proof.
  unfold key_names. induction w as [|x w IH]; intros a b F G; inversion F; inversion G; subst; [reflexivity|]. f_equal; [|auto].
  apply mtype_named in H1. apply mtype_named in H6. congruence.
Qed.
Lemma known_find pe ss l name key : known pe ss l -> names_set ss name key ->
  exists i u ks, find_set name 0 l = Some (i, u) /\ u_key u = ks /\ key_names (key_texts key) ks /\ good_key ks.
Proof.
  intros (us & more & -> & D & _) (before & s & after & ks & -> & NS & NB & K1 & K2 & GK). rewrite map_app in D. cbn [map] in D.
  destruct (f2_split _ _ _ _ _ D) as (u1 & u & u2 & -> & D1 & (ks' & es & KN & _ & SI) & D2). cbn [declared fst snd] in KN, SI.
  rewrite find_set_app by (exists u; split; [apply in_or_app; right; left; reflexivity|rewrite (proj1 SI), NS; reflexivity]).
  rewrite (find_set_first name (map (fun x => Some (as_name x)) before)).
  - eexists _, u, ks. split; [reflexivity|]. split; [|auto]. rewrite (proj1 (proj2 SI)). exact (key_names_fun _ _ _ KN K1).
  - intros x X. apply in_map_iff in X. destruct X as (y & <- & Y). intros C. injection C as C. exact (NB y Y C).
  - clear -D1. revert u1 D1. induction before as [|b before IH]; intros u1 D; cbn [map] in *; inversion D; subst; [reflexivity|]. cbn [map]. f_equal; [|auto].
    destruct H1 as (? & ? & _ & _ & SI). exact (proj1 SI).
  - rewrite (proj1 SI), NS. reflexivity.
Qed.

Lemma p_matcher_rich ce ss st a r : ce_rich ce -> known (ce_pe ce) ss (p_sets st) -> matcher_ok (ce_pe ce) ss a ->
  exists m st', p_matcher ce st (w_matcher a ++ r) = Ok (m, st', r) /\ known (ce_pe ce) ss (p_sets st').
Proof.
  intros CR KN OK. destruct a as [t neg op p|k neg p|k neg n]; cbn [w_matcher matcher_ok app] in *; rewrite <- ?app_assoc; cbn [p_matcher].
  - destruct OK as (ty & o & heap & m & T & O & M). apply mtype_named in T. rewrite T. cbn [abort bind].
    rewrite p_negate_w by (destruct op; reflexivity). rewrite <- ?app_assoc. rewrite (p_op_w op o _ O) by reflexivity. cbn [bind fst snd app].
    destruct (ce_heap ce (p_calls st) 0) as [h|] eqn:H; [|destruct (proj1 (proj2 CR) _ _ H)].
    destruct (field_any _ _ h _ _ _ _ _ M) as (m' & ->). cbn [abort bind]. eexists m', _. split; [reflexivity|exact KN].
  - rewrite p_negate_w by reflexivity. rewrite <- ?app_assoc. change (w_in ++ ?x) with (w_op (Some (lit "in")) ++ x). rewrite (p_op_w _ OP_IN) by reflexivity.
    cbn [bind fst snd app is_in]. destruct (set_from_rich ce st None k p CR OK) as (u & E). rewrite E. cbn [bind]. eexists _, _. split; [reflexivity|].
    cbn [p_sets]. destruct KN as (us & more & -> & D & F). exists us, (more ++ [u]). split; [symmetry; apply app_assoc|]. split; [exact D|].
    apply Forall_app. split; [exact F|]. constructor; [|constructor]. apply (set_from_sound ce st _ _ _ _ (proj1 CR)) in E.
    destruct E as (? & ? & _ & _ & SI). exact (proj1 SI).
  - rewrite p_negate_w by reflexivity. rewrite <- ?app_assoc. change (w_in ++ ?x) with (w_op (Some (lit "in")) ++ x). rewrite (p_op_w _ OP_IN) by reflexivity.
    cbn [bind fst snd app is_in]. destruct (known_find _ _ _ _ _ KN OK) as (i & u & ks & F & K & K2 & GK).
    assert (SO : set_ok (ce_pe ce) k (lit "{}")).
    { exists ks, []. split; [exact K2|]. split; [exact GK|]. split; [change (element_texts (lit "{}")) with (@nil cstr); constructor|].
      split; [intros w ws Q; vm_compute in Q; discriminate Q|reflexivity]. }
    destruct (set_from_rich ce st None k (lit "{}") CR SO) as (tk & E). rewrite E. cbn [bind]. rewrite F.
    assert (KE : keys_eqb (u_key u) (u_key tk) = true).
    { apply (set_from_sound ce st _ _ _ _ (proj1 CR)) in E. destruct E as (ks' & ? & KN' & _ & SI). rewrite (proj1 (proj2 SI)), K, (key_names_fun _ _ _ KN' K2).
      unfold keys_eqb. destruct (list_eq_dec _ _ _); [reflexivity|congruence]. }
    rewrite KE. eexists _, _. split; [reflexivity|exact KN].
Qed.

Lemma w_matcher_len a : (1 <= length (w_matcher a))%nat.
Proof. destruct a; cbn; lia. Qed.

Lemma p_matchers_rich ce ss : ce_rich ce -> forall l a fuel st r, known (ce_pe ce) ss (p_sets st) -> Forall (matcher_ok (ce_pe ce) ss) (a :: l) ->
  hd_is is_start r = false -> (length l < fuel)%nat ->
  exists ms st', p_matchers fuel ce st (concat (map w_matcher (a :: l)) ++ r) = Ok (ms, st', r) /\ known (ce_pe ce) ss (p_sets st').
Proof.
  intros CR. induction l as [|b l IH]; intros a fuel st r KN F N L; (destruct fuel as [|f]; [cbn in L; lia|]); cbn [p_matchers]; inversion F; subst; cbn [map concat];
    rewrite <- ?app_assoc.
  - destruct (p_matcher_rich ce ss st a ([] ++ r) CR KN H1) as (m & st' & -> & KN'). cbn [bind app]. replace (starts_matcher r) with false.
    eexists [m], st'. split; [reflexivity|exact KN'].
  - destruct (p_matcher_rich ce ss st a (w_matcher b ++ concat (map w_matcher l) ++ r) CR KN H1) as (m & st' & -> & KN'). cbn [bind].
    replace (starts_matcher _) with true by (destruct b; reflexivity).
    destruct (IH b f st' r KN' H2 N ltac:(cbn in L; lia)) as (ms & st2 & E & KN2). cbn [map concat] in E. rewrite <- app_assoc in E. rewrite E. cbn [bind].
    eexists (m :: ms), st2. split; [reflexivity|exact KN2].
Qed.

Lemma p_headers_rich : forall hs h fuel r, (forall x, In x (h :: hs) -> exists i, header_named x i) -> hd_is is_word r = false -> (length hs < fuel)%nat ->
  exists v, p_headers fuel (w_headers (h :: hs) ++ r) = Ok (v, r).
Proof.
  induction hs as [|x hs IH]; intros h fuel r N W L; (destruct fuel as [|f]; [cbn in L; lia|]).
  - cbn [w_headers app p_headers]. destruct (N h (or_introl eq_refl)) as (i & I). apply header_from in I. rewrite I. cbn [abort bind].
    destruct r as [|[] r]; try (eexists; reflexivity). discriminate W.
  - rewrite w_headers_cons. cbn [app p_headers]. destruct (N h (or_introl eq_refl)) as (i & I). apply header_from in I. rewrite I. cbn [abort bind].
    destruct (IH x f r (fun y Y => N y (or_intror Y)) W ltac:(cbn in L; lia)) as (v & ->). cbn [bind fst snd]. eauto.
Qed.
Lemma w_headers_len hs : (length hs <= length (w_headers hs))%nat.
Proof. induction hs as [|h hs IH]; [cbn; lia|]. rewrite w_headers_cons. destruct hs; cbn in *; lia. Qed.

Definition fresh (o : ropts) (l : list a_option) : Prop :=
  (o_log o <> None -> logs l = []) /\ (o_counter o = true -> counters l = 0%nat) /\ (o_mark o <> None -> marks l = []).
Lemma p_options_rich : forall l fuel o r, options_ok l -> fresh o l -> hd_is is_more r = false -> hd_is is_option r = false -> (length l < fuel)%nat ->
  exists o', p_options fuel o (concat (map w_option l) ++ r) = Ok (o', r).
Proof.
  induction l as [|a l IH]; intros fuel o r (L1 & C1 & M1 & LO & MO) (FL & FC & FM) N N2 L; (destruct fuel as [|f]; [cbn in L; lia|]).
  - cbn [map concat app p_options]. destruct r as [|[] r]; try (eexists; reflexivity); discriminate N2.
  - cbn [map concat]. rewrite <- app_assoc. assert (N3 : hd_is is_more (concat (map w_option l) ++ r) = false) by (destruct l as [|[] l]; [exact N|reflexivity..]).
    destruct a as [hs e| |s].
    + cbn [w_option app p_options]. rewrite <- !app_assoc. set (tl := concat (map w_option l) ++ r) in *.
      assert (LN : logs l = []).
      { change (logs (A_log hs e :: l)) with ((hs, e) :: logs l) in L1. cbn [length] in L1. destruct (logs l); [reflexivity|cbn in L1; lia]. }
      destruct (LO hs e (or_introl eq_refl)) as (HN & EN).
      assert (W : hd_is is_word (match e with Some s => [T_EVERY; T_STRING s] | None => [] end ++ tl) = false).
      { destruct e; [reflexivity|]. cbn [app]. destruct tl as [|[] tl]; try reflexivity; discriminate N3. }
      assert (R : exists v, p_rate (match e with Some s => [T_EVERY; T_STRING s] | None => [] end ++ tl) = Ok (v, tl)).
      { destruct e as [s|]; cbn [app].
        - cbn [p_rate]. destruct (EN s eq_refl) as (n & ->). cbn [abort bind]. eauto.
        - destruct tl as [|[] tl]; try (eexists; reflexivity). discriminate N3. }
      destruct R as (v & R).
      assert (H : exists w, (match w_headers hs ++ match e with Some s => [T_EVERY; T_STRING s] | None => [] end ++ tl with
                 | T_STRING _ :: _ => p_headers (length (w_headers hs ++ match e with Some s => [T_EVERY; T_STRING s] | None => [] end ++ tl)) (w_headers hs ++ match e with Some s => [T_EVERY; T_STRING s] | None => [] end ++ tl)
                 | _ => Ok (255, w_headers hs ++ match e with Some s => [T_EVERY; T_STRING s] | None => [] end ++ tl) end) =
                 Ok (w, match e with Some s => [T_EVERY; T_STRING s] | None => [] end ++ tl)).
      { destruct hs as [|h hs].
        - cbn [w_headers app]. set (z := match e with Some s => [T_EVERY; T_STRING s] | None => [] end ++ tl) in *. exists 255.
          destruct z as [|[] z]; try reflexivity. discriminate W.
        - destruct (p_headers_rich hs h (length (w_headers (h :: hs) ++ match e with Some s => [T_EVERY; T_STRING s] | None => [] end ++ tl)) _ HN W) as (w & E).
          { pose proof (w_headers_len (h :: hs)). rewrite app_length. cbn [length] in *. lia. }
          exists w. rewrite E. rewrite w_headers_cons. reflexivity. }
      destruct H as (w & ->). cbn [bind fst snd]. rewrite R. cbn [bind fst snd]. destruct (o_log o) eqn:OL.
      { exfalso. specialize (FL ltac:(discriminate)). discriminate FL. }
      apply IH; auto; [|split; [cbn; intros _; exact LN|split; [exact FC|exact FM]]|cbn in L; lia].
      split; [rewrite LN; cbn; lia|]. split; [exact C1|]. split; [exact M1|]. split; [rewrite LN; intros ? ? []|exact MO].
    + cbn [w_option app p_options]. unfold counters in C1, FC. cbn [filter length] in C1, FC. destruct (o_counter o); [exfalso; specialize (FC eq_refl); lia|].
      apply IH; auto; [|split; [exact FL|split; [intros _; unfold counters; cbn [o_counter]; lia|exact FM]]|cbn in L; lia].
      split; [exact L1|]. split; [unfold counters; lia|]. split; [exact M1|]. split; [exact LO|exact MO].
    + cbn [w_option app p_options]. destruct (MO s (or_introl eq_refl)) as (v & ->). cbn [bind].
      assert (MN : marks l = []).
      { change (marks (A_mark s :: l)) with (s :: marks l) in M1. cbn [length] in M1. destruct (marks l); [reflexivity|cbn in M1; lia]. }
      destruct (o_mark o). { exfalso. specialize (FM ltac:(discriminate)). discriminate FM. }
      apply IH; auto; [|split; [exact FL|split; [exact FC|cbn; intros _; exact MN]]|cbn in L; lia].
      split; [exact L1|]. split; [exact C1|]. split; [rewrite MN; cbn; lia|]. split; [exact LO|rewrite MN; intros ? []].
Qed.

Lemma p_verdict_rich ce a r : verdict_ok (ce_pe ce) a -> exists v rd, p_verdict ce (w_verdict a ++ r) = Ok (v, rd, r).
Proof.
  destruct a; cbn [verdict_ok w_verdict app p_verdict].
  - intros (v & V). apply (named _ _ verdict_inverse) in V. rewrite V. cbn [abort bind]. eauto.
  - intros ((x & ->) & y & Y). apply (named _ _ rdir_inverse) in Y. rewrite Y. cbn [abort bind]. eauto.
Qed.

Lemma concat_len {A} (f : A -> list token) l : (forall a, 1 <= length (f a))%nat -> (length l <= length (concat (map f l)))%nat.
Proof. intros H. induction l as [|a l IH]; [cbn; lia|]. cbn [map concat length]. rewrite app_length. specialize (H a). lia. Qed.
Lemma w_option_len a : (1 <= length (w_option a))%nat.
Proof. destruct a; cbn; lia. Qed.

Lemma p_rule_rich ce ss st a r : ce_rich ce -> known (ce_pe ce) ss (p_sets st) -> rule_ok (ce_pe ce) ss a ->
  exists x st', p_rule ce st (w_rule a ++ r) = Ok (x, st', r) /\ known (ce_pe ce) ss (p_sets st').
Proof.
  intros CR KN (MO & OO & VO). unfold w_rule, ar_matchers in *. cbn [app p_rule]. rewrite <- !app_assoc.
  set (tl := concat (map w_option (ar_options a)) ++ w_verdict (ar_verdict a) ++ r).
  destruct (p_matchers_rich ce ss CR (ar_more a) (ar_first a) (length (concat (map w_matcher (ar_first a :: ar_more a)) ++ tl)) st tl KN MO) as (ms & st1 & -> & KN1).
  { apply tail_hd. }
  { rewrite app_length. pose proof (concat_len w_matcher (ar_first a :: ar_more a) w_matcher_len). cbn [length] in *. lia. }
  cbn [bind]. unfold tl.
  destruct (p_options_rich (ar_options a) (S (length (concat (map w_option (ar_options a)) ++ w_verdict (ar_verdict a) ++ r))) (mkO None None false None)
     (w_verdict (ar_verdict a) ++ r) OO) as (o & ->).
  { split; [cbn; congruence|]. split; [cbn; discriminate|cbn; congruence]. }
  { apply verdict_hd. } { apply verdict_hd. }
  { rewrite app_length. pose proof (concat_len w_option (ar_options a) w_option_len). lia. }
  cbn [bind fst snd]. destruct (p_verdict_rich ce _ r VO) as (v & rd & ->). cbn [bind]. eexists _, st1. split; [reflexivity|exact KN1].
Qed.
Lemma p_rules_rich ce ss : ce_rich ce -> forall l fuel st r, known (ce_pe ce) ss (p_sets st) -> Forall (rule_ok (ce_pe ce) ss) l ->
  hd_is is_rule r = false -> (length l < fuel)%nat ->
  exists xs st', p_rules fuel ce st (concat (map w_rule l) ++ r) = Ok (xs, st', r) /\ known (ce_pe ce) ss (p_sets st').
Proof.
  intros CR. induction l as [|a l IH]; intros fuel st r KN F N L; (destruct fuel as [|f]; [cbn in L; lia|]).
  - cbn [map concat app p_rules]. exists [], st. split; [|exact KN]. destruct r as [|[] r]; try reflexivity. discriminate N.
  - inversion F; subst. cbn [map concat]. rewrite <- app_assoc.
    destruct (p_rule_rich ce ss st a (concat (map w_rule l) ++ r) CR KN H1) as (x & st1 & E & KN1).
    destruct (IH f st1 r KN1 H2 N ltac:(cbn in L; lia)) as (xs & st2 & E2 & KN2).
    change (w_rule a ++ concat (map w_rule l) ++ r) with (T_RULE :: tl (w_rule a ++ concat (map w_rule l) ++ r)) at 1. cbn [p_rules].
    change (T_RULE :: tl (w_rule a ++ concat (map w_rule l) ++ r)) with (w_rule a ++ concat (map w_rule l) ++ r). rewrite E. cbn [bind]. rewrite E2. cbn [bind].
    eexists _, st2. split; [reflexivity|exact KN2].
Qed.

Lemma p_setlist_rich ce : ce_rich ce -> forall l done fuel st r, Forall2 (described (ce_pe ce)) (map declared done) (p_sets st) ->
  Forall (fun s => set_ok (ce_pe ce) (as_key s) (as_payload s)) l -> hd_is is_setw r = false -> (length l < fuel)%nat ->
  exists st', p_setlist fuel ce st (concat (map w_set l) ++ r) = Ok (st', r) /\ Forall2 (described (ce_pe ce)) (map declared (done ++ l)) (p_sets st').
Proof.
  intros CR. induction l as [|a l IH]; intros done fuel st r D F N L; (destruct fuel as [|f]; [cbn in L; lia|]).
  - cbn [map concat app p_setlist]. rewrite app_nil_r. exists st. split; [|exact D]. destruct r as [|[] r]; try reflexivity. discriminate N.
  - inversion F; subst. cbn [map concat]. rewrite <- app_assoc. unfold w_set at 1. cbn [app p_setlist].
    rewrite <- app_assoc. change (w_in ++ ?x) with (w_op (Some (lit "in")) ++ x).
    rewrite (p_op_w _ OP_IN) by reflexivity. cbn [bind fst snd is_in app].
    destruct (set_from_rich ce st (Some (as_name a)) _ _ CR H1) as (u & E). rewrite E. cbn [bind].
    destruct (IH (done ++ [a]) f (mkP (p_sets st ++ [u]) (S (p_calls st))) r) as (st' & E2 & D2); auto.
    { cbn [p_sets]. rewrite map_app. apply Forall2_app; [exact D|]. constructor; [|constructor]. exact (set_from_sound ce st _ _ _ _ (proj1 CR) E). }
    { cbn in L. lia. }
    exists st'. split; [exact E2|]. rewrite <- app_assoc in D2. exact D2.
Qed.

Lemma p_hookopts_rich ce : ce_rich ce -> forall l fuel n o x r, parse_opts (fun _ => true) 0 (match o with Some y => y | None => hookopts_new end) l = Ok x ->
  hd_is is_opt r = false -> (length l < fuel)%nat ->
  exists n', p_hookopts fuel ce n o (map T_HOOKOPT l ++ r) = Ok (match l with [] => o | _ => Some x end, n', r).
Proof.
  intros (_ & _ & _ & CO). induction l as [|s l IH]; intros fuel n o x r E N L; (destruct fuel as [|f]; [cbn in L; lia|]).
  - cbn [map app p_hookopts]. exists n. destruct r as [|[] r]; try reflexivity. discriminate N.
  - cbn [map app p_hookopts]. cbn [parse_opts] in E. binv E. rewrite CO, E0. cbn [abort bind].
    assert (SH : forall b i j o, parse_opts (fun _ => true) i o b = parse_opts (fun _ => true) j o b).
    { clear. induction b as [|s b IH]; intros i j o; [reflexivity|]. cbn [parse_opts]. destruct (parse_opt true o s); [|reflexivity]. cbn [bind]. apply IH. }
    rewrite (SH l 1%nat 0%nat) in E. destruct (IH f (S n) (Some a) x r E N ltac:(cbn in L; lia)) as (n' & ->).
    exists n'. destruct l; [|reflexivity]. cbn [parse_opts] in E. apply Ok_inj in E. subst. reflexivity.
Qed.

(** ** The chain constructor accepts what fits the hook (C21). *)
Lemma bsets_of pe l : forall us, Forall2 (described pe) l us -> exists bs, map_res bset_of us = Ok bs /\ length bs = length us /\
  forall i u, nth_error us i = Some u -> exists b, nth_error bs i = Some b /\ s_key b = u_key u.
Proof.
  intros us F. induction F as [|d u l us (ks & es & _ & _ & SI) F (bs & E & L & IH)].
  - exists []. split; [reflexivity|]. split; [reflexivity|]. intros [|i] u; discriminate.
  - destruct SI as (_ & _ & _ & _ & RD). exists (mkS (u_key u) (u_esize u) (u_trie u) (firsts es) :: bs). split.
    { cbn [map_res]. unfold bset_of at 1. rewrite RD. cbn [bind]. rewrite E. reflexivity. }
    split; [cbn [length]; congruence|]. intros [|i] x X; cbn [nth_error] in *; [|apply IH; exact X]. injection X as <-. eauto.
Qed.

Lemma in_set_of bs neg i b : nth_error bs i = Some b -> N.of_nat (length bs) < two32 -> set_of bs (mkM M_SET OP_IN neg (le_enc 4 (N.of_nat i))) = Some b.
Proof.
  intros E L. assert ((i < length bs)%nat) by (apply nth_error_Some; congruence). unfold set_of, set_id. cbn [m_pay].
  replace (firstn 4 (le_enc 4 (N.of_nat i))) with (le_enc 4 (N.of_nat i)) by (rewrite <- (le_enc_length 4 (N.of_nat i)) at 2; symmetry; apply firstn_all).
  rewrite le_enc4_dec by lia. rewrite Nat2N.id. exact E.
Qed.

Lemma field_type pe heap ty o p neg m : matcher_new_from_raw pe (Some heap) ty o p neg = Ok m -> m_type m = ty /\ ty <> M_SET.
Proof.
  unfold matcher_new_from_raw. destruct (parser_of pe ty o) as [q|] eqn:Q; [|discriminate]. destruct (ops_size ty o); [|discriminate]. intros E. binv E.
  apply Ok_inj in E. subst m. split; [reflexivity|]. intros ->. destruct o; discriminate Q.
Qed.

Lemma written_fits pe h us bs a m : matcher_written pe us a m -> matcher_fits h a -> N.of_nat (length bs) < two32 ->
  (forall i u, nth_error us i = Some u -> exists b, nth_error bs i = Some b /\ s_key b = u_key u) ->
  unsupported (m_type m) h = false /\ (m_type m = M_SET -> exists s, set_of bs m = Some s) /\
  (forall s t, m_type m = M_SET -> set_of bs m = Some s -> In t (s_key s) -> unsupported t h = false).
Proof.
  intros W F L BS. destruct a as [t neg op p|k neg p|k neg n]; cbn [matcher_written matcher_fits] in *.
  - destruct W as (ty & o & heap & T & _ & M). apply field_type in M. destruct M as (MT & NS). rewrite MT. split; [auto|]. split; intros; congruence.
  - destruct W as (i & u & NU & (ks & es & KN & _ & SI) & IM). destruct (BS i u NU) as (b & NB & KB). pose proof (in_set_of bs neg i b NB L) as IS.
    unfold in_set_number in IM. rewrite <- IM in IS. assert (MT : m_type m = M_SET) by (rewrite IM; reflexivity). rewrite MT.
    split; [destruct h; reflexivity|]. split; [eauto|]. intros s t _ X I. rewrite IS in X. injection X as <-. apply (F ks t KN). rewrite KB, (proj1 (proj2 SI)) in I. exact I.
  - destruct W as (i & u & NU & _ & KN & IM & _). destruct (BS i u NU) as (b & NB & KB). pose proof (in_set_of bs neg i b NB L) as IS.
    unfold in_set_number in IM. rewrite <- IM in IS. assert (MT : m_type m = M_SET) by (rewrite IM; reflexivity). rewrite MT.
    split; [destruct h; reflexivity|]. split; [eauto|]. intros s t _ X I. rewrite IS in X. injection X as <-. apply (F (u_key u) t KN). rewrite KB in I. exact I.
Qed.

Lemma chain_fits_new pe a h v us xs : In v [V_ACCEPT; V_DROP; V_NEXT] -> N.of_nat (length (all_sets a)) < two32 -> Forall (rule_fits h) (ac_rules a) ->
  Forall2 (described pe) (all_sets a) us -> Forall2 (rule_written pe us) (ac_rules a) xs ->
  exists c, nchain_new (ac_name a) (hook_id h) (verdict_id v) us xs = Ok c.
Proof.
  intros PV LN RF D W. destruct (bsets_of pe _ _ D) as (bs & EB & LB & BS).
  assert (LL : N.of_nat (length bs) < two32) by (rewrite LB, <- (f2_length D); exact LN).
  assert (X : exists c, chain_new (hook_id h) (verdict_id v) bs xs = Ok c).
  { apply chain_new_iff. exists h. split; [destruct h; reflexivity|]. split; [destruct PV as [ <- |[ <- |[ <- |[]]]]; cbn; auto|].
    clear EB D PV. induction W as [|r x l xs (WM & WL & _ & _ & WK & _) W IH]; constructor; inversion RF; subst; auto. clear IH W.
    destruct H1 as (FM & FK & FL).
    assert (MM : forall m, In m (r_matchers x) -> unsupported (m_type m) h = false /\ (m_type m = M_SET -> exists s, set_of bs m = Some s) /\
      (forall s t, m_type m = M_SET -> set_of bs m = Some s -> In t (s_key s) -> unsupported t h = false)).
    { clear -WM FM LL BS. induction WM as [|am m la lm WA WM IH]; intros m0 I; [destruct I|]. inversion FM; subst. destruct I as [ -> |I]; [|auto].
      eapply written_fits; eauto. }
    split.
    - intros m I. apply (proj1 (proj2 (MM m I))).
    - intros m I. apply (proj1 (MM m I)).
    - intros m s t I. apply (proj2 (proj2 (MM m I))).
    - intros MK. apply FK. intros MN. rewrite MN in WK. cbn in WK. unfold mark_is_set in WK. apply negb_false_iff, N.eqb_eq in WK.
      change 4294967296 with two32 in MK. assert (two32 <> 0) by discriminate. assert (1 <= r_mark x / two32) by (apply N.div_le_lower_bound; lia). lia.
    - intros SA. destruct (logs (ar_options r)) as [|(hs, e) [|]]; cbn [log_means] in WL; [left; tauto| |destruct WL].
      right. rewrite (FL SA hs e (or_introl eq_refl)) in WL. exact (proj1 WL). }
  destruct X as (c & X). exists (mkNC (ac_name a) us c). unfold nchain_new. rewrite EB. cbn [bind]. rewrite X. reflexivity.
Qed.

Lemma p_chain_rich ce st a r : ce_rich ce -> p_sets st = [] -> chain_ok (ce_pe ce) a -> stops r ->
  exists c ho st', p_chain ce st (w_chain a ++ r) = Ok (c, ho, st', r) /\ p_sets st' = [].
Proof.
  intros CR S0 OK (N1 & N2). pose proof OK as (h & v & HK & VD & PV & SO & RO & RF & LN & HO). unfold w_chain. cbn [app]. rewrite <- !app_assoc. cbn [app]. rewrite <- !app_assoc. cbn [p_chain].
  apply (named _ _ hook_inverse) in HK. rewrite HK. cbn [abort bind].
  set (tl := concat (map w_set (ac_sets a)) ++ concat (map w_rule (ac_rules a)) ++ r).
  assert (HX : exists x, parse_opts (fun _ => true) 0 hookopts_new (ac_opts a) = Ok x /\ (ac_opts a <> [] -> validate x h = Ok tt)).
  { destruct (ac_opts a) as [|s l]; [exists hookopts_new; split; [reflexivity|congruence]|]. destruct (HO ltac:(discriminate)) as (o & A & B). eauto. }
  destruct HX as (x & HX & HV).
  destruct (p_hookopts_rich ce CR (ac_opts a) (S (length (map T_HOOKOPT (ac_opts a) ++ T_VERDICT (ac_policy a) :: tl))) (p_calls st) None x
    (T_VERDICT (ac_policy a) :: tl) HX eq_refl) as (n & ->).
  { rewrite app_length, map_length. lia. }
  cbn [bind]. apply (named _ _ verdict_inverse) in VD. rewrite VD. cbn [abort bind].
  destruct (p_setlist_rich ce CR (ac_sets a) [] (S (length tl)) (mkP (p_sets st) n) (concat (map w_rule (ac_rules a)) ++ r)) as (st1 & E1 & D1).
  { cbn [p_sets]. rewrite S0. constructor. } { exact SO. } { apply rules_hd. split; assumption. }
  { unfold tl. rewrite app_length. pose proof (concat_len w_set (ac_sets a) ltac:(intros; cbn; lia)). lia. }
  fold tl in E1. rewrite E1. cbn [bind fst snd]. cbn [app] in D1.
  destruct (p_rules_rich ce (ac_sets a) CR (ac_rules a) (S (length (concat (map w_rule (ac_rules a)) ++ r))) st1 r) as (xs & st2 & E2 & KN2).
  { exists (p_sets st1), []. split; [symmetry; apply app_nil_r|]. split; [exact D1|constructor]. } { exact RO. } { exact N1. }
  { rewrite app_length. pose proof (concat_len w_rule (ac_rules a) ltac:(intros; cbn; lia)). lia. }
  rewrite E2. cbn [bind].
  destruct (p_rules_sound ce (proj1 CR) _ _ _ _ _ _ E2) as (rr & more & EQ & S2 & D2 & W). apply app_inv_tail in EQ.
  assert (rr = ac_rules a).
  { symmetry. apply (rules_code _ _ [] [] eq_refl eq_refl). rewrite !app_nil_r. exact EQ. }
  subst rr.
  assert (D : Forall2 (described (ce_pe ce)) (all_sets a) (p_sets st2)).
  { rewrite S2. unfold all_sets. apply Forall2_app; [exact D1|exact D2]. }
  destruct (chain_fits_new (ce_pe ce) a h v (p_sets st2) xs PV LN RF D W) as (c & EC).
  assert (VP : valid_policy v = true) by (destruct PV as [ <- |[ <- |[ <- |[]]]]; reflexivity).
  rewrite VP, EC. cbn [abort bind]. destruct (ac_opts a) as [|s l].
  - cbn [bind]. eexists _, _, _. split; [reflexivity|reflexivity].
  - rewrite (HV ltac:(discriminate)). cbn [abort bind]. eexists _, _, _. split; [reflexivity|reflexivity].
Qed.

Lemma chains_stop l : stops (concat (map w_chain l)).
Proof. destruct l; split; reflexivity. Qed.
Theorem p_chains_rich ce : ce_rich ce -> forall l fuel st, l <> [] -> p_sets st = [] -> Forall (chain_ok (ce_pe ce)) l -> (length l <= fuel)%nat ->
  exists x, p_chains fuel ce st (concat (map w_chain l)) = Ok x.
Proof.
  intros CR. induction l as [|a l IH]; intros fuel st NE S0 F L; [congruence|]. destruct fuel as [|f]; [cbn in L; lia|]. inversion F; subst.
  cbn [map concat p_chains]. destruct (p_chain_rich ce st a (concat (map w_chain l)) CR S0 H1 (chains_stop l)) as (c & ho & st1 & -> & S1). cbn [bind].
  destruct l as [|b l]; [eexists; reflexivity|]. assert (NE2 : b :: l <> []) by congruence. assert (LL : (length (b :: l) <= f)%nat) by (cbn [length] in *; lia).
  destruct (IH f st1 NE2 S1 H2 LL) as (x & E).
  rewrite E. cbn [map concat]. unfold w_chain at 1. cbn [app bind]. eauto.
Qed.
