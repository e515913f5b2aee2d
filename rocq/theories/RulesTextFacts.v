From Coq Require Import String NArith List Bool Arith Lia.
From Verif Require Import Bytes Types GenModel ChainModel BytesFacts StrModel StrSpec EnumModel EnumFacts ParseModel ParseFacts2 HashModel SetModel SetSpec
  PackSpec PackModel NewFacts HookModel SetTextModel SetTextSpec SetTextFacts RateModel RulesTextModel RulesTextSpec.
Import ListNotations.
Local Open Scope string_scope.
Local Open Scope list_scope.
Local Open Scope N_scope.
Local Open Scope res_scope.

Lemma abort_ok {A} (r : res A) a : abort r = Ok a -> r = Ok a.
Proof. destruct r as [x|e]; cbn [abort]; [auto|]. destruct (1000 <=? e); discriminate. Qed.
Lemma abort_ok' {A} (a : A) : abort (Ok a) = Ok a.
Proof. reflexivity. Qed.


(** ** Names. *)
Lemma named {A} (ts : A -> option cstr) fs : enum_inverse ts fs -> forall s a, fs s = Ok a <-> ts a = Some s.
Proof. intros (_ & G & _). exact G. Qed.
Lemma mop_named s o : mop_from_str s = Ok o <-> mop_to_str o = Some s.
Proof. exact (named _ _ mop_inverse s o). Qed.
Lemma mtype_named s t : mtype_from_str s = Ok t <-> mtype_to_str t = Some s.
Proof. exact (named _ _ mtype_inverse s t). Qed.

Ltac inv H := injection H; clear H; intros; subst.

(** ** Matchers. *)
Lemma p_negate_inv l b r : p_negate l = (b, r) -> l = w_negate b ++ r.
Proof. destruct l as [|[] l]; cbn [p_negate]; intros E; inv E; reflexivity. Qed.
Lemma p_op_inv l o r : p_op l = Ok (o, r) -> exists ot, l = w_op ot ++ r /\ op_named ot o.
Proof.
  destruct l as [|t l]; [intros E; inv E; exists None; split; reflexivity|].
  destruct t; try (intros E; inv E; exists None; split; reflexivity).
  cbn [p_op]. intros E. binv E. apply abort_ok, mop_named in E0. apply Ok_inj in E. inv E. exists (Some s). split; [reflexivity|exact E0].
Qed.
Lemma op_in_inv ot o : op_named ot o -> is_in o = true -> ot = Some (lit "in").
Proof. destruct o; try discriminate. intros E _. destruct ot as [s|]; cbn [op_named] in E; [|discriminate E]. cbv in E. inv E. reflexivity. Qed.

Lemma set_from_sound ce st name k p u : ce_ok ce -> set_from ce st name k p = Ok u -> set_written (ce_pe ce) name k p u.
Proof. intros (PE & HE) E. apply abort_ok in E. exact (from_raw_sound _ _ _ _ _ _ _ _ _ PE (HE _) E). Qed.

Lemma le_enc4_mod n : le_enc 4 (n mod two32) = le_enc 4 n.
Proof.
  pose proof (le_enc_dec (le_enc 4 (n mod two32)) (le_enc_bytes _ _)) as A. pose proof (le_enc_dec (le_enc 4 n) (le_enc_bytes _ _)) as B.
  rewrite !le_enc_length, !le_dec_enc in *. change (256 ^ N.of_nat 4) with two32 in *. rewrite N.mod_mod in A by discriminate.
  exact B.
Qed.

Lemma find_set_inv name l : forall i k u, find_set name i l = Some (k, u) ->
  exists n, k = i + N.of_nat n /\ nth_error l n = Some u /\ u_name u = Some name /\
    forall j v, (j < n)%nat -> nth_error l j = Some v -> u_name v <> Some name.
Proof.
  induction l as [|x l IH]; intros i k u E; [discriminate E|]. cbn [find_set] in E.
  assert (NEXT : find_set name (i + 1) l = Some (k, u) -> u_name x <> Some name ->
    exists n, k = i + N.of_nat n /\ nth_error (x :: l) n = Some u /\ u_name u = Some name /\
      forall j v, (j < n)%nat -> nth_error (x :: l) j = Some v -> u_name v <> Some name).
  { intros F X. destruct (IH _ _ _ F) as (n & -> & N1 & N2 & N3). exists (S n). split; [lia|]. split; [exact N1|]. split; [exact N2|].
    intros [|j] v J V; [cbn in V; inv V; exact X|]. apply (N3 j v); [lia|exact V]. }
  destruct (u_name x) as [n|] eqn:X; [|apply NEXT; [exact E|discriminate]].
  destruct (streq n name) eqn:Q.
  - apply streq_iff in Q. inv E. exists 0%nat. split; [lia|]. split; [reflexivity|]. split; [exact X|lia].
  - apply NEXT; [exact E|]. intros C. inv C. rewrite streq_refl in Q. discriminate Q.
Qed.

Definition lits (a : a_matcher) : list (option cstr * cstr * cstr) := match a with A_literal k _ p => [(None, k, p)] | _ => [] end.
Definition described (pe : penv) (d : option cstr * cstr * cstr) (u : uset) : Prop := set_written pe (fst (fst d)) (snd (fst d)) (snd d) u.

Lemma written_more pe sets more a m : matcher_written pe sets a m -> matcher_written pe (sets ++ more) a m.
Proof.
  destruct a as [t neg op p|k neg p|k neg n]; cbn [matcher_written]; [auto| |].
  - intros (i & u & N1 & W & I). exists i, u. split; [|auto]. rewrite nth_error_app1; [exact N1|]. apply nth_error_Some. congruence.
  - intros (i & u & N1 & W & K & I & F). assert (L : (i < length sets)%nat) by (apply nth_error_Some; congruence).
    exists i, u. split; [rewrite nth_error_app1; auto|]. split; [exact W|]. split; [exact K|]. split; [exact I|].
    intros j v J V. rewrite nth_error_app1 in V by lia. exact (F j v J V).
Qed.

Lemma keys_eqb_eq a b : keys_eqb a b = true -> a = b.
Proof. unfold keys_eqb. destruct (list_eq_dec mtype_eq_dec a b); [auto|discriminate]. Qed.

Lemma p_matcher_sound ce st l m st' l' : ce_ok ce -> p_matcher ce st l = Ok (m, st', l') ->
  exists a more, l = w_matcher a ++ l' /\ p_sets st' = p_sets st ++ more /\ Forall2 (described (ce_pe ce)) (lits a) more /\
    matcher_written (ce_pe ce) (p_sets st') a m.
Proof.
  intros CE E. destruct l as [|t l]; [discriminate E|]. destruct t; try discriminate E; cbn [p_matcher] in E.
  - destruct (p_negate l) as [neg r1] eqn:N1. apply p_negate_inv in N1. binv E. destruct a as [o r2].
    apply p_op_inv in E0. destruct E0 as (ot & -> & ON). cbn [fst snd] in E. destruct r2 as [|[] r2]; try discriminate E.
    + destruct (is_in o) eqn:I; [|discriminate E]. apply (op_in_inv ot o ON) in I. subst ot. binv E. apply (set_from_sound ce st None _ _ _ CE) in E0.
      apply Ok_inj in E. inv E. exists (A_literal s neg s0), [a]. split; [cbn [w_matcher app]; rewrite <- app_assoc; reflexivity|].
      split; [reflexivity|]. split; [constructor; [exact E0|constructor]|]. cbn [matcher_written p_sets].
      exists (length (p_sets st)), a. split; [rewrite nth_error_app2, Nat.sub_diag; [reflexivity|lia]|]. split; [exact E0|].
      exact (f_equal (mkM M_SET OP_IN neg) (le_enc4_mod _)).
    + destruct (is_in o) eqn:I; [|discriminate E]. apply (op_in_inv ot o ON) in I. subst ot. binv E. apply (set_from_sound ce st None _ _ _ CE) in E0.
      destruct (find_set s0 0 (p_sets st)) as [[k u]|] eqn:F; [|discriminate E]. destruct (keys_eqb (u_key u) (u_key a)) eqn:K; [|discriminate E].
      apply keys_eqb_eq in K. apply Ok_inj in E. inv E. destruct (find_set_inv _ _ _ _ _ F) as (n & -> & F1 & F2 & F3).
      exists (A_named s neg s0), []. split; [cbn [w_matcher app]; rewrite <- app_assoc; reflexivity|]. split; [symmetry; apply app_nil_r|].
      split; [constructor|]. cbn [matcher_written p_sets]. exists n, u. split; [exact F1|]. split; [exact F2|].
      split; [destruct E0 as (ks & es & KN & _ & S0); rewrite K, (proj1 (proj2 S0)); exact KN|].
      split; [exact (f_equal (mkM M_SET OP_IN neg) (le_enc4_mod _))|exact F3].
  - binv E. apply abort_ok, mtype_named in E0. destruct (p_negate l) as [neg r1] eqn:N1. apply p_negate_inv in N1. binv E. destruct a0 as [o r2].
    apply p_op_inv in E1. destruct E1 as (ot & -> & ON). cbn [fst snd] in E. destruct r2 as [|[] r2]; try discriminate E.
    binv E. apply abort_ok in E1. apply Ok_inj in E. inv E. exists (A_field s neg ot s0), [].
    split; [cbn [w_matcher app]; rewrite <- !app_assoc; reflexivity|]. split; [symmetry; apply app_nil_r|]. split; [constructor|].
    cbn [matcher_written]. destruct (ce_heap ce (p_calls st) 0) as [h|] eqn:H.
    + exists a, o, h. auto.
    + unfold matcher_new_from_raw in E1. destruct (parser_of _ _ _); [|discriminate E1]. destruct (ops_size _ _); discriminate E1.
Qed.

Lemma p_matchers_sound ce : ce_ok ce -> forall fuel st l ms st' l', p_matchers fuel ce st l = Ok (ms, st', l') ->
  exists a more_a more, l = concat (map w_matcher (a :: more_a)) ++ l' /\ p_sets st' = p_sets st ++ more /\
    Forall2 (described (ce_pe ce)) (flat_map lits (a :: more_a)) more /\
    Forall2 (matcher_written (ce_pe ce) (p_sets st')) (a :: more_a) ms.
Proof.
  intros CE. induction fuel as [|f IH]; intros st l ms st' l' E; [discriminate E|]. cbn [p_matchers] in E. binv E. destruct a as [[m st1] l1].
  destruct (p_matcher_sound ce st l m st1 l1 CE E0) as (a & more & -> & S1 & D & W). destruct (starts_matcher l1) eqn:Q.
  - binv E. destruct a0 as [[ms2 st2] l2]. apply Ok_inj in E. inv E. destruct (IH _ _ _ _ _ E1) as (b & bs & more2 & -> & S2 & D2 & W2).
    exists a, (b :: bs), (more ++ more2). split; [cbn [map concat]; rewrite <- !app_assoc; reflexivity|].
    split; [rewrite S2, S1, app_assoc; reflexivity|]. split; [cbn [flat_map]; apply Forall2_app; [exact D|exact D2]|].
    constructor; [|exact W2]. rewrite S2. apply written_more, W.
  - apply Ok_inj in E. inv E. exists a, [], more. split; [cbn [map concat]; rewrite app_nil_r; reflexivity|]. split; [exact S1|].
    split; [cbn [flat_map]; rewrite app_nil_r; exact D|]. constructor; [exact W|constructor].
Qed.

(** ** Options. *)
Lemma header_from s i : log_opt_from_str s = Ok i <-> header_named s i.
Proof.
  unfold log_opt_from_str, header_named. split.
  - intros E. apply from_str_in in E. destruct E as (n & I & Q). exists n. split; [exact I|]. symmetry. apply streq_i_iff, Q.
  - intros (n & I & Q). eapply (from_str_row streq_i log_opt_strs i n); [exact streq_i_refl|exact streq_i_tr|reflexivity|exact I|].
    apply streq_i_iff. symmetry. exact Q.
Qed.

Lemma p_headers_sound fuel : forall l v r, p_headers fuel l = Ok (v, r) ->
  exists h hs, l = w_headers (h :: hs) ++ r /\ headers_mean (h :: hs) v.
Proof.
  induction fuel as [|f IH]; intros l v r E; [discriminate E|]. cbn [p_headers] in E. destruct l as [|[] l]; try discriminate E.
  binv E. apply abort_ok, header_from in E0.
  assert (U : forall i, header_named s i -> i = a).
  { intros i I. apply header_from in I, E0. congruence. }
  assert (DONE : Ok (2 ^ a, l) = Ok (v, r) -> exists h hs, T_STRING s :: l = w_headers (h :: hs) ++ r /\ headers_mean (h :: hs) v).
  { intros E1. apply Ok_inj in E1. injection E1 as <- <-. exists s, []. split; [reflexivity|]. split; [intros h [ <- |[]]; eauto|].
    intros i. rewrite N.pow2_bits_eqb, N.eqb_eq. split; [intros <-; exists s; split; [left; reflexivity|exact E0]|].
    intros (h & [ <- |[]] & I). symmetry. exact (U i I). }
  destruct l as [|t l]; [exact (DONE E)|]. destruct t; try exact (DONE E). clear DONE. binv E. destruct a0 as [w r1]. cbn [fst snd] in E.
  apply Ok_inj in E. injection E as <- <-. destruct (IH _ _ _ E1) as (h & hs & -> & A & B). exists s, (h :: hs). split; [reflexivity|]. split.
  - intros x [ <- |X]; [eauto|exact (A x X)].
  - intros i. rewrite N.lor_spec, orb_true_iff, N.pow2_bits_eqb, N.eqb_eq, B. split.
    + intros [ <- |(x & X & Y)]; [exists s; split; [left; reflexivity|exact E0]|exists x; split; [right; exact X|exact Y]].
    + intros (x & [ <- |X] & Y); [left; symmetry; exact (U i Y)|right; exists x; auto].
Qed.

Lemma p_rate_sound l v r : p_rate l = Ok (v, r) ->
  exists e, l = match e with Some s => [T_EVERY; T_STRING s] | None => [] end ++ r /\
    match e with Some s => exists n, parse_log_rate s = Ok n /\ v = Some n | None => v = None end.
Proof.
  assert (DONE : Ok (None, l) = Ok (v, r) -> exists e, l = match e with Some s => [T_EVERY; T_STRING s] | None => [] end ++ r /\
    match e with Some s => exists n, parse_log_rate s = Ok n /\ v = Some n | None => v = None end).
  { intros E. apply Ok_inj in E. injection E as <- <-. exists None. split; reflexivity. }
  destruct l as [|t l]; [exact DONE|]. destruct t; try exact DONE. clear DONE. cbn [p_rate]. destruct l as [|[] l]; try discriminate.
  intros E. binv E. apply abort_ok in E0. apply Ok_inj in E. injection E as <- <-. exists (Some s). split; [reflexivity|eauto].
Qed.

Definition opt_rel (o : ropts) (l : list a_option) (o' : ropts) : Prop :=
  match logs l with
  | [] => o_log o' = o_log o /\ o_rate o' = o_rate o
  | [(hs, e)] => o_log o = None /\ (exists v, o_log o' = Some v /\ headers_mean hs v) /\
      match e with Some s => exists n, parse_log_rate s = Ok n /\ o_rate o' = Some n | None => o_rate o' = None end
  | _ => False
  end /\
  ((if o_counter o then 1 else 0) + counters l <= 1)%nat /\ o_counter o' = (o_counter o || (counters l =? 1)%nat) /\
  match marks l with
  | [] => o_mark o' = o_mark o
  | [s] => o_mark o = None /\ exists v, mark_of s = Ok v /\ o_mark o' = Some v
  | _ => False
  end.

Lemma p_options_sound fuel : forall o l o' r, p_options fuel o l = Ok (o', r) ->
  exists a, l = concat (map w_option a) ++ r /\ opt_rel o a o'.
Proof.
  induction fuel as [|f IH]; intros o l o' r E; [discriminate E|].
  assert (DONE : Ok (o, l) = Ok (o', r) -> exists a, l = concat (map w_option a) ++ r /\ opt_rel o a o').
  { intros Q. apply Ok_inj in Q. injection Q as <- <-. exists []. split; [reflexivity|]. unfold opt_rel. cbn [logs flat_map counters filter length marks].
    split; [auto|]. split; [destruct (o_counter o); lia|]. split; [rewrite orb_false_r; reflexivity|reflexivity]. }
  cbn [p_options] in E. destruct l as [|t l]; [exact (DONE E)|]. destruct t; try exact (DONE E); clear DONE.
  - binv E. destruct a as [v r1]. cbn [fst snd] in E. binv E. destruct a as [e r2]. cbn [fst snd] in E.
    destruct (o_log o) eqn:OL; [discriminate E|]. destruct (IH _ _ _ _ E) as (a & -> & R). clear E.
    apply p_rate_sound in E1. destruct E1 as (et & -> & ET).
    assert (H : exists hs, l = w_headers hs ++ match et with Some s => [T_EVERY; T_STRING s] | None => [] end ++ concat (map w_option a) ++ r /\ headers_mean hs v).
    { assert (D : Ok (255, l) = Ok (v, match et with Some s => [T_EVERY; T_STRING s] | None => [] end ++ concat (map w_option a) ++ r) ->
        exists hs, l = w_headers hs ++ match et with Some s => [T_EVERY; T_STRING s] | None => [] end ++ concat (map w_option a) ++ r /\ headers_mean hs v).
      { intros Q. apply Ok_inj in Q. injection Q as <- Q. exists []. split; [exact Q|reflexivity]. }
      destruct l as [|t l]; [exact (D E0)|]. destruct t; try exact (D E0). apply p_headers_sound in E0. destruct E0 as (h & hs & E0 & HM). exists (h :: hs). auto. }
    destruct H as (hs & -> & HM). exists (A_log hs et :: a). split.
    { cbn [map concat w_option app]. rewrite <- !app_assoc. reflexivity. }
    destruct R as (RL & RC & RC' & RM). unfold opt_rel. cbn [logs flat_map counters filter marks app o_log o_rate o_counter o_mark] in *.
    split; [|auto]. fold (logs a). destruct (logs a) as [|[x y] [|z t]].
    + destruct RL as (L1 & L2). split; [exact OL|]. split; [exists v; split; [exact L1|exact HM]|].
      destruct et as [s|]; [destruct ET as (n & P & ->); exists n; auto|congruence].
    + destruct RL as (C & _). discriminate C.
    + destruct RL.
  - destruct (o_counter o) eqn:OC; [discriminate E|]. destruct (IH _ _ _ _ E) as (a & -> & RL & RC & RC' & RM). exists (A_counter :: a). split; [reflexivity|].
    unfold opt_rel. cbn [logs flat_map counters filter marks app o_log o_rate o_counter o_mark length] in *. split; [exact RL|].
    rewrite OC. unfold counters in RC, RC' |- *. cbn [filter length].
    destruct (length (filter (fun x => match x with A_counter => true | _ => false end) a)); [|lia].
    split; [lia|]. split; [rewrite RC'; reflexivity|exact RM].
  - destruct l as [|[] l]; try discriminate E. binv E. destruct (o_mark o) eqn:OM; [discriminate E|].
    destruct (IH _ _ _ _ E) as (b & -> & RL & RC & RC' & RM). exists (A_mark s :: b). split; [reflexivity|].
    unfold opt_rel. cbn [logs flat_map counters filter marks app o_log o_rate o_counter o_mark length] in *. split; [exact RL|]. split; [exact RC|].
    split; [exact RC'|]. fold (marks b). destruct (marks b) as [|x [|y t]]; [split; [exact OM|]; eauto| |destruct RM].
    destruct RM as (C & _). discriminate C.
Qed.

(** ** Rules. *)
Lemma mark_of_lt s v : mark_of s = Ok v -> v < two32.
Proof.
  unfold mark_of. destruct (strtoll 0 s) as [[neg x] [|c r]]; [|discriminate]. destruct (neg && (0 <? x)); [discriminate|].
  destruct (two32 - 1 <? x) eqn:L; [discriminate|]. intros E. apply Ok_inj in E. subst x. apply N.ltb_ge in L.
  assert (two32 = 4294967296) by reflexivity. lia.
Qed.
Lemma mark_lor v : v < two32 -> N.lor MARK_SET v = v + 4294967295 * two32.
Proof.
  intros L. change two32 with (2 ^ 32) in *. change MARK_SET with (4294967295 * 2 ^ 32). rewrite <- N.shiftl_mul_pow2, N.lor_comm.
  rewrite N.add_nocarry_lxor.
  - apply N.bits_inj. intros i. rewrite N.lor_spec, N.lxor_spec. destruct (N.lt_ge_cases i 32) as [Q|Q].
    + rewrite N.shiftl_spec_low by exact Q. destruct (N.testbit v i); reflexivity.
    + replace (N.testbit v i) with false; [destruct (N.testbit _ i); reflexivity|]. symmetry. destruct (N.eq_dec v 0) as [ -> |Z]; [apply N.bits_0|].
      apply N.bits_above_log2. eapply N.lt_le_trans; [|exact Q]. apply N.log2_lt_pow2; [lia|exact L].
  - apply N.bits_inj. intros i. rewrite N.land_spec, N.bits_0. destruct (N.lt_ge_cases i 32) as [Q|Q].
    + rewrite N.shiftl_spec_low by exact Q. apply andb_false_r.
    + replace (N.testbit v i) with false; [reflexivity|]. symmetry. destruct (N.eq_dec v 0) as [ -> |Z]; [apply N.bits_0|].
      apply N.bits_above_log2. eapply N.lt_le_trans; [|exact Q]. apply N.log2_lt_pow2; [lia|exact L].
Qed.

Lemma p_verdict_sound ce l v rd r : p_verdict ce l = Ok (v, rd, r) -> exists a, l = w_verdict a ++ r /\
  match a with
  | A_verdict s => verdict_to_str v = Some s /\ rd = None
  | A_redirect i d => v = V_REDIRECT /\ exists x y, rd = Some (x, y) /\ if_index (ce_pe ce) i = Ok x /\ rdir_to_str y = Some d
  end.
Proof.
  destruct l as [|[] l]; try discriminate; cbn [p_verdict].
  - destruct l as [|[] l]; try discriminate. destruct l as [|[] l]; try discriminate. intros E. binv E. binv E.
    apply abort_ok, (named _ _ rdir_inverse) in E1. apply Ok_inj in E. inv E. exists (A_redirect s s0). split; [reflexivity|]. split; [reflexivity|]. eauto 6.
  - intros E. binv E. apply abort_ok, (named _ _ verdict_inverse) in E0. apply Ok_inj in E. inv E. exists (A_verdict s). split; [reflexivity|auto].
Qed.

Lemma p_rule_sound ce st l x st' l' : ce_ok ce -> p_rule ce st l = Ok (x, st', l') ->
  exists a more, l = w_rule a ++ l' /\ p_sets st' = p_sets st ++ more /\ Forall2 (described (ce_pe ce)) (literals a) more /\
    rule_written (ce_pe ce) (p_sets st') a x.
Proof.
  intros CE E. destruct l as [|[] l]; try discriminate E. cbn [p_rule] in E. binv E. destruct a as [[ms st1] r1].
  destruct (p_matchers_sound ce CE _ _ _ _ _ _ E0) as (a & am & more & -> & S1 & D & W). binv E. destruct a0 as [o r2]. cbn [fst snd] in E.
  apply p_options_sound in E1. destruct E1 as (os & -> & RL & RC & RC' & RM). binv E. destruct a0 as [[v rd] r3].
  apply p_verdict_sound in E1. destruct E1 as (av & -> & V). apply Ok_inj in E. injection E as <- <- <-.
  exists (mkAR a am os av), more. split; [unfold w_rule; cbn [ar_options ar_verdict ar_matchers ar_first ar_more app]; rewrite <- !app_assoc; reflexivity|].
  split; [exact S1|]. split; [exact D|]. unfold rule_written. cbn [ar_options ar_verdict o_log o_rate o_counter o_mark orb Nat.add] in *.
  assert (P : forall r, make_rule ms o v rd = r -> r_matchers r = ms /\ r_log r = (match o_log o with Some n => n | None => 0 end) /\
    r_log_rate r = (match o_rate o with Some n => n | None => 0 end) /\ r_mark r = (match o_mark o with Some n => N.lor MARK_SET n | None => 0 end) /\
    r_counters r = o_counter o /\ r_disabled r = false /\ r_verdict r = v /\
    (v = V_REDIRECT -> forall i d, rd = Some (i, d) -> r_rd_ifindex r = i /\ r_rd_dir r = d)).
  { intros r <-. unfold make_rule. destruct v, rd as [[i d]|]; do 7 (split; [reflexivity|]); try (intros C; discriminate C).
    - intros _ i0 d0 Q. injection Q as <- <-. auto.
    - intros _ i0 d0 Q. discriminate Q. }
  destruct (P _ eq_refl) as (P1 & P2 & P3 & P4 & P5 & P6 & P7 & P8). clear P. remember (make_rule ms o v rd) as x eqn:EX. clear EX.
  split; [rewrite P1; exact W|]. split.
  { unfold log_means. rewrite P2, P3. destruct (logs os) as [|[hs e] [|y t]]; [|clear P2 P3|destruct RL].
    - destruct RL as (-> & ->). auto.
    - destruct RL as (_ & (w & -> & HM) & RE). split; [exact HM|]. destruct e; [destruct RE as (n & -> & ->); reflexivity|rewrite RE; reflexivity]. }
  split; [exact RC|]. split; [congruence|]. split.
  { unfold mark_means, mark_is_set, mark_get. rewrite P4. destruct (marks os) as [|s [|y t]]; [rewrite RM; reflexivity| |destruct RM].
    destruct RM as (_ & w & M & ->). pose proof (mark_of_lt s w M) as L. exists w. split; [exact M|]. split; [exact L|].
    rewrite (mark_lor w L), N.div_add, N.mod_add, (N.div_small w), (N.mod_small w) by (discriminate || exact L). split; reflexivity. }
  split; [|exact P6]. unfold verdict_means. destruct av; [rewrite P7; tauto|].
  destruct V as (-> & i & d & -> & I & DI). destruct (P8 eq_refl i d eq_refl) as (-> & ->). auto.
Qed.

Lemma rule_written_more pe sets more a r : rule_written pe sets a r -> rule_written pe (sets ++ more) a r.
Proof. intros (W & R). split; [|exact R]. induction W; constructor; [apply written_more|]; assumption. Qed.

Lemma p_rules_sound ce : ce_ok ce -> forall fuel st l xs st' l', p_rules fuel ce st l = Ok (xs, st', l') ->
  exists a more, l = concat (map w_rule a) ++ l' /\ p_sets st' = p_sets st ++ more /\ Forall2 (described (ce_pe ce)) (flat_map literals a) more /\
    Forall2 (rule_written (ce_pe ce) (p_sets st')) a xs.
Proof.
  intros CE. induction fuel as [|f IH]; intros st l xs st' l' E; [discriminate E|].
  assert (DONE : Ok ([], st, l) = Ok (xs, st', l') -> exists a more, l = concat (map w_rule a) ++ l' /\ p_sets st' = p_sets st ++ more /\
    Forall2 (described (ce_pe ce)) (flat_map literals a) more /\ Forall2 (rule_written (ce_pe ce) (p_sets st')) a xs).
  { intros Q. apply Ok_inj in Q. injection Q as <- <- <-. exists [], []. split; [reflexivity|]. split; [symmetry; apply app_nil_r|]. split; constructor. }
  cbn [p_rules] in E. destruct l as [|t l]; [exact (DONE E)|]. destruct t; try exact (DONE E). clear DONE. binv E. destruct a as [[x st1] l1].
  destruct (p_rule_sound ce st _ x st1 l1 CE E0) as (a & more & -> & S1 & D & W). binv E. destruct a0 as [[xs2 st2] l2]. apply Ok_inj in E. injection E as <- <- <-.
  destruct (IH _ _ _ _ _ E1) as (b & more2 & -> & S2 & D2 & W2). exists (a :: b), (more ++ more2).
  split; [cbn [map concat]; rewrite <- app_assoc; reflexivity|]. split; [rewrite S2, S1, app_assoc; reflexivity|].
  split; [cbn [flat_map]; apply Forall2_app; assumption|]. constructor; [|exact W2]. rewrite S2. apply rule_written_more, W.
Qed.

Definition declared (s : a_set) : option cstr * cstr * cstr := (Some (as_name s), as_key s, as_payload s).
Lemma p_setlist_sound ce : ce_ok ce -> forall fuel st l st' l', p_setlist fuel ce st l = Ok (st', l') ->
  exists a more, l = concat (map w_set a) ++ l' /\ p_sets st' = p_sets st ++ more /\ Forall2 (described (ce_pe ce)) (map declared a) more.
Proof.
  intros CE. induction fuel as [|f IH]; intros st l st' l' E; [discriminate E|].
  assert (DONE : Ok (st, l) = Ok (st', l') -> exists a more, l = concat (map w_set a) ++ l' /\ p_sets st' = p_sets st ++ more /\
    Forall2 (described (ce_pe ce)) (map declared a) more).
  { intros Q. apply Ok_inj in Q. injection Q as <- <-. exists [], []. split; [reflexivity|]. split; [symmetry; apply app_nil_r|constructor]. }
  cbn [p_setlist] in E. destruct l as [|t l]; [exact (DONE E)|]. destruct t; try exact (DONE E). clear DONE.
  destruct l as [|[] l]; try discriminate E. destruct l as [|[] l]; try discriminate E. binv E. destruct a as [o r]. cbn [fst snd] in E.
  apply p_op_inv in E0. destruct E0 as (ot & -> & ON). destruct r as [|[] r]; try discriminate E. destruct (is_in o) eqn:I; [|discriminate E].
  apply (op_in_inv ot o ON) in I. subst ot. binv E. apply (set_from_sound ce st _ _ _ _ CE) in E0.
  destruct (IH _ _ _ _ E) as (b & more & -> & S1 & D). exists (mkAS s s0 s1 :: b), (a :: more). cbn [p_sets] in S1.
  split; [cbn [map concat w_set as_name as_key as_payload app]; rewrite <- app_assoc; reflexivity|].
  split; [rewrite S1, <- app_assoc; reflexivity|]. constructor; [exact E0|exact D].
Qed.

Lemma p_hookopts_sound ce fuel : forall n o l o' n' l', p_hookopts fuel ce n o l = Ok (o', n', l') ->
  exists a, l = map T_HOOKOPT a ++ l' /\ (a = [] -> o' = o) /\
    (a <> [] -> exists h mem, o' = Some h /\ forall i, mem i = ce_opt ce (n + i) /\ parse_opts mem 0 (match o with Some x => x | None => hookopts_new end) a = Ok h).
Proof.
  induction fuel as [|f IH]; intros n o l o' n' l' E; [discriminate E|].
  assert (DONE : Ok (o, n, l) = Ok (o', n', l') -> exists a, l = map T_HOOKOPT a ++ l' /\ (a = [] -> o' = o) /\
    (a <> [] -> exists h mem, o' = Some h /\ forall i, mem i = ce_opt ce (n + i) /\ parse_opts mem 0 (match o with Some x => x | None => hookopts_new end) a = Ok h)).
  { intros Q. apply Ok_inj in Q. injection Q as <- <- <-. exists []. split; [reflexivity|]. split; [reflexivity|]. intros C. destruct (C eq_refl). }
  cbn [p_hookopts] in E. destruct l as [|t l]; [exact (DONE E)|]. destruct t; try exact (DONE E). clear DONE. binv E. apply abort_ok in E0.
  destruct (IH _ _ _ _ _ _ E) as (b & -> & B0 & B1). exists (s :: b). split; [reflexivity|]. split; [discriminate|]. intros _.
  assert (SH : forall m1 m2 b i j o, (forall k, m1 (i + k)%nat = m2 (j + k)%nat) -> parse_opts m1 i o b = parse_opts m2 j o b).
  { clear. intros m1 m2. induction b as [|s b IH]; intros i j o M; [reflexivity|]. cbn [parse_opts].
    pose proof (M 0%nat) as M0. rewrite !Nat.add_0_r in M0. rewrite M0. destruct (parse_opt _ _ _); [|reflexivity]. cbn [bind]. apply IH.
    intros k. specialize (M (S k)). rewrite <- !Nat.add_succ_comm in M. exact M. }
  destruct b as [|s2 b].
  - rewrite (B0 eq_refl). exists a, (fun i => ce_opt ce (n + i)). split; [reflexivity|]. intros i. split; [reflexivity|]. cbn [parse_opts].
    rewrite Nat.add_0_r, E0. reflexivity.
  - destruct (B1 ltac:(discriminate)) as (h & mem & -> & M). exists h, (fun i => ce_opt ce (n + i)). split; [reflexivity|]. intros i. split; [reflexivity|].
    cbn [parse_opts]. rewrite Nat.add_0_r, E0. cbn [bind]. rewrite <- (proj2 (M 0%nat)).
    change (parse_opts (fun i0 => ce_opt ce (n + i0)) 1 a (s2 :: b) = parse_opts mem 0 a (s2 :: b)).
    apply SH. intros k. rewrite (proj1 (M (0 + k)%nat)). f_equal. lia.
Qed.

Lemma p_chain_sound ce st l c ho st' l' : ce_ok ce -> p_sets st = [] -> p_chain ce st l = Ok (c, ho, st', l') ->
  p_sets st' = [] /\ exists a, l = w_chain a ++ l' /\ chain_written (ce_pe ce) a (c, ho).
Proof.
  intros CE S0 E. destruct l as [|[] l]; try discriminate E. destruct l as [|[] l]; try discriminate E. destruct l as [|[] l]; try discriminate E.
  cbn [p_chain] in E. binv E. apply abort_ok, (named _ _ hook_inverse) in E0. binv E. destruct a0 as [[o n] r1].
  apply p_hookopts_sound in E1. destruct E1 as (os & -> & O0 & O1). destruct r1 as [|[] r1]; try discriminate E. binv E.
  apply abort_ok, (named _ _ verdict_inverse) in E1. binv E. destruct a1 as [st1 r2]. cbn [fst snd] in E.
  destruct (p_setlist_sound ce CE _ _ _ _ _ E2) as (ss & m1 & -> & S1 & D1). binv E. destruct a1 as [[rs st2] r4].
  destruct (p_rules_sound ce CE _ _ _ _ _ _ E3) as (rr & m2 & -> & S2 & D2 & W). destruct (valid_policy a0); [|discriminate E]. binv E. apply abort_ok in E4. binv E.
  apply Ok_inj in E. injection E as <- <- <- <-. split; [reflexivity|].
  exists (mkAC s s0 os s1 ss rr). split.
  { unfold w_chain. cbn [ac_name ac_hook ac_opts ac_policy ac_sets ac_rules]. cbn [app]. rewrite <- !app_assoc. cbn [app]. rewrite <- !app_assoc. reflexivity. }
  exists a, a0, (p_sets st2), rs. cbn [ac_name ac_hook ac_opts ac_policy ac_sets ac_rules fst snd]. split; [exact E0|]. split; [exact E1|].
  cbn [p_sets] in S1. rewrite S0 in S1. cbn [app] in S1. split.
  { rewrite S2, S1. unfold all_sets. cbn [ac_sets ac_rules]. apply Forall2_app; [exact D1|exact D2]. }
  split; [exact W|]. split; [exact E4|]. split.
  - unfold opts_written. destruct os as [|x os]; [exact (O0 eq_refl)|]. destruct (O1 ltac:(discriminate)) as (h & mem & -> & M). exists mem, h.
    split; [reflexivity|exact (proj2 (M 0%nat))].
  - intros x Q. rewrite Q in E5. apply abort_ok in E5. destruct a2. exact E5.
Qed.

Theorem p_chains_sound ce : ce_ok ce -> forall fuel st l x, p_sets st = [] -> p_chains fuel ce st l = Ok x ->
  exists a, a <> [] /\ l = concat (map w_chain a) /\ Forall2 (chain_written (ce_pe ce)) a x.
Proof.
  intros CE. induction fuel as [|f IH]; intros st l x S0 E; [discriminate E|]. cbn [p_chains] in E. binv E. destruct a as [[[c ho] st1] l1].
  destruct (p_chain_sound ce st l c ho st1 l1 CE S0 E0) as (S1 & a & -> & W). destruct l1 as [|t l1].
  - apply Ok_inj in E. subst x. exists [a]. split; [discriminate|]. split; [reflexivity|]. constructor; [exact W|constructor].
  - binv E. apply Ok_inj in E. subst x. destruct (IH _ _ _ S1 E1) as (b & _ & -> & W2). exists (a :: b). split; [discriminate|]. split; [reflexivity|].
    constructor; assumption.
Qed.
