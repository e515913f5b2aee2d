(** The programs of GenModel, put together. *)
From Coq Require Import ZArith NArith List Lia Bool.
From Verif Require Import Bytes Types World BpfModel GenModel Frag BytesFacts NewFacts ProgFacts AsmModel AsmSpec AsmFacts AsmFacts2 AsmFacts3 AsmFacts4.
Import ListNotations.
Open Scope res_scope.

(** Nothing before or after the rules jumps to the next rule. *)
Definition nojs (l : code) : bool := forallb (fun it => match it with I _ => true | J _ => false end) l.
Lemma nojs_app a b : nojs (a ++ b) = nojs a && nojs b.
Proof. apply forallb_app. Qed.
Lemma nojs_map l : nojs (map I l) = true.
Proof. induction l; auto. Qed.
Lemma nojs_jover mk b : nojs (jover mk b) = nojs b.
Proof. reflexivity. Qed.
Lemma nojs_bodies o d : nojs (swich_bodies o d) = true.
Proof.
  induction o as [|[n b] o IH]; cbn [swich_bodies]; [apply nojs_map|].
  rewrite nojs_app, nojs_map. cbn. exact IH.
Qed.
Lemma nojs_tests r o d : forall n, nojs (swich_tests r o d n) = true.
Proof. induction o as [|[i b] o IH]; intros n; cbn [swich_tests]; [destruct d; reflexivity|]. cbn. apply IH. Qed.
Lemma nojs_swich r o d : nojs (swich r o d) = true.
Proof. unfold swich. destruct d; rewrite nojs_app, nojs_tests, nojs_bodies; reflexivity. Qed.
Lemma nojs_ip6 c : nojs (parse_ip6 c) = true.
Proof. unfold parse_ip6. repeat (rewrite nojs_app || rewrite nojs_jover). destruct (c_nexthdr c); reflexivity. Qed.
Lemma nojs_dynptr c f k : nojs (make_dynptr c f k) = true.
Proof. unfold make_dynptr. repeat (rewrite nojs_app || rewrite nojs_jover). reflexivity. Qed.
Lemma nojs_l2 c k : nojs (parse_l2 c k) = true.
Proof. unfold parse_l2. repeat (rewrite nojs_app || rewrite nojs_jover). reflexivity. Qed.
Lemma nojs_l3 c k : nojs (parse_l3 c k) = true.
Proof. unfold parse_l3. repeat (rewrite nojs_app || rewrite nojs_jover). rewrite ?nojs_swich, ?nojs_ip6. reflexivity. Qed.
Lemma nojs_l4 c k : nojs (parse_l4 c k) = true.
Proof. unfold parse_l4. repeat (rewrite nojs_app || rewrite nojs_jover). rewrite ?nojs_swich. reflexivity. Qed.
Lemma nojs_family r : nojs (family_swich r) = true.
Proof. unfold family_swich. rewrite ?nojs_app, ?nojs_swich. reflexivity. Qed.
Lemma nojs_prologue c l : gen_prologue c = Ok l -> nojs l = true.
Proof.
  unfold gen_prologue. intros H. destruct (get_verdict _ V_ACCEPT) as [k|]; [|discriminate]. cbn [bind] in H.
  destruct (hook_flavor (c_hook c)); apply Ok_inj in H; subst;
    rewrite ?nojs_app, ?nojs_dynptr, ?nojs_l2, ?nojs_l3, ?nojs_l4, ?nojs_family; reflexivity.
Qed.
Lemma nojs_head c l : gen_head c = Ok l -> nojs l = true.
Proof.
  unfold gen_head. intros H. destruct (gen_prologue c) as [p|] eqn:P; [|discriminate]. cbn [bind] in H.
  apply Ok_inj in H. subst. apply nojs_prologue in P. rewrite !nojs_app, P.
  destruct (c_log c), (c_nexthdr c), (c_ratelimit c); reflexivity.
Qed.
Lemma nojs_tail c l : gen_tail c = Ok l -> nojs l = true.
Proof.
  unfold gen_tail. intros H. destruct (get_verdict _ _) as [k|]; [|discriminate]. cbn [bind] in H.
  apply Ok_inj in H. subst. reflexivity.
Qed.

(** The references of an instruction list. *)
Definition ref_of (enc : insn -> word) (i : insn) : ref :=
  match i with
  | LdMap d m => R_map (mref m) (enc i)
  | Call c => match stub_id c with Some id => R_call id | None => R_ins (enc i) end
  | _ => R_ins (enc i)
  end.
Definition stands (enc : insn -> word) (r : ref) (x : insn) : Prop :=
  r = ref_of enc x
  \/ exists i n, r = R_skip (enc i) n /\ jumpish i = true /\ x = GenModel.set_off i (i16 (Z.of_nat n)).

Lemma to_end_map enc l r : to_end (map (carry enc) l ++ E_end :: r) = Some (length l).
Proof.
  induction l as [|it l IH]; [reflexivity|]. cbn [map app length].
  assert (W : carry enc it <> E_end /\ width (carry enc it) = 1).
  { destruct it as [i|i]; [|split; [discriminate|reflexivity]].
    destruct i; try (split; [discriminate|reflexivity]). cbn. destruct (stub_id c); split; try discriminate; reflexivity. }
  destruct W as (W1 & W2). cbn [to_end]. rewrite IH. destruct (carry enc it); try congruence; cbn in W2 |- *; rewrite ?W2; congruence.
Qed.

Lemma layout_rule enc l r : wfix l = true ->
  exists rs, layout (map (carry enc) l ++ E_end :: r) = rs ++ layout r /\ Forall2 (stands enc) rs (resolve l).
Proof.
  induction l as [|it l IH]; intros W.
  - exists []. split; [reflexivity|constructor].
  - cbn [wfix forallb] in W. apply andb_true_iff in W. destruct W as (W1 & W2). destruct (IH W2) as (rs & A & B).
    pose proof (to_end_map enc l r) as TE.
    destruct it as [i|i]; cbn [map app resolve].
    + assert (H : exists g, layout (carry enc (I i) :: map (carry enc) l ++ E_end :: r) = g :: layout (map (carry enc) l ++ E_end :: r) /\ g = ref_of enc i).
      { destruct i; cbn; try (eexists; split; reflexivity). destruct (stub_id c); eexists; split; reflexivity. }
      destruct H as (g & G1 & G2). exists (g :: rs). rewrite G1, A. split; [reflexivity|]. constructor; [left; exact G2|exact B].
    + exists (R_skip (enc i) (length l) :: rs). split.
      * cbn [carry layout]. rewrite TE, A. reflexivity.
      * constructor; [|exact B]. right. exists i, (length l). cbn in W1. auto.
Qed.

Lemma layout_plain enc l r : nojs l = true ->
  exists rs, layout (map (carry enc) l ++ r) = rs ++ layout r /\ Forall2 (stands enc) rs (resolve l).
Proof.
  induction l as [|it l IH]; intros W.
  - exists []. split; [reflexivity|constructor].
  - cbn [nojs forallb] in W. apply andb_true_iff in W. destruct W as (W1 & W2). destruct (IH W2) as (rs & A & B).
    destruct it as [i|i]; [|discriminate]. cbn [map app resolve].
    assert (H : exists g, layout (carry enc (I i) :: map (carry enc) l ++ r) = g :: layout (map (carry enc) l ++ r) /\ g = ref_of enc i).
    { destruct i; cbn; try (eexists; split; reflexivity). destruct (stub_id c); eexists; split; reflexivity. }
    destruct H as (g & G1 & G2). exists (g :: rs). rewrite G1, A. split; [reflexivity|]. constructor; [left; exact G2|exact B].
Qed.

Lemma layout_rules enc c rest : forall rs prog l,
  gen_rules c rs = Ok prog -> rules_script enc c rs = Ok l ->
  exists refs, layout (l ++ rest) = refs ++ layout rest /\ Forall2 (stands enc) refs (concat prog).
Proof.
  induction rs as [|r rs IH]; intros prog l G S; cbn [gen_rules rules_script] in G, S.
  - apply Ok_inj in G. apply Ok_inj in S. subst. exists []. split; [reflexivity|constructor].
  - destruct (gen_rule c r) as [a|] eqn:GR; [|discriminate]. cbn [bind] in G, S.
    destruct (gen_rules c rs) as [b|]; [|discriminate]. destruct (rules_script enc c rs) as [s|]; [|discriminate].
    cbn [bind] in G, S. apply Ok_inj in G. apply Ok_inj in S. subst.
    destruct (IH _ _ eq_refl eq_refl) as (refs & A & B).
    destruct (layout_rule enc a (s ++ rest) (wfix_rule _ _ _ GR)) as (ra & A1 & B1).
    exists (ra ++ refs). rewrite <- app_assoc. cbn [app]. rewrite A1, A, app_assoc. split; [reflexivity|].
    cbn [concat]. apply Forall2_app; assumption.
Qed.

Lemma layout_program enc c prog l : gen_program c = Ok prog -> chain_script enc c = Ok l ->
  Forall2 (stands enc) (layout l) prog.
Proof.
  unfold gen_program, chain_script. intros G S.
  destruct (gen_head c) as [h|] eqn:H; [|discriminate]. cbn [bind] in G, S.
  destruct (gen_rules c (c_rules c)) as [p|] eqn:GR; [|discriminate].
  destruct (rules_script enc c (c_rules c)) as [s|] eqn:RS; [|discriminate]. cbn [bind] in G, S.
  destruct (gen_tail c) as [t|] eqn:T; [|discriminate]. cbn [bind] in G, S.
  apply Ok_inj in G. apply Ok_inj in S. subst.
  apply nojs_head in H. apply nojs_tail in T.
  destruct (layout_plain enc h (s ++ map (carry enc) t) H) as (r1 & A1 & B1).
  destruct (layout_rules enc c (map (carry enc) t) _ _ _ GR RS) as (r2 & A2 & B2).
  destruct (layout_plain enc t [] T) as (r3 & A3 & B3). rewrite !app_nil_r in A3. cbn [layout] in A3.
  rewrite A1, A2, A3. apply Forall2_app; [exact B1|]. apply Forall2_app; assumption.
Qed.

Lemma Forall2_nth {A B} (R : A -> B -> Prop) : forall l l', Forall2 R l l' ->
  forall i y, nth_error l' i = Some y -> exists x, nth_error l i = Some x /\ R x y.
Proof.
  induction 1 as [|x y l l' H F IH]; intros [|i] z N; try discriminate; cbn in *.
  - inversion N; subst. eauto.
  - eauto.
Qed.

Lemma i16_s16 z : i16 z = to_s16 z.
Proof.
  unfold i16, to_s16. cbv zeta.
  pose proof (Z.div_mod z 65536 ltac:(discriminate)) as D.
  pose proof (Z.mod_pos_bound z 65536 ltac:(reflexivity)) as B.
  destruct (Z.ltb_spec (z mod 65536) 32768).
  - rewrite <- (Z.mod_unique (z + 32768) 65536 (z / 65536) (z mod 65536 + 32768)); lia.
  - rewrite <- (Z.mod_unique (z + 32768) 65536 (z / 65536 + 1) (z mod 65536 - 32768)); lia.
Qed.

Lemma program_linked enc c prog E junk l img buf :
  jumps_encoded enc -> gen_program c = Ok prog -> chain_script enc c = Ok l ->
  link E junk l = Ok (img, buf) ->
  (forall id st, e_stub E id = Some st -> loads_apart st) ->
  (Z.of_nat (length img) < 2147483648)%Z -> (Z.of_nat (length buf) < 2147483648)%Z ->
  forall i x, nth_error prog i = Some x ->
    exists w, nth_error img i = Some w /\ carried E enc buf img i x w.
Proof.
  intros JE G S L AP SZ SZB i x N.
  pose proof (layout_program _ _ _ _ G S) as F. destruct (Forall2_nth _ _ _ F _ _ N) as (r & R & ST).
  destruct (linked_means _ _ _ _ _ L AP SZ SZB _ _ R) as (w & W & M). exists w. split; [exact W|].
  destruct ST as [ -> |(j & n & -> & JJ & ->)].
  - destruct x; cbn [ref_of carried] in *; try exact M; try (destruct m; exact M).
    destruct c0; exact M.
  - cbn [means plain_means] in M. destruct M as (M & _). rewrite i16_s16.
    rewrite <- JE in M by exact JJ. destruct j; try discriminate; exact M.
Qed.

Lemma script_of enc c prog : gen_program c = Ok prog -> exists l, chain_script enc c = Ok l.
Proof.
  unfold gen_program, chain_script. intros G.
  destruct (gen_head c) as [h|]; [|discriminate]. cbn [bind] in G |- *.
  destruct (gen_rules c (c_rules c)) as [p|] eqn:GR; [|discriminate]. cbn [bind] in G.
  destruct (gen_tail c) as [t|]; [|discriminate]. cbn [bind] in G.
  assert (RS : exists s, rules_script enc c (c_rules c) = Ok s).
  { clear G. revert p GR. induction (c_rules c) as [|r rs IH]; intros p GR; [cbn; eauto|].
    cbn [gen_rules rules_script] in *. destruct (gen_rule c r) as [a|]; [|discriminate]. cbn [bind] in *.
    destruct (gen_rules c rs) as [b|]; [|discriminate]. destruct (IH _ eq_refl) as (s & ->). cbn [bind]. eauto. }
  destruct RS as (s & ->). cbn [bind]. eauto.
Qed.
