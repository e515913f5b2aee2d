(** Every jump of a generated program stays inside it (proofs only). *)
From Coq Require Import NArith ZArith List Bool Lia Arith.
From Verif Require Import Bytes Types World BpfModel GenModel PktSpec Wf Frag StepFacts MatcherFacts2 RuleFacts RuleFacts2 RuleFacts3 ProgFacts FitsFacts JumpSpec.
Import ListNotations.
Local Open Scope nat_scope.

Definition is_pad (i : insn) : bool := match i with Pad => true | _ => false end.
Definition pad_at (l : code) (k : nat) : bool := match nth_error l k with Some (I i) => is_pad i | _ => false end.

Definition lands (it : item) (r : code) : bool :=
  match it with
  | I i => match jump_offset i with
           | Some o => (0 <=? o)%Z && (Z.to_nat o <=? length r) && negb (pad_at r (Z.to_nat o))
           | None => true end
  | J i => jumpish i
  end.

Fixpoint closed (l : code) : bool := match l with [] => true | it :: r => lands it r && closed r end.
Definition okc (l : code) : bool := closed l && negb (pad_at l 0).

Lemma pad_at_app a b k : pad_at (a ++ b) k = if k <? length a then pad_at a k else pad_at b (k - length a).
Proof.
  unfold pad_at. destruct (Nat.ltb_spec k (length a)); [rewrite nth_error_app1|rewrite nth_error_app2]; auto.
Qed.

Lemma pad_end a : pad_at a (length a) = false.
Proof. unfold pad_at. rewrite (proj2 (nth_error_None _ _)); auto. Qed.

Lemma lands_app it a b : lands it a = true -> pad_at b 0 = false -> lands it (a ++ b) = true.
Proof.
  destruct it as [i|i]; cbn [lands]; auto. destruct (jump_offset i) as [o|]; auto.
  rewrite !andb_true_iff, !negb_true_iff, !Nat.leb_le. intros [[H1 H2] H3] Hb. rewrite app_length.
  split; [split; [exact H1|lia]|]. rewrite pad_at_app. destruct (Nat.ltb_spec (Z.to_nat o) (length a)); auto.
  replace (Z.to_nat o - length a) with 0 by lia. exact Hb.
Qed.

Lemma closed_app a b : closed a = true -> closed b = true -> pad_at b 0 = false -> closed (a ++ b) = true.
Proof.
  induction a as [|it a IH]; intros Ha Hb Hp; cbn [app closed] in *; auto.
  apply andb_true_iff in Ha as [H1 H2]. rewrite lands_app, IH; auto.
Qed.

Lemma okc_app a b : okc a = true -> okc b = true -> okc (a ++ b) = true.
Proof.
  unfold okc. rewrite !andb_true_iff, !negb_true_iff. intros [A1 A2] [B1 B2]. split; [apply closed_app; auto|].
  rewrite pad_at_app. destruct (Nat.ltb_spec 0 (length a)); auto.
Qed.

Lemma okc_nil : okc [] = true. Proof. reflexivity. Qed.

Lemma okc_stub f : forall a b n, okc (stub_load f a b n) = true.
Proof. induction f; intros a b [|n]; cbn [stub_load]; auto. apply okc_app; auto. Qed.

Lemma okc_jover mk b : (forall o, jump_offset (mk o) = Some o) -> small b -> okc b = true -> okc (jover mk b) = true.
Proof.
  intros Hj Hs Hb. unfold jover, okc, small in *. cbn [closed lands]. rewrite Hj. rewrite i16_small by lia.
  apply andb_true_iff in Hb as [H1 H2]. rewrite H1, Nat2Z.id, Nat.leb_refl, pad_end.
  rewrite (proj2 (Z.leb_le _ _)) by lia. cbn. unfold pad_at. cbn. generalize (Hj (Z.of_nat (length b))).
  destruct (mk (Z.of_nat (length b))); cbn; auto. discriminate.
Qed.

Ltac okapp := repeat match goal with |- okc (_ ++ _) = true => apply okc_app end.
Ltac okuse := repeat match goal with E : okc ?a = true |- context [okc ?a] => rewrite E end; auto.

Lemma okc_range m a b r : okc (cmp_range m a b r) = true.
Proof. unfold cmp_range. destruct (m_neg m); reflexivity. Qed.

Lemma okc_halves j r a b : okc (cmp_halves j r a b) = true.
Proof. unfold cmp_halves. destruct j; lazy; reflexivity. Qed.

Lemma okc_cmp_value m a n r l : cmp_value m a n r = Ok l -> okc l = true.
Proof. unfold cmp_value. intros H. wf1 H; apply Ok_inj in H; subst; first [apply okc_halves|reflexivity]. Qed.

Lemma okc_cmp_masked m a p n r l : cmp_masked m a p n r = Ok l -> okc l = true.
Proof.
  unfold cmp_masked. intros H. wf1 H; apply Ok_inj in H; subst; okapp; try apply okc_halves;
    try match goal with |- context [if ?b then _ else _] => destruct b end; reflexivity.
Qed.

Lemma okc_header mt r l : load_header mt r = Ok l -> okc l = true.
Proof. unfold load_header. intros H. wf1 H; apply Ok_inj in H; subst; reflexivity. Qed.

Lemma okc_load mt r l : pkt_load mt r = Ok l -> okc l = true.
Proof.
  unfold pkt_load. intros H. wf1 H. apply okc_header in E. apply Ok_inj in H; subst. apply okc_app; auto.
  unfold load_field in E0. wf1 E0; apply Ok_inj in E0; subst; reflexivity.
Qed.

Lemma okc_key key : forall o l, gen_set_key key o = Ok l -> okc l = true.
Proof.
  induction key as [|t key IH]; intros o l H; cbn [gen_set_key] in H; [apply Ok_inj in H; subst; reflexivity|].
  wf1 H. apply okc_header in E. apply IH in E0. apply Ok_inj in H; subst. unfold stx_payload. okapp; auto. apply okc_stub.
Qed.

Lemma okc_lookup c m o l : gen_map_lookup c m o = Ok l -> okc l = true.
Proof.
  unfold gen_map_lookup. intros H. wf1 H. apply Ok_inj in H; subst. unfold okc. cbn. reflexivity.
Qed.

Lemma okc_sa_load o n l : sa_load o n = Ok l -> okc l = true.
Proof. unfold sa_load. intros H. wf1 H; apply Ok_inj in H; subst; reflexivity. Qed.

Lemma okc_sa_key key : forall o l, sa_set_key key o = Ok l -> okc l = true.
Proof.
  induction key as [|t key IH]; intros o l H; cbn [sa_set_key] in H; [apply Ok_inj in H; subst; reflexivity|].
  wf1 H. apply IH in E0. apply Ok_inj in H; subst. apply okc_app; auto.
  pose proof (okc_stub (mt_size (meta_of t)) (Z.of_nat a) (scr_off (Z.of_nat o)) (mt_size (meta_of t))) as S.
  destruct t; try exact S; reflexivity.
Qed.

Lemma okc_sa c m l : sa_matcher c m = Ok l -> okc l = true.
Proof.
  intros H. unfold sa_matcher in H.
  destruct (m_type m) eqn:Et; try discriminate H;
    unfold gen_meta, gen_probability, sa_load_cmp, sa_net, sa_port, sa_set in H; try rewrite Et in H;
    wf1 H;
    repeat match goal with
      | E : cmp_value _ _ _ _ = Ok _ |- _ => apply okc_cmp_value in E
      | E : cmp_masked _ _ _ _ _ = Ok _ |- _ => apply okc_cmp_masked in E
      | E : sa_load _ _ = Ok _ |- _ => apply okc_sa_load in E
      | E : sa_set_key _ _ = Ok _ |- _ => apply okc_sa_key in E
      | E : gen_map_lookup _ _ _ = Ok _ |- _ => apply okc_lookup in E
      end;
    try (apply Ok_inj in H; subst);
    try assumption;
    try (okapp; auto using okc_range, okc_stub; lazy; reflexivity);
    try (lazy; reflexivity).
  apply (okc_app [MOV64R R1 R8]); auto.
Qed.

Lemma okc_gen_log h r : okc (gen_log h r) = true.
Proof. destruct h; reflexivity. Qed.

Lemma okc_matcher c m l : gen_matcher c m = Ok l -> okc l = true.
Proof.
  intros H.
  assert (P : gen_packet_matcher c m = Ok l -> okc l = true).
  { clear H. intros H. unfold gen_packet_matcher in H.
    destruct (m_type m); try discriminate H;
      unfold gen_meta, gen_iface, gen_probability, gen_meta_port, gen_flow_probability, gen_load_cmp, gen_net, gen_port,
        gen_tcp_flags, gen_nexthdr, gen_ip4_dscp, gen_ip6_dscp, gen_set in H;
      repeat match type of H with match m_type m with _ => _ end = _ => destruct (m_type m); try discriminate H end;
      wf1 H;
      repeat match goal with
        | E : cmp_value _ _ _ _ = Ok _ |- _ => apply okc_cmp_value in E
        | E : cmp_masked _ _ _ _ _ = Ok _ |- _ => apply okc_cmp_masked in E
        | E : pkt_load _ _ = Ok _ |- _ => apply okc_load in E
        | E : load_header _ _ = Ok _ |- _ => apply okc_header in E
        | E : gen_set_key _ _ = Ok _ |- _ => apply okc_key in E
        | E : gen_map_lookup _ _ _ = Ok _ |- _ => apply okc_lookup in E
        | E : cmp_bitfield _ _ _ = Ok _ |- _ => unfold cmp_bitfield in E; wf1 E; apply Ok_inj in E; subst
        end;
      try (apply Ok_inj in H; subst);
      try assumption;
      try (okapp; auto using okc_range, okc_stub; lazy; reflexivity);
      try (lazy; reflexivity). }
  unfold gen_matcher in H.
  destruct (hook_flavor (c_hook c)); try discriminate H; try (apply (okc_sa c m l H)); destruct (m_type m) eqn:Et; try (apply P; exact H);
    wf1 H; repeat match goal with E : cmp_value _ _ _ _ = Ok _ |- _ => apply okc_cmp_value in E end;
    apply Ok_inj in H; subst; okapp; auto using okc_range.
Qed.

Lemma okc_matchers c ms : forall l, gen_matchers c ms = Ok l -> okc l = true.
Proof.
  induction ms as [|m ms IH]; intros l H; cbn [gen_matchers] in H; [apply Ok_inj in H; subst; reflexivity|].
  wf1 H. apply okc_matcher in E. specialize (IH _ eq_refl). apply Ok_inj in H; subst. apply okc_app; auto.
Qed.

Lemma okc_protos ts : forall ck g ck', check_protos ts ck = Ok (g, ck') -> okc g = true.
Proof.
  induction ts as [|t ts IH]; intros ck g ck' H; cbn [check_protos] in H.
  - apply Ok_inj in H. injection H as <- <-. reflexivity.
  - wf1 H. destruct a as [a cka], a0 as [b ckb]. cbn [fst snd] in *. apply Ok_inj in H. injection H as <- <-.
    apply IH in E0. apply okc_app; auto.
    unfold check_proto in E. wf1 E; apply Ok_inj in E; injection E as <- <-; auto;
      unfold check_protocol in *; wf1 E1; apply Ok_inj in E1; subst; reflexivity.
Qed.

Lemma okc_rule c r l : gen_rule c r = Ok l -> okc l = true.
Proof.
  unfold gen_rule. intros H. destruct (r_disabled r); [apply Ok_inj in H; subst; reflexivity|]. wf1 H.
  apply Ok_inj in H; subst.
  destruct (gen_guards_flat c _ _ _ E) as [ck' G]. apply okc_protos in G. apply okc_matchers in E0.
  okapp; auto.
  - unfold gen_set_mark in E1. wf1 E1; apply Ok_inj in E1; subst; reflexivity.
  - unfold gen_rule_log. destruct (r_log r =? 0)%N; auto. destruct (r_log_rate r =? 0)%N; [apply okc_gen_log|].
    destruct (r_index r =? 0)%N, (c_hook c); reflexivity.
  - destruct (r_counters r); reflexivity.
  - unfold gen_rule_verdict, gen_redirect in E2. wf1 E2; apply Ok_inj in E2; subst; reflexivity.
Qed.

(** ** After the fixups *)
Fixpoint closedi (l : list insn) : bool :=
  match l with
  | [] => true
  | i :: r => match jump_offset i with
              | Some o => (0 <=? o)%Z && (Z.to_nat o <=? length r) && negb (match nth_error r (Z.to_nat o) with Some j => is_pad j | None => false end)
              | None => true end && closedi r
  end.
Definition headi (l : list insn) : bool := match l with Pad :: _ => false | _ => true end.

Lemma pad_resolve l : forall k, match nth_error (resolve l) k with Some j => is_pad j | None => false end =
  match nth_error l k with Some (I i) => is_pad i | Some (J i) => is_pad i | None => false end.
Proof. induction l as [|[i|i] l IH]; intros [|k]; cbn; auto. destruct i; reflexivity. Qed.

Lemma closed_wfix l : closed l = true -> wfix l = true.
Proof.
  induction l as [|it l IH]; cbn [closed]; auto. unfold wfix; cbn [forallb]; fold (wfix l). rewrite andb_true_iff. intros [H1 H2]. rewrite (IH H2), andb_true_r.
  destruct it; cbn in *; auto.
Qed.

Lemma pad_resolve' l k : closed l = true ->
  match nth_error (resolve l) k with Some j => is_pad j | None => false end = pad_at l k.
Proof.
  intros C. rewrite pad_resolve. unfold pad_at. destruct (nth_error l k) as [[i|i]|] eqn:E; auto.
  apply closed_wfix in C. apply wfix_well in C. apply nth_error_In in E. specialize (C i E). destruct i; auto; discriminate.
Qed.

Lemma closed_resolve l : closed l = true -> small l -> closedi (resolve l) = true.
Proof.
  induction l as [|it l IH]; intros C S; auto. cbn [closed] in C. apply andb_true_iff in C as [C1 C2].
  assert (S' : small l) by (unfold small in *; cbn [length] in S; lia). specialize (IH C2 S').
  destruct it as [i|i]; cbn [resolve closedi lands] in *.
  - rewrite IH, andb_true_r. destruct (jump_offset i) as [o|]; auto. rewrite resolve_length, pad_resolve' by auto. exact C1.
  - rewrite IH, andb_true_r. unfold small in S'. rewrite i16_small by lia.
    destruct (jump_offset (set_off i (Z.of_nat (length l)))) as [o|] eqn:E; auto.
    assert (o = Z.of_nat (length l)) as -> by (destruct i; cbn in E; congruence).
    rewrite Nat2Z.id, resolve_length, Nat.leb_refl, pad_resolve', pad_end by auto.
    rewrite (proj2 (Z.leb_le _ _)) by lia. reflexivity.
Qed.

Lemma closedi_app a b : closedi a = true -> closedi b = true -> headi b = true -> closedi (a ++ b) = true.
Proof.
  induction a as [|i a IH]; intros Ha Hb Hh; cbn [app closedi] in *; auto.
  apply andb_true_iff in Ha as [H1 H2]. rewrite (IH H2 Hb Hh), andb_true_r.
  destruct (jump_offset i) as [o|]; auto. rewrite !andb_true_iff, !negb_true_iff, !Nat.leb_le in *.
  destruct H1 as [[H1 H3] H4]. rewrite app_length. split; [split; [exact H1|lia]|].
  destruct (Nat.lt_ge_cases (Z.to_nat o) (length a)).
  - rewrite nth_error_app1 by auto. exact H4.
  - rewrite nth_error_app2 by auto. replace (Z.to_nat o - length a) with 0 by lia.
    destruct b as [|[] b]; cbn in *; auto; discriminate.
Qed.

Lemma headi_app a b : headi a = true -> headi b = true -> headi (a ++ b) = true.
Proof. destruct a as [|[] a]; cbn; auto. Qed.

Lemma headi_resolve l : okc l = true -> headi (resolve l) = true.
Proof.
  unfold okc. rewrite andb_true_iff, negb_true_iff. intros [C P]. rewrite <- (pad_resolve' l 0 C) in P.
  destruct (resolve l) as [|[] r]; auto; discriminate.
Qed.

Lemma rules_closed c : fits c -> forall rs codes, (forall r, In r rs -> In r (c_rules c)) -> gen_rules c rs = Ok codes ->
  closedi (concat codes) = true /\ headi (concat codes) = true.
Proof.
  intros F. induction rs as [|r rs IH]; intros codes Hin H; cbn [gen_rules] in H.
  - apply Ok_inj in H; subst. split; reflexivity.
  - wf1 H. apply Ok_inj in H; subst. destruct (IH a0 ltac:(intros; apply Hin; right; auto) eq_refl) as [A B].
    pose proof (okc_rule _ _ _ E) as O. cbn [concat].
    assert (C : closedi (resolve a) = true).
    { apply closed_resolve; [apply andb_true_iff in O as [O _]; exact O|]. eapply F; eauto. apply Hin. left. auto. }
    split; [apply closedi_app; auto|apply headi_app; auto]. apply headi_resolve. exact O.
Qed.

Lemma closedi_inside a t : closedi a = true -> t <> [] -> headi t = true -> (forall i, In i t -> jump_offset i = None) ->
  jumps_inside (a ++ t).
Proof.
  intros C Ht Hh Hn k i o Hk Ho.
  assert (G : forall l k i, closedi l = true -> nth_error l k = Some i -> jump_offset i = Some o ->
    (0 <= o)%Z /\ k + 1 + Z.to_nat o <= length l /\ match nth_error l (k + 1 + Z.to_nat o) with Some j => is_pad j = false | None => True end).
  { clear - o. induction l as [|x l IH]; intros [|k] i C Hk Ho; cbn in Hk; try discriminate; cbn [closedi] in C;
      apply andb_true_iff in C as [C1 C2].
    - injection Hk as ->. rewrite Ho in C1. rewrite !andb_true_iff, negb_true_iff, Nat.leb_le, Z.leb_le in C1.
      destruct C1 as [[H1 H2] H3]. split; auto. cbn [Nat.add length]. split; [lia|]. cbn [nth_error].
      destruct (nth_error l (Z.to_nat o)); auto.
    - destruct (IH k i C2 Hk Ho) as (A & B & D). split; auto. cbn [Nat.add length nth_error]. split; [lia|]. exact D. }
  destruct (Nat.lt_ge_cases k (length a)) as [L|L].
  2:{ rewrite nth_error_app2 in Hk by auto. apply nth_error_In in Hk. rewrite (Hn i Hk) in Ho. discriminate. }
  rewrite nth_error_app1 in Hk by auto. destruct (G a k i C Hk Ho) as (A & B & D). split; auto.
  destruct (Nat.lt_ge_cases (k + 1 + Z.to_nat o) (length a)) as [L2|L2].
  - rewrite nth_error_app1 by auto. destruct (nth_error a (k + 1 + Z.to_nat o)) as [j|] eqn:E.
    + exists j. split; auto. intros ->. discriminate.
    + apply nth_error_None in E. lia.
  - rewrite nth_error_app2 by auto. replace (k + 1 + Z.to_nat o - length a) with 0 by lia.
    destruct t as [|j t]; [congruence|]. exists j. split; auto. intros ->. discriminate.
Qed.

Lemma head_okc c h : gen_head c = Ok h -> okc h = true /\ small h.
Proof.
  intros H. unfold gen_head, gen_prologue in H.
  destruct (hook_flavor (c_hook c)) eqn:EF; cbn [get_verdict bind] in H; try discriminate H;
    apply Ok_inj in H; subst h; destruct (c_log c), (c_nexthdr c) eqn:EN, (c_ratelimit c), (nf_ingress (c_hook c));
    unfold small, parse_l3, parse_ip6; rewrite ?EN; (split; lazy; reflexivity).
Qed.

Lemma program_jumps c prog : fits c -> gen_program c = Ok prog -> jumps_inside prog.
Proof.
  intros F G. unfold gen_program in G. wf1 G. apply Ok_inj in G. subst prog.
  destruct (head_okc c a E) as [OH SH]. destruct (rules_closed c F _ _ (fun r H => H) E0) as [CR HR].
  rewrite app_assoc. unfold gen_tail in E1. wf1 E1. apply Ok_inj in E1. subst a1.
  apply closedi_inside; try reflexivity; try discriminate.
  - apply closedi_app; auto. apply closed_resolve; auto. apply andb_true_iff in OH. tauto.
  - intros i Hi. cbn in Hi. repeat (destruct Hi as [<-|Hi]; [reflexivity|]). destruct Hi.
Qed.
