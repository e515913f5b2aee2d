(** Rules: guards, matchers, effects and verdict (proofs only). *)
From Coq Require Import NArith ZArith List Bool Lia Arith.
From Verif Require Import Bytes Types World BpfModel GenModel PktSpec ViewSpec Wf ViewModel Frag BytesFacts NetFacts StepFacts
  SwichFacts SetFacts MatcherFacts MatcherFacts2 MatcherFacts3 MatcherFacts4 MatcherFacts5 MatcherFacts6 RuleFacts
  SockFacts.
Import ListNotations.
Local Open Scope N_scope.

(** ** Guards *)
Lemma gen_guards_flat c : forall ms ck g, gen_guards c ms ck = Ok g ->
  exists ck', check_protos (flat_map (types_of (c_sets c)) ms) ck = Ok (g, ck').
Proof.
  induction ms as [|m ms IH]; intros ck g H; cbn [gen_guards flat_map] in *.
  - apply Ok_inj in H; subst g. cbn. eauto.
  - destruct (matcher_types c m) as [ts|] eqn:Et; [|discriminate]. cbn [bind] in H.
    destruct (check_protos ts ck) as [[a ck1]|] eqn:Ea; [|discriminate]. cbn [bind fst snd] in H.
    destruct (gen_guards c ms ck1) as [b|] eqn:Eb; [|discriminate]. cbn [bind] in H.
    apply Ok_inj in H; subst g.
    assert (E : types_of (c_sets c) m = ts).
    { unfold matcher_types in Et. unfold types_of.
      destruct (m_type m); try (apply Ok_inj in Et; exact Et).
      destruct (set_of (c_sets c) m); [apply Ok_inj in Et; exact Et|discriminate]. }
    rewrite E. apply IH in Eb as [ck' Eb]. exists ck'.
    clear - Ea Eb. revert ck a Ea. induction ts as [|t ts IHt]; intros ck a Ea; cbn [check_protos app] in *.
    + apply Ok_inj in Ea. injection Ea as <- <-. exact Eb.
    + destruct (check_proto t ck) as [[x ckx]|]; [|discriminate]. cbn [bind fst snd] in *.
      destruct (check_protos ts ckx) as [[y cky]|] eqn:Ey; [|discriminate]. cbn [bind fst snd] in *.
      apply Ok_inj in Ea. injection Ea as <- <-.
      rewrite (IHt ckx y Ey). cbn [bind fst snd]. rewrite <- app_assoc. reflexivity.
Qed.

Definition guard1 (v : view) (t : mtype) : bool := late t || present v t.

Lemma guard1_there v t : t <> M_SET -> guard1 v t = true -> there v t.
Proof.
  intros Hs H. unfold guard1 in H. destruct (late t) eqn:E.
  - destruct t; try discriminate; exact Logic.I.
  - apply present_there; auto.
Qed.

Lemma guard1_eq v t : guard1 v t =
  match mt_layer (meta_of t) with
  | L_NONE => true
  | L_3 => v_l3 v =? mt_hdr (meta_of t)
  | L_4 => v_l4 v =? mt_hdr (meta_of t)
  end.
Proof. destruct t; reflexivity. Qed.

Lemma guards_flat sets v ms : guards sets v ms = forallb (guard1 v) (flat_map (types_of sets) ms).
Proof.
  unfold guards. induction ms as [|m ms IH]; cbn [forallb flat_map]; auto.
  rewrite forallb_app, IH. reflexivity.
Qed.

Section R.
  Variables (e : env) (c : chain) (v : view) (k0 : stack).
  Hypothesis Hr : rdy e c v k0.

  Lemma yields_check t a s : inv v k0 s -> mt_layer (meta_of t) <> L_NONE ->
    check_protocol (meta_of t) = Ok a -> yields e v k0 a s (guard1 v t) (wd s).
  Proof.
    intros Hi HL H. rewrite guard1_eq.
    assert (B : mt_hdr (meta_of t) < 65536) by (destruct t; cbn; reflexivity).
    assert (B4 : mt_layer (meta_of t) = L_4 -> mt_hdr (meta_of t) < 256) by (destruct t; cbn; intros; try discriminate; reflexivity).
    unfold check_protocol in H. destruct (mt_layer (meta_of t)) eqn:El; [congruence| |];
      apply Ok_inj in H; subst a.
    - eapply yields_eq; [eapply yields_J; [exact Hi|]; eapply do_jmp_num64; [exact (i_r7 _ _ _ Hi)|reflexivity]|].
      cbn [jtest]. rewrite negb_involutive, imm64_i32.
      + apply swap16_eqb; auto. apply (rdy_l3 _ _ _ _ Hr).
      + eapply N.lt_trans; [apply swap16_lt|reflexivity].
    - eapply yields_eq; [eapply yields_J; [exact Hi|]; eapply do_jmp_num64; [exact (i_r8 _ _ _ Hi)|reflexivity]|].
      cbn [jtest]. rewrite negb_involutive. specialize (B4 eq_refl). rewrite N.mod_small by exact B4.
      rewrite imm64_i32; [reflexivity|]. eapply N.lt_trans; [exact B4|reflexivity].
  Qed.

  (** [seen]: types whose guard has been passed already. *)
  Lemma yields_check_protos all : 
    (forall t t', In t all -> In t' all -> mt_layer (meta_of t) = mt_layer (meta_of t') ->
       mt_layer (meta_of t) <> L_NONE -> mt_hdr (meta_of t) = mt_hdr (meta_of t')) ->
    forall ts ck g ck' s, (forall t, In t ts -> In t all) ->
    (forall l, checked_get ck l = true -> exists t, In t all /\ mt_layer (meta_of t) = l /\ guard1 v t = true) ->
    check_protos ts ck = Ok (g, ck') -> inv v k0 s ->
    yields e v k0 g s (forallb (guard1 v) ts) (wd s).
  Proof.
    intros Hc. induction ts as [|t ts IH]; intros ck g ck' s Hin Hck H Hi; cbn [check_protos forallb] in *.
    - apply Ok_inj in H. injection H as <- <-. apply yields_nil; auto.
    - destruct (check_proto t ck) as [[a ck1]|] eqn:Ea; [|discriminate]. cbn [bind fst snd] in H.
      destruct (check_protos ts ck1) as [[b ck2]|] eqn:Eb; [|discriminate]. cbn [bind fst snd] in H.
      apply Ok_inj in H. injection H as <- <-.
      assert (It : In t all) by (apply Hin; left; auto).
      assert (Hin' : forall t0, In t0 ts -> In t0 all) by (intros; apply Hin; right; auto).
      unfold check_proto in Ea. destruct (checked_get ck (mt_layer (meta_of t))) eqn:Eg.
      { apply Ok_inj in Ea. injection Ea as <- <-. cbn [app].
        destruct (Hck _ Eg) as (t0 & I0 & L0 & G0).
        assert (HL : mt_layer (meta_of t) <> L_NONE) by (intros E; rewrite E in Eg; discriminate).
        assert (Gt : guard1 v t = true).
        { rewrite guard1_eq in G0 |- *. rewrite L0 in G0.
          rewrite <- (Hc t0 t I0 It L0 ltac:(congruence)). exact G0. }
        rewrite Gt. cbn [andb]. eapply IH; eauto. }
      destruct (mt_layer (meta_of t)) eqn:El.
      { apply Ok_inj in Ea. injection Ea as <- <-. cbn [app].
        assert (Gt : guard1 v t = true) by (rewrite guard1_eq, El; reflexivity).
        rewrite Gt. cbn [andb]. eapply IH; eauto. }
      all: destruct (check_protocol (meta_of t)) as [a0|] eqn:Ep; [|discriminate]; cbn [bind] in Ea;
        apply Ok_inj in Ea; injection Ea as <- <-.
      all: assert (Y := yields_check t a0 s Hi ltac:(congruence) Ep).
      all: assert (YY := yields_seq e v k0 a0 b s _ _ (forallb (guard1 v) ts) (wd s) Y).
      all: assert (Z : yields e v k0 (a0 ++ b) s (if guard1 v t then forallb (guard1 v) ts else false)
                (if guard1 v t then wd s else wd s));
        [apply YY; intros s1 I1 W1 Gt; rewrite <- W1; refine (IH _ b ck2 s1 Hin' _ Eb I1);
         intros l Hl; destruct l; cbn in Hl; try discriminate;
         solve [ exists t; auto
               | apply Hck; cbn; exact Hl ]
        | destruct (guard1 v t); exact Z ].
  Qed.

  Hypothesis Wc : Forall wf_set (c_sets c).
  Hypothesis Nc : (Z.of_nat (length (c_sets c)) < 262144)%Z.

  Lemma yields_matchers : forall ms l s, inv v k0 s -> Forall wf_matcher ms ->
    (forall m, In m ms -> key_fits c m) ->
    (forall m t, In m ms -> In t (types_of (c_sets c) m) -> there v t) ->
    (forall m, In m ms -> m_type m = M_IP6_NEXTHDR -> c_nexthdr c = true) ->
    (is_sock_addr (c_hook c) = true -> forall m t, In m ms -> In t (types_of (c_sets c) m) ->
       unsupported t (c_hook c) = false) ->
    gen_matchers c ms = Ok l ->
    yields e v k0 l s (fst (match_all Generated prob_threshold (e_or e) (c_sets c) v ms (wd s)))
      (snd (match_all Generated prob_threshold (e_or e) (c_sets c) v ms (wd s))).
  Proof.
    induction ms as [|m ms IH]; intros l s Hi Wm Hq Ht Hn Hu H; cbn [gen_matchers match_all] in *.
    - apply Ok_inj in H; subst l. apply yields_nil; auto.
    - destruct (gen_matcher c m) as [a|] eqn:Ea; [|discriminate]. cbn [bind] in H.
      destruct (gen_matchers c ms) as [b|] eqn:Eb; [|discriminate]. cbn [bind] in H.
      apply Ok_inj in H; subst l. inversion Wm as [|? ? W1 W2]; subst.
      pose proof (yields_matcher e c v k0 Hr Wc Nc s m a Hi W1 (Hq m (or_introl eq_refl))
        (fun t => Ht m t (or_introl eq_refl)) (Hn m (or_introl eq_refl))
        (fun S t => Hu S m t (or_introl eq_refl)) Ea) as Y.
      unfold matched in Y. destruct (applies Generated v (m_type m)).
      + destruct (match1 _ _ _ _ v m (wd s)) as [b1 w1]. cbn [fst snd] in Y.
        assert (Z := yields_seq e v k0 a b s b1 w1
          (fst (match_all Generated prob_threshold (e_or e) (c_sets c) v ms w1))
          (snd (match_all Generated prob_threshold (e_or e) (c_sets c) v ms w1)) Y).
        destruct b1; cbn [fst snd]; apply Z; intros s1 I1 <- E1; [|discriminate].
        apply IH; auto; intros; [apply Hq|eapply Ht|eapply Hn|eapply Hu]; eauto; right; auto.
      + cbn [fst snd] in *.
        apply (yields_seq e v k0 a b s false (wd s) false (wd s) Y). discriminate.
  Qed.

  (** ** Effects *)
  Definition does (a : code) (s : st) (w' : world) : Prop :=
    exists s', keeps e v k0 a s s' /\ inv v k0 s' /\ wd s' = w'.

  Lemma does_nil s : inv v k0 s -> does [] s (wd s).
  Proof. intros. exists s. split; [intros l; reflexivity|auto]. Qed.

  Lemma does_app a b s w1 w2 : does a s w1 ->
    (forall s1, inv v k0 s1 -> wd s1 = w1 -> does b s1 w2) -> does (a ++ b) s w2.
  Proof.
    intros (s1 & K1 & I1 & W1) H. destruct (H s1 I1 W1) as (s2 & K2 & I2 & W2).
    exists s2. split; auto. eapply keeps_app; eauto.
  Qed.

  Lemma does_mark r a s : inv v k0 s -> gen_set_mark (hook_flavor (c_hook c)) (mark_get r) = Ok a ->
    does a s (w_set_mark (wd s) (mark_get r)).
  Proof.
    intros Hi H. unfold gen_set_mark in H.
    assert (F : is_skb_flavor (hook_flavor (c_hook c)) = true) by (destruct (hook_flavor (c_hook c)); try discriminate; reflexivity).
    assert (Ha : a = [I (Ldx SDW R1 R10 (ctx_off o_arg)); MOV64I R2 (i32 (mark_get r)); I (StxK R1 R2 SkMark)])
      by (destruct (hook_flavor (c_hook c)); try discriminate; apply Ok_inj in H; congruence).
    subst a. clear H. destruct Hr as [Hp|Hp]; [|rewrite (sd_chain _ _ _ _ Hp) in F; discriminate].
    eexists. split; [|split].
    - intros l. cbn [app]. rewrite (keeps_ctx e v k0 s R1 o_arg _ Hi ltac:(offs) ltac:(offs) (rd_arg _ _ _ _ Hp)).
      rewrite fr_mov64i. cbn [frun exec]. rewrite (rd_flavor _ _ _ _ Hp).
      rewrite rg_same. rewrite rg_other by reflexivity. rewrite rg_same.
      instantiate (1 := setw (setr (setr s R1 (VK KCtx)) R2 (VN (imm64 (i32 (mark_get r)))))
        (w_set_mark (wd s) (imm64 (i32 (mark_get r)) mod two32))).
      destruct (hook_flavor (c_hook c)); try discriminate; reflexivity.
    - invs.
    - cbn [wd setw]. rewrite imm64_mod32. unfold mark_get. rewrite N.mod_mod by discriminate. reflexivity.
  Qed.

  Lemma ctx_stk o z : (ctx_off o + z = ctx_off (o + z))%Z.
  Proof. unfold ctx_off. lia. Qed.

  Lemma slot_load s a n x : inv v k0 s -> (a + Z.of_nat n <= -64)%Z -> stk_load k0 a n = x -> stk_load (stk s) a n = x.
  Proof.
    intros Hi Ha <-. apply stk_load_ext. intros z Hz. apply (i_stk _ _ _ Hi). lia.
  Qed.

  Lemma shiftl16 x : x < 65536 -> N.shiftl x 16 mod two64 = x * 65536.
  Proof.
    intros H. rewrite N.shiftl_mul_pow2. change (2 ^ 16) with 65536. apply N.mod_small. unfold two64. lia.
  Qed.

  Lemma protos_l3 x y : x < 65536 -> y < 256 -> (N.lor (x * 65536) y) mod two32 / two16 = x.
  Proof.
    intros Hx Hy. assert (E : N.lor (x * 65536) y = x * 65536 + y).
    { change 65536 with (2 ^ 16). apply lor_add_disjoint.
      eapply N.lt_trans; [exact Hy|reflexivity]. }
    rewrite E, N.mod_small by (unfold two32; lia). unfold two16.
    rewrite N.div_add_l by discriminate. rewrite N.div_small by lia. lia.
  Qed.

  Lemma protos_l4 x y : x < 65536 -> y < 256 -> (N.lor (x * 65536) y) mod 256 = y.
  Proof.
    intros Hx Hy. assert (E : N.lor (x * 65536) y = x * 65536 + y).
    { change 65536 with (2 ^ 16). apply lor_add_disjoint.
      eapply N.lt_trans; [exact Hy|reflexivity]. }
    rewrite E. replace (x * 65536 + y) with (y + (x * 256) * 256) by lia.
    rewrite N.mod_add by discriminate. apply N.mod_small; auto.
  Qed.
End R.
