(** The pointer structure of a bf_list represents a sequence. *)
From Coq Require Import NArith List Bool Arith Lia.
From Verif Require Import Bytes GenModel ListSpec ListModel.
Import ListNotations.
Local Open Scope res_scope.

Section Facts.
Context {A : Type}.
Implicit Types (h : cells A) (l : list (nat * A)) (p n : option nat).

Definition first l n : option nat := match l with [] => n | e :: _ => Some (fst e) end.
Fixpoint final l p : option nat := match l with [] => p | e :: r => final r (Some (fst e)) end.
Fixpoint seg h p l n : Prop :=
  match l with
  | [] => True
  | e :: r => h (fst e) = Some (mkNode (snd e) p (first r n)) /\ seg h (Some (fst e)) r n
  end.

Record rep (s : lst A) (l : list (nat * A)) : Prop := mkRep
  { rep_seg : seg (l_mem s) None l None
  ; rep_nodup : NoDup (handles l)
  ; rep_head : l_head s = first l None
  ; rep_tail : l_tail s = final l None
  ; rep_len : l_len s = N.of_nat (length l)
  ; rep_tight : forall a, l_mem s a <> None -> In a (handles l) }.

Lemma upd_same h a v : upd h a v a = v.
Proof. unfold upd. now rewrite Nat.eqb_refl. Qed.
Lemma upd_other h a b v : b <> a -> upd h a v b = h b.
Proof. intros H. unfold upd. destruct (Nat.eqb_spec b a); congruence. Qed.

Lemma first_app l1 l2 n : first (l1 ++ l2) n = first l1 (first l2 n).
Proof. now destruct l1. Qed.
Lemma final_app l1 l2 p : final (l1 ++ l2) p = final l2 (final l1 p).
Proof. revert p. induction l1 as [|e r IH]; intros p; cbn; auto. Qed.
Lemma final_some l x : final l (Some x) <> None.
Proof. revert x. induction l as [|e r IH]; intros x; [discriminate|cbn; apply IH]. Qed.
Lemma seg_app h l1 : forall p l2 n,
  seg h p (l1 ++ l2) n <-> seg h p l1 (first l2 n) /\ seg h (final l1 p) l2 n.
Proof.
  induction l1 as [|e r IH]; intros p l2 n; cbn; [tauto|].
  rewrite IH, first_app. tauto.
Qed.
Lemma handles_app l1 l2 : handles (l1 ++ l2) = handles l1 ++ handles l2.
Proof. apply map_app. Qed.

Lemma seg_frame h l : forall p n a v,
  ~ In a (handles l) -> seg (upd h a v) p l n <-> seg h p l n.
Proof.
  induction l as [|e r IH]; intros p n a v Ha; cbn; [tauto|].
  cbn in Ha. rewrite IH by tauto. rewrite upd_other; [tauto|].
  intros E. apply Ha. now left.
Qed.

Lemma seg_in h l : forall p n a d, seg h p l n -> In (a, d) l ->
  exists q r, h a = Some (mkNode d q r).
Proof.
  induction l as [|e r IH]; intros p n a d Hs Hi; [destruct Hi|].
  destruct Hs as [H1 H2]. destruct Hi as [->|Hi]; [cbn in H1; eauto|eauto].
Qed.

Lemma ld_some h a x : h a = Some x -> ld h a = Ok x.
Proof. unfold ld. now intros ->. Qed.

Lemma nodup_mid l1 e l2 : NoDup (handles (l1 ++ e :: l2)) ->
  ~ In (fst e) (handles l1) /\ ~ In (fst e) (handles l2) /\ NoDup (handles (l1 ++ l2)).
Proof.
  rewrite !handles_app. cbn. intros H. apply NoDup_remove in H as [H1 H2].
  rewrite in_app_iff in H2. tauto.
Qed.

Lemma snoc_cases l : l = [] \/ exists l' e, l = l' ++ [e].
Proof.
  destruct l as [|e r] using rev_ind; [now left|right; eauto].
Qed.

(** *** Traversals *)

(** A body that leaves the part of the list not yet visited alone. *)
Lemma each_rel {S} (mem : S -> cells A) body (Inv : list (nat*A) -> S -> Prop) :
  (forall e r s p, seg (mem s) p (e :: r) None -> Inv (e :: r) s -> NoDup (handles (e::r)) ->
     exists s', body (fst e) s = Ok s' /\ Inv r s' /\
       exists q, seg (mem s') q r None) ->
  forall l fuel s p, (length l < fuel)%nat -> seg (mem s) p l None -> NoDup (handles l) ->
    Inv l s ->
    exists s', each nd_next mem body fuel (first l None)
        (match l with [] => None | _ :: r => first r None end) s = Ok s' /\ Inv [] s'.
Proof.
  intros Hb. induction l as [|e r IH]; intros fuel s p Hf Hs Hn Hi;
    (destruct fuel as [|k]; [cbn in Hf; lia|]).
  - cbn. eauto.
  - destruct (Hb e r s p Hs Hi Hn) as (s' & E & Hi' & q & Hs').
    cbn [first each]. rewrite E. cbn [bind].
    assert (Hn' : NoDup (handles r)) by (now inversion Hn).
    destruct (IH k s' q ltac:(cbn in Hf; lia) Hs' Hn' Hi') as (s2 & E2 & Hi2).
    exists s2. split; [|assumption].
    destruct r as [|e' r']; cbn [first follow bind] in *; [assumption|].
    destruct Hs' as [H1 _]. rewrite (ld_some _ _ _ H1). cbn [bind nd_next]. assumption.
Qed.

Lemma foreach_rel {S} (mem : S -> cells A) body (Inv : list (nat*A) -> S -> Prop) :
  (forall e r s p, seg (mem s) p (e :: r) None -> Inv (e :: r) s -> NoDup (handles (e::r)) ->
     exists s', body (fst e) s = Ok s' /\ Inv r s' /\
       exists q, seg (mem s') q r None) ->
  forall l fuel s p, (length l < fuel)%nat -> seg (mem s) p l None -> NoDup (handles l) ->
    Inv l s ->
    exists s', foreach nd_next mem body fuel (first l None) s = Ok s' /\ Inv [] s'.
Proof.
  intros Hb l fuel s p Hf Hs Hn Hi.
  destruct (each_rel mem body Inv Hb l fuel s p Hf Hs Hn Hi) as (s' & E & H).
  exists s'. split; [|assumption]. unfold foreach.
  destruct l as [|e r]; cbn [first follow bind] in *; [assumption|].
  destruct Hs as [H1 _]. rewrite (ld_some _ _ _ H1). cbn [bind nd_next]. assumption.
Qed.

Lemma rounds_gt s l : rep s l -> (length l < rounds s)%nat.
Proof. intros R. unfold rounds. rewrite (rep_len s l R), Nat2N.id. lia. Qed.

Lemma list_read_ok s l : rep s l -> list_read s = Ok l.
Proof.
  intros R. unfold list_read. rewrite (rep_head s l R).
  destruct (foreach_rel (fun x : lst A * list (nat*A) => l_mem (fst x)) visit
    (fun todo x => fst x = s /\ snd x ++ todo = l)) with (l := l) (fuel := rounds s) (s := (s, @nil (nat*A))) (p := @None nat)
    as (s' & E & E1 & E2).
  - intros e r [s0 acc] p Hs [E1 E2] _. cbn in *. subst s0.
    unfold visit. cbn [fst snd]. destruct Hs as [H1 H2].
    rewrite (ld_some _ _ _ H1). cbn [bind nd_data].
    eexists. split; [reflexivity|]. cbn. split; [split; [reflexivity|]|eauto].
    destruct e. cbn. rewrite <- app_assoc. exact E2.
  - now apply rounds_gt.
  - exact (rep_seg s l R).
  - exact (rep_nodup s l R).
  - cbn. auto.
  - rewrite E. cbn. f_equal. rewrite app_nil_r in E2. exact E2.
Qed.

(** Backwards. *)
Lemma each_rev_read s : forall l fuel acc n, (length l < fuel)%nat ->
  seg (l_mem s) None l n ->
  each nd_prev (fun x : lst A * list (nat*A) => l_mem (fst x)) visit fuel (final l None)
    (match rev l with [] => None | _ :: r => final (rev r) None end) (s, acc)
  = Ok (s, acc ++ rev l).
Proof.
  intros l. induction l as [|e l' IH] using rev_ind; intros fuel acc n Hf Hs;
    (destruct fuel as [|k]; [try rewrite app_length in Hf; cbn in Hf; lia|]).
  - cbn. now rewrite app_nil_r.
  - rewrite app_length in Hf. cbn in Hf.
    apply seg_app in Hs as [Hs1 [Hs2 _]]. cbn in Hs1, Hs2.
    rewrite final_app, rev_app_distr. cbn [final rev app each].
    unfold visit at 1. cbn [fst snd]. rewrite (ld_some _ _ _ Hs2). cbn [bind nd_data].
    rewrite rev_involutive.
    assert (F : follow nd_prev (l_mem s) (final l' None)
      = Ok (match rev l' with [] => None | _ :: r => final (rev r) None end)).
    { destruct (snoc_cases l') as [->|(l2 & e2 & ->)]; [reflexivity|].
      apply seg_app in Hs1 as [_ [H3 _]].
      rewrite final_app, rev_app_distr. cbn. rewrite (ld_some _ _ _ H3). cbn.
      now rewrite rev_involutive. }
    cbn [fst]. rewrite F. cbn [bind].
    rewrite (IH k _ _ ltac:(lia) Hs1). destruct e. now rewrite <- app_assoc.
Qed.

Lemma list_read_rev_ok s l : rep s l -> list_read_rev s = Ok (rev l).
Proof.
  intros R. unfold list_read_rev. rewrite (rep_tail s l R). unfold foreach. cbn [fst].
  assert (F : follow nd_prev (l_mem s) (final l None)
      = Ok (match rev l with [] => None | _ :: r => final (rev r) None end)).
  { pose proof (rep_seg s l R) as Hs.
    destruct (snoc_cases l) as [->|(l2 & e2 & ->)]; [reflexivity|].
    apply seg_app in Hs as [_ [H3 _]].
    rewrite final_app, rev_app_distr. cbn. rewrite (ld_some _ _ _ H3). cbn.
    now rewrite rev_involutive. }
  rewrite F. cbn [bind].
  rewrite (each_rev_read s l (rounds s) [] None (rounds_gt s l R) (rep_seg s l R)).
  reflexivity.
Qed.

Lemma list_get_at_ok s l i : rep s l ->
  list_get_at s i = Ok (option_map snd (nth_error l (N.to_nat i))).
Proof.
  intros R. unfold list_get_at. rewrite (rep_head s l R).
  set (goal := option_map snd (nth_error l (N.to_nat i))).
  destruct (foreach_rel (fst : cells A * (N * option A) -> cells A) get_body
    (fun todo x => fst x = l_mem s /\
       match snd (snd x) with
       | Some d => goal = Some d
       | None => goal = option_map snd (nth_error todo (N.to_nat (fst (snd x))))
       end))
    with (l := l) (fuel := rounds s) (s := (l_mem s, (i, @None A))) (p := @None nat)
    as (s' & E & E1 & E2).
  - intros e r [h0 [j o]] p Hs [E1 E2] _. cbn [fst snd] in *. subst h0.
    destruct Hs as [H1 H2]. unfold get_body. cbn [fst snd].
    destruct o as [d|].
    + eexists. split; [reflexivity|]. cbn. split; [auto|eauto].
    + rewrite (ld_some _ _ _ H1). cbn [bind].
      destruct (N.eqb_spec j 0) as [->|Hj].
      * eexists. split; [reflexivity|]. cbn. split; [split; [reflexivity|exact E2]|eauto].
      * eexists. split; [reflexivity|]. cbn [fst snd]. split; [split; [reflexivity|]|eauto].
        rewrite E2. replace (N.to_nat j) with (Datatypes.S (N.to_nat (j - 1))) by lia.
        reflexivity.
  - now apply rounds_gt.
  - exact (rep_seg s l R).
  - exact (rep_nodup s l R).
  - cbn [fst snd]. auto.
  - rewrite E. cbn [bind]. destruct s' as [h' [j [d|]]]; cbn [fst snd] in *.
    + now rewrite E2.
    + rewrite E2. now destruct (N.to_nat j).
Qed.

Lemma list_clean_ok s l : rep s l -> exists s',
  list_clean s = Ok (s', map snd l) /\ rep s' [].
Proof.
  intros R. unfold list_clean. rewrite (rep_head s l R).
  destruct (foreach_rel (fst : cells A * list A -> cells A) clean_body
    (fun todo x => snd x ++ map snd todo = map snd l /\
       forall a, fst x a <> None -> In a (handles todo)))
    with (l := l) (fuel := rounds s) (s := (l_mem s, @nil A)) (p := @None nat)
    as (s' & E & E1 & E2).
  - intros e r [h0 acc] p Hs [E1 E2] Hn. cbn [fst snd] in *.
    destruct Hs as [H1 H2]. unfold clean_body, release. cbn [fst snd].
    rewrite (ld_some _ _ _ H1). cbn [bind nd_data].
    eexists. split; [reflexivity|]. cbn [fst snd]. inversion Hn as [|? ? Hx Hr]; subst.
    split; [split|].
    + rewrite <- E1. cbn. now rewrite <- app_assoc.
    + intros a Ha. unfold upd in Ha. destruct (Nat.eqb_spec a (fst e)); [congruence|].
      destruct (E2 a Ha) as [E3|]; [congruence|assumption].
    + exists (Some (fst e)). apply seg_frame; assumption.
  - now apply rounds_gt.
  - exact (rep_seg s l R).
  - exact (rep_nodup s l R).
  - cbn. split; [reflexivity|]. exact (rep_tight s l R).
  - rewrite E. cbn [bind]. cbn in E1. rewrite app_nil_r in E1. rewrite E1.
    eexists. split; [reflexivity|]. constructor; cbn; auto. constructor.
Qed.

(** *** Insertion *)

Lemma usable_malloc s l pick : rep s l -> malloc (l_mem s) pick = usable l pick.
Proof.
  intros R. destruct pick as [q|]; [|reflexivity]. cbn.
  destruct (in_dec Nat.eq_dec q (handles l)) as [Hi|Hi].
  - unfold handles in Hi. apply in_map_iff in Hi as ([a d] & E & Hi). cbn in E. subst a.
    destruct (seg_in _ _ _ _ _ _ (rep_seg s l R) Hi) as (x & y & E). now rewrite E.
  - destruct (l_mem s q) as [x|] eqn:E; [|reflexivity].
    exfalso. apply Hi. apply (rep_tight s l R). congruence.
Qed.
Lemma usable_some l pick q : usable l pick = Some q -> ~ In q (handles l).
Proof.
  destruct pick as [x|]; cbn; [|discriminate].
  destruct (in_dec Nat.eq_dec x (handles l)) as [|H]; [discriminate|].
  intros E. inversion E. now subst.
Qed.

Lemma seg_set_next h l : forall p q dq n n', NoDup (handles (l ++ [(q, dq)])) ->
  seg h p (l ++ [(q, dq)]) n ->
  seg (upd h q (Some (mkNode dq (final l p) n'))) p (l ++ [(q, dq)]) n'.
Proof.
  intros p q dq n n' Hn Hs. apply seg_app in Hs as [H1 [H2 _]].
  apply seg_app. cbn [first] in *. destruct (nodup_mid l (q,dq) [] Hn) as (Ha & _ & _).
  cbn [fst] in *. split.
  - apply seg_frame; assumption.
  - cbn. rewrite upd_same. auto.
Qed.

Lemma seg_set_prev h l p q dq n p' : NoDup (handles ((q, dq) :: l)) ->
  seg h p ((q, dq) :: l) n ->
  seg (upd h q (Some (mkNode dq p' (first l n)))) p' ((q, dq) :: l) n.
Proof.
  intros Hn Hs. inversion Hn as [|? ? Hx Hr]; subst. cbn [fst] in Hx.
  destruct Hs as [_ H2]. cbn [fst] in H2.
  cbn. rewrite upd_same. split; [reflexivity|]. apply seg_frame; assumption.
Qed.

Lemma list_add_tail_ok s l pick d : rep s l ->
  exists s', list_add_tail s pick d =
     Ok (s', match usable l pick with Some _ => 0%N | None => ENOMEM end) /\
  rep s' (match usable l pick with Some q => l ++ [(q, d)] | None => l end).
Proof.
  intros R. unfold list_add_tail, node_new. rewrite (usable_malloc s l pick R).
  destruct (usable l pick) as [q|] eqn:U; [|eauto].
  pose proof (usable_some l pick q U) as Hq.
  unfold set_prev at 1. rewrite (ld_some _ q _ (upd_same _ _ _)). cbn [bind nd_data nd_prev nd_next].
  rewrite (rep_tail s l R), (rep_head s l R).
  pose proof (rep_seg s l R) as Hs. pose proof (rep_nodup s l R) as Hn.
  destruct (snoc_cases l) as [->|(l2 & [t dt] & ->)].
  - cbn [final first bind app]. eexists. split; [reflexivity|].
    constructor; cbn.
    + rewrite upd_same. auto.
    + constructor; [auto|constructor].
    + reflexivity.
    + reflexivity.
    + rewrite (rep_len s [] R). reflexivity.
    + intros a Ha. destruct (Nat.eq_dec a q) as [->|E]; [now left|].
      rewrite !upd_other in Ha by assumption. exfalso. exact (rep_tight s [] R a Ha).
  - rewrite final_app. cbn [final fst].
    assert (Hqt : q <> t).
    { intros ->. apply Hq. rewrite handles_app, in_app_iff. right. now left. }
    pose proof (proj1 (seg_app _ _ _ _ _) Hs) as [H1 [H2 _]]. cbn [fst snd first] in H1, H2.
    unfold set_next. rewrite (ld_some _ t (mkNode dt (final l2 None) None)).
    2:{ rewrite !upd_other by auto. exact H2. }
    cbn [bind nd_data nd_prev].
    eexists. split; [f_equal; f_equal; destruct (first (l2 ++ [(t, dt)]) None); reflexivity|].
    constructor; cbn [l_mem l_head l_tail l_len].
    + apply seg_app. split.
      * apply seg_set_next with (n := None); [assumption|].
        apply seg_frame; [assumption|]. apply seg_frame; assumption.
      * rewrite final_app. cbn. rewrite upd_other by auto. rewrite upd_same. auto.
    + rewrite handles_app. cbn.
      rewrite <- (rev_involutive (handles (l2 ++ [(t,dt)]) ++ [q])).
      apply NoDup_rev. rewrite rev_app_distr. cbn. constructor.
      * rewrite <- in_rev. assumption.
      * now apply NoDup_rev.
    + rewrite first_app. destruct l2; reflexivity.
    + now rewrite !final_app.
    + rewrite (rep_len s _ R), !app_length. cbn. lia.
    + intros a Ha. rewrite handles_app, in_app_iff. destruct (Nat.eq_dec a q) as [->|E]; [right; now left|].
      left. destruct (Nat.eq_dec a t) as [->|E2].
      * rewrite handles_app, in_app_iff. right. now left.
      * rewrite !upd_other in Ha by assumption. exact (rep_tight s _ R a Ha).
Qed.

Lemma list_add_head_ok s l pick d : rep s l ->
  exists s', list_add_head s pick d =
     Ok (s', match usable l pick with Some _ => 0%N | None => ENOMEM end) /\
  rep s' (match usable l pick with Some q => (q, d) :: l | None => l end).
Proof.
  intros R. unfold list_add_head, node_new. rewrite (usable_malloc s l pick R).
  destruct (usable l pick) as [q|] eqn:U; [|eauto].
  pose proof (usable_some l pick q U) as Hq.
  unfold set_next at 1. rewrite (ld_some _ q _ (upd_same _ _ _)). cbn [bind nd_data nd_prev nd_next].
  rewrite (rep_tail s l R), (rep_head s l R).
  pose proof (rep_seg s l R) as Hs. pose proof (rep_nodup s l R) as Hn.
  destruct l as [|[t dt] l2].
  - cbn [final first bind app]. eexists. split; [reflexivity|].
    constructor; cbn.
    + rewrite upd_same. auto.
    + constructor; [auto|constructor].
    + reflexivity.
    + reflexivity.
    + rewrite (rep_len s [] R). reflexivity.
    + intros a Ha. destruct (Nat.eq_dec a q) as [->|E]; [now left|].
      rewrite !upd_other in Ha by assumption. exfalso. exact (rep_tight s [] R a Ha).
  - cbn [first fst].
    assert (Hqt : q <> t) by (intros ->; apply Hq; now left).
    pose proof Hs as [H1 H2]. cbn [fst snd] in H1, H2.
    unfold set_prev. rewrite (ld_some _ t (mkNode dt None (first l2 None))).
    2:{ rewrite !upd_other by auto. exact H1. }
    cbn [bind nd_data nd_prev nd_next].
    eexists. split; [reflexivity|].
    constructor; cbn [l_mem l_head l_tail l_len].
    + split.
      * cbn [fst snd first]. rewrite upd_other by auto. now rewrite upd_same.
      * cbn [fst]. apply seg_set_prev with (p := None); [assumption|].
        apply seg_frame; [assumption|]. apply seg_frame; assumption.
    + cbn. constructor; assumption.
    + reflexivity.
    + cbn [final fst]. destruct (final l2 (Some t)) eqn:E; [reflexivity|now apply final_some in E].
    + rewrite (rep_len s _ R). cbn [length]. lia.
    + intros a Ha. cbn. destruct (Nat.eq_dec a q) as [->|E]; [now left|]. right.
      destruct (Nat.eq_dec a t) as [->|E2]; [now left|].
      rewrite !upd_other in Ha by assumption. exact (rep_tight s _ R a Ha).
Qed.

(** *** Removal *)

(** The pointer updates shared by bf_list_delete and the hash set's unlink. *)
Lemma unlink_seg h l1 a d l2 :
  NoDup (handles (l1 ++ (a, d) :: l2)) -> seg h None (l1 ++ (a, d) :: l2) None ->
  exists h1 h2 h3,
    (match final l1 None with Some q => set_next h q (first l2 None) | None => Ok h end) = Ok h1 /\
    (match first l2 None with Some q => set_prev h1 q (final l1 None) | None => Ok h1 end) = Ok h2 /\
    release h2 a = Ok h3 /\ seg h3 None (l1 ++ l2) None /\
    h2 a = Some (mkNode d (final l1 None) (first l2 None)) /\
    (forall b, h3 b <> None -> b <> a /\ h b <> None) /\
    (forall b x, b <> a -> h b = Some x -> exists y, h3 b = Some y /\ nd_data y = nd_data x).
Proof.
  intros Hn Hs.
  destruct (nodup_mid l1 (a,d) l2 Hn) as (Ha1 & Ha2 & Hn12). cbn [fst] in Ha1, Ha2.
  pose proof (proj1 (seg_app _ _ _ _ _) Hs) as [H1 H2]. cbn [first fst] in H1.
  destruct H2 as [Ha H2]. cbn [fst snd] in Ha, H2.
  (* first write *)
  assert (S1 : exists h1,
    (match final l1 None with Some q => set_next h q (first l2 None) | None => Ok h end) = Ok h1 /\
    seg h1 None l1 (first l2 None) /\ seg h1 (Some a) l2 None /\ h1 a = h a /\
    (forall b, h1 b <> None -> h b <> None) /\
    (forall b x, h b = Some x -> exists y, h1 b = Some y /\ nd_data y = nd_data x)).
  { destruct (snoc_cases l1) as [->|(l1' & [t dt] & ->)].
    - exists h. cbn. repeat (split; [solve [auto]|]). eauto.
    - rewrite final_app. cbn [final fst].
      assert (Ht : h t = Some (mkNode dt (final l1' None) (Some a))).
      { apply seg_app in H1 as [_ [H1 _]]. exact H1. }
      assert (Hat : a <> t).
      { intros ->. apply Ha1. rewrite handles_app, in_app_iff. right. now left. }
      unfold set_next. rewrite (ld_some _ _ _ Ht). cbn [bind nd_data nd_prev].
      eexists. split; [reflexivity|].
      assert (Hnt : NoDup (handles (l1' ++ [(t,dt)]))).
      { clear - Hn12. rewrite <- (app_nil_r l2) in Hn12. rewrite handles_app in Hn12.
        rewrite handles_app in *. clear -Hn12. 
        induction (handles l1' ++ handles [(t,dt)]) as [|x r IH]; [constructor|].
        cbn in Hn12. inversion Hn12; subst. constructor; [|auto]. intros C. apply H1.
        apply in_or_app. now left. }
      assert (Ht2 : ~ In t (handles l2)).
      { clear - Hn12. rewrite <- app_assoc in Hn12. cbn in Hn12.
        now destruct (nodup_mid _ _ _ Hn12) as (_ & ? & _). }
      split; [|split; [|split; [|split]]].
      + eapply seg_set_next; eassumption.
      + apply seg_frame; assumption.
      + now apply upd_other.
      + intros b Hb. unfold upd in Hb. destruct (Nat.eqb_spec b t); [subst; congruence|assumption].
      + intros b x Hb. unfold upd. destruct (Nat.eqb_spec b t); [|eauto].
        subst. eexists. split; [reflexivity|]. rewrite Ht in Hb. inversion Hb. reflexivity. }
  destruct S1 as (h1 & E1 & P1 & P2 & P3 & P4 & P5).
  assert (S2 : exists h2,
    (match first l2 None with Some q => set_prev h1 q (final l1 None) | None => Ok h1 end) = Ok h2 /\
    seg h2 None l1 (first l2 None) /\ seg h2 (final l1 None) l2 None /\ h2 a = h a /\
    (forall b, h2 b <> None -> h b <> None) /\
    (forall b x, h b = Some x -> exists y, h2 b = Some y /\ nd_data y = nd_data x)).
  { destruct l2 as [|[t dt] l2'].
    - exists h1. cbn. repeat (split; [solve [auto]|]). eauto.
    - cbn [first fst].
      assert (Ht : h1 t = Some (mkNode dt (Some a) (first l2' None))) by exact (proj1 P2).
      assert (Hat : a <> t) by (intros ->; apply Ha2; now left).
      unfold set_prev. rewrite (ld_some _ _ _ Ht). cbn [bind nd_data nd_next].
      eexists. split; [reflexivity|].
      assert (Hnt : NoDup (handles ((t,dt) :: l2'))).
      { clear - Hn12. rewrite handles_app in Hn12. induction (handles l1); [exact Hn12|].
        inversion Hn12; auto. }
      assert (Ht2 : ~ In t (handles l1)).
      { clear - Hn12. now destruct (nodup_mid _ _ _ Hn12) as (? & _ & _). }
      split; [|split; [|split; [|split]]].
      + apply seg_frame; assumption.
      + eapply seg_set_prev; eassumption.
      + rewrite upd_other by assumption. exact P3.
      + intros b Hb. unfold upd in Hb. destruct (Nat.eqb_spec b t); [|auto].
        subst. apply P4. congruence.
      + intros b x Hb. destruct (P5 b x Hb) as (y & Y1 & Y2).
        unfold upd. destruct (Nat.eqb_spec b t); [|eauto].
        subst. eexists. split; [reflexivity|]. rewrite Ht in Y1. inversion Y1. subst y. exact Y2. }
  destruct S2 as (h2 & E2 & Q1 & Q2 & Q3 & Q4 & Q5).
  assert (Hh2 : h2 a = Some (mkNode d (final l1 None) (first l2 None))) by congruence.
  exists h1, h2, (upd h2 a None). repeat (split; [solve [auto]|]).
  split; [unfold release; rewrite (ld_some _ _ _ Hh2); reflexivity|].
  split; [|split; [assumption|split]].
  - apply seg_app. split; apply seg_frame; auto.
  - intros b Hb. unfold upd in Hb. destruct (Nat.eqb_spec b a); [congruence|]. auto.
  - intros b x Hb Hx. unfold upd. destruct (Nat.eqb_spec b a); [congruence|]. auto.
Qed.

Lemma without_mid l1 a d l2 : NoDup (handles (l1 ++ (a, d) :: l2)) ->
  without (l1 ++ (a, d) :: l2) a = l1 ++ l2.
Proof.
  intros Hn. destruct (nodup_mid l1 (a,d) l2 Hn) as (H1 & H2 & _). cbn [fst] in *.
  unfold without. rewrite filter_app. cbn [filter fst]. rewrite Nat.eqb_refl. cbn [negb].
  assert (G : forall l, ~ In a (handles l) -> filter (fun e => negb (Nat.eqb (fst e) a)) l = l).
  { intros l. induction l as [|e r IH]; intros Hi; [reflexivity|]. cbn in *.
    destruct (Nat.eqb_spec (fst e) a); [tauto|]. cbn. now rewrite IH by tauto. }
  now rewrite !G.
Qed.
Lemma data_of_mid l1 a d l2 : NoDup (handles (l1 ++ (a, d) :: l2)) ->
  data_of (l1 ++ (a, d) :: l2) a = Some d.
Proof.
  intros Hn. destruct (nodup_mid l1 (a,d) l2 Hn) as (H1 & _ & _). cbn [fst] in H1.
  unfold data_of. clear Hn. induction l1 as [|e r IH]; cbn.
  - now rewrite Nat.eqb_refl.
  - cbn in H1. destruct (Nat.eqb_spec (fst e) a); [tauto|]. apply IH. tauto.
Qed.

Lemma final_eq l1 a d l2 : NoDup (handles (l1 ++ (a, d) :: l2)) ->
  (if ptr_eqb (final (l1 ++ (a,d) :: l2) None) a then final l1 None
   else final (l1 ++ (a,d) :: l2) None) = final (l1 ++ l2) None.
Proof.
  intros Hn. destruct (nodup_mid l1 (a,d) l2 Hn) as (_ & H2 & _). cbn [fst] in H2.
  rewrite !final_app. cbn [final fst].
  destruct (snoc_cases l2) as [->|(l2' & [t dt] & ->)].
  - cbn. now rewrite Nat.eqb_refl.
  - rewrite !final_app. cbn. destruct (Nat.eqb_spec t a); [|reflexivity].
    subst. exfalso. apply H2. rewrite handles_app, in_app_iff. right. now left.
Qed.
Lemma first_eq l1 a d l2 : NoDup (handles (l1 ++ (a, d) :: l2)) ->
  (if ptr_eqb (first (l1 ++ (a,d) :: l2) None) a then first l2 None
   else first (l1 ++ (a,d) :: l2) None) = first (l1 ++ l2) None.
Proof.
  intros Hn. destruct (nodup_mid l1 (a,d) l2 Hn) as (H2 & _ & _). cbn [fst] in H2.
  destruct l1 as [|[t dt] l1']; cbn.
  - now rewrite Nat.eqb_refl.
  - destruct (Nat.eqb_spec t a); [|reflexivity]. subst. exfalso. apply H2. now left.
Qed.

Lemma list_delete_mid s l1 a d l2 : rep s (l1 ++ (a, d) :: l2) ->
  exists s', list_delete s a = Ok (s', d) /\ rep s' (l1 ++ l2).
Proof.
  intros R. pose proof (rep_nodup _ _ R) as Hn. pose proof (rep_seg _ _ R) as Hs.
  destruct (unlink_seg _ l1 a d l2 Hn Hs) as (h1 & h2 & h3 & E1 & E2 & E3 & Hseg & _ & Ht & _).
  unfold list_delete.
  assert (Ha : l_mem s a = Some (mkNode d (final l1 None) (first l2 None))).
  { apply seg_app in Hs as [_ [Hs _]]. exact Hs. }
  rewrite (ld_some _ _ _ Ha). cbn [bind nd_data nd_prev nd_next].
  rewrite E1. cbn [bind]. rewrite E2. cbn [bind]. rewrite E3. cbn [bind].
  eexists. split; [reflexivity|]. constructor; cbn [l_mem l_head l_tail l_len].
  - exact Hseg.
  - now destruct (nodup_mid l1 (a,d) l2 Hn) as (_ & _ & ?).
  - rewrite (rep_head _ _ R). now apply first_eq with (d := d).
  - rewrite (rep_tail _ _ R). now apply final_eq with (d := d).
  - rewrite (rep_len _ _ R), !app_length. cbn [length]. lia.
  - intros b Hb. destruct (Ht b Hb) as [Hba Hh].
    pose proof (rep_tight _ _ R b Hh) as Hi. rewrite handles_app, in_app_iff in *.
    cbn in Hi. destruct Hi as [|[|]]; [tauto|congruence|tauto].
Qed.

Lemma in_handles_split l a : In a (handles l) -> exists l1 d l2, l = l1 ++ (a, d) :: l2.
Proof.
  intros H. apply in_map_iff in H as ([x d] & E & H). cbn in E. subst x.
  apply in_split in H as (l1 & l2 & ->). eauto.
Qed.

Lemma list_delete_ok s l a : rep s l -> In a (handles l) ->
  exists s' d, list_delete s a = Ok (s', d) /\ data_of l a = Some d /\ rep s' (without l a).
Proof.
  intros R Hi. destruct (in_handles_split l a Hi) as (l1 & d & l2 & ->).
  destruct (list_delete_mid _ _ _ _ _ R) as (s' & E & R').
  pose proof (rep_nodup _ _ R) as Hn.
  exists s', d. rewrite without_mid, data_of_mid by assumption. auto.
Qed.

Lemma list_take_data_ok nul s l a : rep s l -> In a (handles l) ->
  exists s' d, list_take_data nul s a = Ok (s', d) /\ data_of l a = Some d /\
    rep s' (map (fun e => if Nat.eqb (fst e) a then (a, nul) else e) l).
Proof.
  intros R Hi. destruct (in_handles_split l a Hi) as (l1 & d & l2 & ->).
  pose proof (rep_nodup _ _ R) as Hn. pose proof (rep_seg _ _ R) as Hs.
  destruct (nodup_mid l1 (a,d) l2 Hn) as (H1 & H2 & _). cbn [fst] in *.
  assert (Ha : l_mem s a = Some (mkNode d (final l1 None) (first l2 None))).
  { apply seg_app in Hs as [_ [Hs _]]. exact Hs. }
  unfold list_take_data, set_data. rewrite (ld_some _ _ _ Ha). cbn [bind nd_data nd_prev nd_next].
  exists (mkL (upd (l_mem s) a (Some (mkNode nul (final l1 None) (first l2 None))))
    (l_len s) (l_head s) (l_tail s)), d.
  split; [reflexivity|]. split; [now apply data_of_mid|].
  assert (G : forall l, ~ In a (handles l) ->
    map (fun e : nat * A => if Nat.eqb (fst e) a then (a, nul) else e) l = l).
  { intros l. induction l as [|e r IH]; intros Hx; [reflexivity|]. cbn in *.
    destruct (Nat.eqb_spec (fst e) a); [tauto|]. now rewrite IH by tauto. }
  rewrite map_app. cbn [map fst]. rewrite Nat.eqb_refl, !G by assumption.
  constructor; cbn [l_mem l_head l_tail l_len].
  - apply seg_app in Hs as [Hs1 [_ Hs2]]. apply seg_app. split; [apply seg_frame; assumption|].
    cbn. rewrite upd_same. split; [reflexivity|]. apply seg_frame; assumption.
  - rewrite handles_app in *. exact Hn.
  - rewrite (rep_head _ _ R). now destruct l1.
  - rewrite (rep_tail _ _ R). now rewrite !final_app.
  - rewrite (rep_len _ _ R), !app_length. reflexivity.
  - intros b Hb. rewrite handles_app. cbn. unfold upd in Hb.
    destruct (Nat.eqb_spec b a).
    + subst. rewrite in_app_iff. right. now left.
    + pose proof (rep_tight _ _ R b Hb) as Hi2. now rewrite handles_app in Hi2.
Qed.

(** Deleting while traversing. *)
Lemma list_drop_ok f s l : rep s l -> exists s',
  list_drop f s = Ok (s', filter f (map snd l)) /\
  rep s' (filter (fun e => negb (f (snd e))) l).
Proof.
  intros R. unfold list_drop. rewrite (rep_head s l R).
  destruct (foreach_rel (fun x : lst A * list A => l_mem (fst x)) (drop_body f)
    (fun todo x => exists before done, l = before ++ todo /\
       done = filter (fun e => negb (f (snd e))) before /\
       rep (fst x) (done ++ todo) /\ snd x = filter f (map snd before)))
    with (l := l) (fuel := rounds s) (s := (s, @nil A)) (p := @None nat)
    as (s' & E & before & done & E1 & E2 & E3 & E4).
  - intros [a d] r [s0 acc] p Hs (before & done & E1 & E2 & R0 & E4) Hn.
    cbn [fst snd] in *. unfold drop_body. cbn [fst snd].
    destruct Hs as [Hs0 Hs2]. cbn [fst snd] in Hs0, Hs2. rewrite (ld_some _ _ _ Hs0). cbn [bind nd_data snd fst].
    destruct (f d) eqn:Fd.
    + destruct (list_delete_mid _ _ _ _ _ R0) as (s1 & Ed & R1). rewrite Ed. cbn [bind fst snd].
      eexists. split; [reflexivity|]. cbn [fst snd]. split.
      * exists (before ++ [(a,d)]), done. rewrite <- app_assoc. split; [exact E1|].
        rewrite filter_app, map_app, filter_app. cbn. rewrite Fd. cbn.
        rewrite app_nil_r, E4. auto.
      * exists (final done None). pose proof (rep_seg _ _ R1) as H. now apply seg_app in H as [_ H].
    + eexists. split; [reflexivity|]. cbn [fst snd]. split.
      * exists (before ++ [(a,d)]), (done ++ [(a,d)]). rewrite <- !app_assoc. split; [exact E1|].
        rewrite filter_app, map_app, filter_app. cbn. rewrite Fd. cbn.
        rewrite app_nil_r, E2, <- E2. auto.
      * exists (Some a). exact Hs2.
  - now apply rounds_gt.
  - exact (rep_seg s l R).
  - exact (rep_nodup s l R).
  - exists [], []. cbn. auto.
  - rewrite app_nil_r in *. subst before. destruct s' as [s1 acc]. cbn [fst snd] in *.
    exists s1. rewrite E, E4. split; [reflexivity|]. now rewrite <- E2.
Qed.

Lemma rep_init h : (forall a, h a = None) -> rep (list_init h) [].
Proof.
  intros H. constructor; cbn; auto. constructor.
Qed.

Lemma list_call_ok nul s l o : rep s l -> lvalid l o ->
  exists s', list_call nul s o = Ok (s', snd (lspec nul l o)) /\ rep s' (fst (lspec nul l o)).
Proof.
  intros R V. destruct o; cbn [list_call lspec lvalid] in *.
  - destruct (list_add_head_ok s l pick d R) as (s' & E & R'). rewrite E. cbn [bind fst snd].
    exists s'. destruct (usable l pick); auto.
  - destruct (list_add_tail_ok s l pick d R) as (s' & E & R'). rewrite E. cbn [bind fst snd].
    exists s'. destruct (usable l pick); auto.
  - unfold list_push. destruct (list_add_tail_ok s l pick d R) as (s' & E & R'). rewrite E. cbn [bind fst snd].
    exists s'. destruct (usable l pick); auto.
  - destruct (list_delete_ok s l handle R V) as (s' & d & E & D & R'). rewrite E. cbn [bind fst snd].
    rewrite D. eauto.
  - destruct (list_take_data_ok nul s l handle R V) as (s' & d & E & D & R'). rewrite E. cbn [bind fst snd].
    rewrite D. eauto.
  - rewrite (list_get_at_ok s l i R). cbn. eauto.
  - rewrite (rep_len s l R). cbn. eauto.
  - rewrite (list_read_ok s l R). cbn. eauto.
  - rewrite (list_read_rev_ok s l R). cbn. eauto.
  - destruct (list_drop_ok f s l R) as (s' & E & R'). rewrite E. cbn. eauto.
  - destruct (list_clean_ok s l R) as (s' & E & R'). rewrite E. cbn. eauto.
Qed.

Lemma list_calls_ok nul : forall os s l, rep s l -> lvalids nul l os ->
  exists s', list_calls nul s os = Ok (s', snd (lspecs nul l os)) /\ rep s' (fst (lspecs nul l os)).
Proof.
  induction os as [|o r IH]; intros s l R V; cbn [list_calls lspecs lvalids] in *.
  - eauto.
  - destruct V as [V1 V2]. destruct (list_call_ok nul s l o R V1) as (s1 & E1 & R1).
    rewrite E1. cbn [bind fst snd]. destruct (IH s1 _ R1 V2) as (s2 & E2 & R2).
    rewrite E2. cbn [bind fst snd]. eauto.
Qed.
End Facts.
