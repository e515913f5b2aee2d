(** The emissions, the stubs, and the whole. *)
From Coq Require Import ZArith NArith List Lia Bool.
From Verif Require Import Bytes GenModel BytesFacts NewFacts AsmModel AsmSpec AsmFacts AsmFacts2.
Import ListNotations.
Open Scope res_scope.

Lemma fixups_len : forall sel E loc l img img' l', fixups sel E loc img l = Ok (img', l') -> length img' = length img.
Proof.
  induction l as [|f l IH]; intros img img' l' H; cbn [fixups] in H; [inversion H; reflexivity|].
  destruct (sel (fx_kind f)).
  - destruct (nth_error img (fx_at f)); [|discriminate].
    destruct (patched _ _ _ _ _ _); [|discriminate]. cbn [bind] in H. apply IH in H. rewrite wset_length in H. exact H.
  - destruct (fixups sel E loc img l) as [[x y]|] eqn:F; [|discriminate]. cbn [bind fst snd] in H.
    inversion H; subst. eapply IH. exact F.
Qed.
Lemma fix_all_len : forall sel E a a', fix_all sel E a = Ok a' ->
  length (a_img a') = length (a_img a) /\ a_loc a' = a_loc a /\ a_msgs a' = a_msgs a.
Proof.
  intros sel E a a' H. unfold fix_all in H. destruct (fixups _ _ _ _ _) as [[x y]|] eqn:F; [|discriminate].
  cbn [bind fst snd] in H. inversion H; subst. cbn. split; [eapply fixups_len; exact F|auto].
Qed.

Lemma step_len : forall E a s a', do_step E a s = Ok a' ->
  length (a_img a) <= length (a_img a') /\ a_loc a' = a_loc a.
Proof.
  intros E a s a' H. destruct s; cbn [do_step] in H.
  - inversion H; subst. cbn. rewrite app_length. split; [lia|reflexivity].
  - inversion H; subst. cbn. rewrite app_length. split; [lia|reflexivity].
  - inversion H; subst. cbn. rewrite app_length. split; [lia|reflexivity].
  - inversion H; subst. cbn. rewrite app_length. split; [lia|reflexivity].
  - destruct (add_msg (a_msgs a) m) as (l, x). inversion H; subst. cbn. rewrite !app_length. split; [lia|reflexivity].
  - apply fix_all_len in H. destruct H as (A & B & _). split; [lia|exact B].
Qed.
Lemma steps_len : forall E l a a', do_steps E a l = Ok a' ->
  length (a_img a) <= length (a_img a') /\ a_loc a' = a_loc a.
Proof.
  induction l as [|s l IH]; intros a a' H; cbn [do_steps] in H; [inversion H; subst; auto|].
  destruct (do_step E a s) as [a1|] eqn:S1; [|discriminate]. cbn [bind] in H.
  apply step_len in S1. apply IH in H. destruct S1, H. split; [lia|congruence].
Qed.

Definition fin (gs : list ref) (o : option nat) : list ref :=
  match o with Some d => finish gs d | None => gs end.
Lemma finish_app : forall a b d, finish (a ++ b) d = finish a (length b + d) ++ finish b d.
Proof.
  induction a as [|g a IH]; intros b d; [reflexivity|].
  cbn [app finish]. rewrite IH, app_length. cbn [app]. f_equal.
  destruct g; try reflexivity. f_equal. lia.
Qed.
Lemma fin_app : forall a b o, fin (a ++ b) o = fin a (option_map (Nat.add (length b)) o) ++ fin b o.
Proof. intros a b [d|]; [apply finish_app|reflexivity]. Qed.
Lemma fin_length : forall gs o, length (fin gs o) = length gs.
Proof. intros gs [d|]; [apply finish_length|reflexivity]. Qed.
Lemma finish_twice : forall gs d e, finish (finish gs d) e = finish gs d.
Proof. induction gs as [|g gs IH]; intros d e; [reflexivity|]. cbn [finish]. rewrite IH. f_equal. destruct g; reflexivity. Qed.

Lemma inv_print : forall E gs a t a', Inv E none gs a -> do_step E a (E_print t) = Ok a' ->
  Inv E none (gs ++ [R_map M_printer ld_text; R_text t; R_len t; R_ins call_printk]) a'.
Proof.
  intros E gs a t a' V H. cbn [do_step] in H. destruct (add_msg (a_msgs a) t) as (l, m) eqn:AM.
  inversion H; subst a'. clear H.
  destruct (add_laid _ _ _ _ (i_laid _ _ _ _ V) AM) as (L1 & L2 & L3 & L4 & L5).
  pose proof (inv_msgs _ _ _ l V L1 L5) as V0.
  set (a0 := mkA (a_img a) (a_fix a) l (a_loc a)) in *.
  assert (V1 : Inv E none (gs ++ [R_map M_printer ld_text]) (push_fix a0 ld_text (K_map M_printer))).
  { apply inv_fix; [exact V0|]. cbn [now none]. split; [reflexivity|]. cbn. apply in_or_app. right. left. reflexivity. }
  set (a1 := push_fix a0 ld_text (K_map M_printer)) in *.
  assert (V2 : Inv E none ((gs ++ [R_map M_printer ld_text]) ++ [R_text t]) (push a1 (text_half (to_s32 (Z.of_nat (p_off m)))))).
  { apply inv_push; [exact V1|]. cbn [now]. split; [exact (fresh_free _ _ _ _ V1)|]. exists m. auto. }
  set (a2 := push a1 (text_half (to_s32 (Z.of_nat (p_off m))))) in *.
  assert (V3 : Inv E none (((gs ++ [R_map M_printer ld_text]) ++ [R_text t]) ++ [R_len t]) (push a2 (mov_len (to_s32 (Z.of_nat (p_len m)))))).
  { apply inv_push; [exact V2|]. cbn [now]. split; [exact (fresh_free _ _ _ _ V2)|]. exists m.
    split; [exact L2|]. split; [exact L3|]. rewrite L4. reflexivity. }
  set (a3 := push a2 (mov_len (to_s32 (Z.of_nat (p_len m))))) in *.
  pose proof (inv_push E _ a3 call_printk (R_ins call_printk) V3) as V4.
  rewrite <- !app_assoc in V4. cbn [app] in V4. apply V4.
  cbn [now]. split; [reflexivity|exact (fresh_free _ _ _ _ V3)].
Qed.

Lemma inv_steps : forall E l a a' gs, Inv E none gs a -> do_steps E a l = Ok a' ->
  (Z.of_nat (length (a_img a')) < 2147483648)%Z -> Inv E none (fin gs (to_end l) ++ layout l) a'.
Proof.
  induction l as [|s l IH]; intros a a' gs V H SZ; cbn [do_steps] in H.
  - inversion H; subst. cbn [fin to_end layout]. rewrite app_nil_r. exact V.
  - destruct (do_step E a s) as [a1|] eqn:S1; [|discriminate]. cbn [bind] in H.
    pose proof (steps_len _ _ _ _ H) as (SL & _).
    destruct s.
    + inversion S1; subst a1. cbn [to_end layout width].
      assert (V1 : Inv E none (gs ++ [R_ins w]) (push a w)).
      { apply inv_push; [exact V|]. split; [reflexivity|exact (fresh_free _ _ _ _ V)]. }
      specialize (IH _ _ _ V1 H SZ). rewrite fin_app, <- app_assoc in IH. cbn [length] in IH.
      destruct (to_end l); exact IH.
    + inversion S1; subst a1. cbn [to_end layout width].
      assert (V1 : Inv E none (gs ++ [R_open w]) (push_fix a w K_next)).
      { apply inv_fix; [exact V|]. split; [reflexivity|]. cbn. apply in_or_app. right. left. reflexivity. }
      specialize (IH _ _ _ V1 H SZ). rewrite fin_app, <- app_assoc in IH. cbn [length] in IH.
      destruct (to_end l); exact IH.
    + inversion S1; subst a1. cbn [to_end layout width].
      assert (V1 : Inv E none (gs ++ [R_map k w]) (push_fix a w (K_map k))).
      { apply inv_fix; [exact V|]. cbn [now none]. split; [reflexivity|]. cbn. apply in_or_app. right. left. reflexivity. }
      specialize (IH _ _ _ V1 H SZ). rewrite fin_app, <- app_assoc in IH. cbn [length] in IH.
      destruct (to_end l); exact IH.
    + inversion S1; subst a1. cbn [to_end layout width].
      assert (V1 : Inv E none (gs ++ [R_call id]) (push_fix a call_rel (K_call id))).
      { apply inv_fix; [exact V|]. cbn [now none]. split; [reflexivity|]. cbn. apply in_or_app. right. left. reflexivity. }
      specialize (IH _ _ _ V1 H SZ). rewrite fin_app, <- app_assoc in IH. cbn [length] in IH.
      destruct (to_end l); exact IH.
    + pose proof (inv_print _ _ _ _ _ V S1) as V1. cbn [to_end layout width].
      specialize (IH _ _ _ V1 H SZ). rewrite fin_app, <- app_assoc in IH. cbn [length] in IH.
      destruct (to_end l); exact IH.
    + cbn [do_step] in S1. cbn [to_end layout fin].
      assert (V1 : Inv E none (finish gs 0) a1).
      { eapply inv_end; eauto. apply fix_all_len in S1. destruct S1 as (X & _). lia. }
      specialize (IH _ _ _ V1 H SZ). destruct (to_end l); cbn [fin] in IH; [|exact IH].
      rewrite finish_twice in IH. exact IH.
Qed.

(** ** Stubs *)

Lemma inv_app_ins : forall E ws gs a, Inv E none gs a ->
  Inv E none (gs ++ map R_ins ws) (mkA (a_img a ++ ws) (a_fix a) (a_msgs a) (a_loc a)).
Proof.
  induction ws as [|w ws IH]; intros gs a V.
  - cbn [map]. rewrite !app_nil_r. destruct a. exact V.
  - assert (V1 : Inv E none (gs ++ [R_ins w]) (push a w)).
    { apply inv_push; [exact V|]. split; [reflexivity|exact (fresh_free _ _ _ _ V)]. }
    specialize (IH _ _ V1). cbn [push a_img a_fix a_msgs a_loc] in IH.
    rewrite <- !app_assoc in IH. exact IH.
Qed.

Lemma inv_place : forall E gs a start p a' x y, Inv E none gs a ->
  nth_error gs (start + fst p) = Some (R_ins x) -> nth_error gs (S (start + fst p)) = Some (R_ins y) ->
  place_str start a p = Ok a' ->
  Inv E none (wset (wset gs (start + fst p) (R_map M_printer ld_text)) (S (start + fst p)) (R_text (snd p))) a'
  /\ a_loc a' = a_loc a.
Proof.
  intros E gs a start p a' x y V G1 G2 H. unfold place_str in H.
  destruct (add_msg (a_msgs a) (snd p)) as (l, m) eqn:AM.
  destruct (length (a_img a) <=? start + fst p) eqn:B1; [discriminate|].
  destruct (length (a_img a) <=? S (start + fst p)) eqn:B2; [discriminate|].
  apply Nat.leb_gt in B1, B2. inversion H; subst a'. clear H. split; [|reflexivity].
  set (i0 := start + fst p) in *.
  destruct (add_laid _ _ _ _ (i_laid _ _ _ _ V) AM) as (L1 & L2 & L3 & L4 & (e & L5)).
  destruct V as [L W ND I1 LD].
  destruct (W _ _ G1) as (w1 & Hw1 & (_ & F1)). destruct (W _ _ G2) as (w2 & Hw2 & (_ & F2)).
  constructor; cbn [a_img a_fix a_msgs a_loc].
  - rewrite !wset_length. exact L.
  - intros i g Hg.
    destruct (Nat.eq_dec i (S i0)) as [->|N1].
    { rewrite wset_same in Hg by (rewrite wset_length; lia). inversion Hg; subst g. clear Hg.
      eexists. rewrite wset_same by (rewrite wset_length; lia). split; [reflexivity|].
      cbn [now]. split.
      - intros k K. cbn [a_fix] in K. apply in_app_or in K. destruct K as [K|[K|[]]]; [exact (F2 _ K)|]. inversion K. lia.
      - exists m. auto. }
    rewrite wset_other in Hg by auto. rewrite wset_other by auto.
    destruct (Nat.eq_dec i i0) as [->|N2].
    { rewrite wset_same in Hg by lia. inversion Hg; subst g. clear Hg.
      eexists. rewrite wset_same by lia. split; [reflexivity|]. cbn [now none]. split; [reflexivity|].
      cbn [a_fix]. apply in_or_app. right. left. reflexivity. }
    rewrite wset_other in Hg by auto. rewrite wset_other by auto.
    destruct (W _ _ Hg) as (w & Hw & N). exists w. split; [exact Hw|].
    eapply now_grow; eauto; cbn [a_fix a_msgs].
    + intros f K. apply in_or_app. auto.
    + intros k K. apply in_app_or in K. destruct K as [K|[K|[]]]; [exact K|]. inversion K. congruence.
    + intros q K. rewrite L5. apply in_or_app. auto.
  - rewrite map_app. cbn [map fx_at].
    rewrite <- (rev_involutive (map fx_at (a_fix a) ++ _)), rev_app_distr. apply NoDup_rev. cbn [rev app].
    constructor; [|apply NoDup_rev; exact ND]. rewrite <- in_rev. intros C.
    apply in_map_iff in C. destruct C as ([fa fk] & C1 & C2). cbn in C1. subst fa. exact (F1 _ C2).
  - intros f K. rewrite !wset_length. apply in_app_or in K. destruct K as [K|[K|[]]]; [exact (I1 _ K)|subst f; cbn; lia].
  - exact L1.
Qed.

Lemma inv_places : forall E start l gs a a', Inv E none gs a ->
  ForallOrdPairs (fun p q => (S (fst p) < fst q \/ S (fst q) < fst p)%nat) l ->
  (forall p : nat * list N, In p l -> exists x y, nth_error gs (start + fst p) = Some (R_ins x)
                               /\ nth_error gs (S (start + fst p)) = Some (R_ins y)) ->
  place_strs start a l = Ok a' ->
  exists gs', Inv E none gs' a' /\ a_loc a' = a_loc a /\ length gs' = length gs
    /\ (forall i, (forall p, In p l -> i <> start + fst p /\ i <> S (start + fst p)) -> nth_error gs' i = nth_error gs i)
    /\ (forall p, In p l -> nth_error gs' (start + fst p) = Some (R_map M_printer ld_text)
                         /\ nth_error gs' (S (start + fst p)) = Some (R_text (snd p))).
Proof.
  induction l as [|p l IH]; intros gs a a' V AP PR H; cbn [place_strs] in H.
  - inversion H; subst. exists gs. split; [exact V|]. split; [reflexivity|]. split; [reflexivity|]. split; [intros; reflexivity|intros p []].
  - destruct (place_str start a p) as [a1|] eqn:P1; [|discriminate]. cbn [bind] in H.
    inversion AP as [|? ? AP1 AP2]; subst. rewrite Forall_forall in AP1.
    destruct (PR p) as (x & y & G1 & G2); [left; reflexivity|].
    destruct (inv_place _ _ _ _ _ _ _ _ V G1 G2 P1) as (V1 & LC).
    set (gs1 := wset (wset gs (start + fst p) (R_map M_printer ld_text)) (S (start + fst p)) (R_text (snd p))) in *.
    assert (O : forall i, i <> start + fst p -> i <> S (start + fst p) -> nth_error gs1 i = nth_error gs i).
    { intros i A B. unfold gs1. rewrite !wset_other by auto. reflexivity. }
    destruct (IH gs1 a1 a' V1 AP2) as (gs' & V' & LC' & LN & OUT & IN); [|exact H|].
    + intros q Q. destruct (PR q) as (x' & y' & Q1 & Q2); [right; exact Q|]. specialize (AP1 _ Q).
      exists x', y'. rewrite !O by lia. auto.
    + exists gs'. split; [exact V'|]. split; [congruence|]. split; [unfold gs1 in LN; rewrite !wset_length in LN; exact LN|]. split.
      * intros i C. rewrite OUT by (intros q Q; apply C; right; exact Q). apply O; apply (C p); left; reflexivity.
      * intros q [->|Q]; [|exact (IN _ Q)].
        assert (NE : forall r, In r l -> start + fst q <> start + fst r /\ start + fst q <> S (start + fst r)
                       /\ S (start + fst q) <> start + fst r /\ S (start + fst q) <> S (start + fst r)).
        { intros r R. specialize (AP1 _ R). lia. }
        pose proof (nth_len _ _ _ G1). pose proof (nth_len _ _ _ G2).
        rewrite !OUT by (intros r R; destruct (NE _ R) as (? & ? & ? & ?); auto).
        unfold gs1. split.
        -- rewrite wset_other by lia. apply wset_same. assumption.
        -- apply wset_same. rewrite wset_length. assumption.
Qed.

Definition stub_laid (gs : list ref) (t : nat) (st : stub) : Prop :=
  forall j x, nth_error (st_insns st) j = Some x -> nth_error gs (t + j) = Some (stub_ref st j x).

Definition tame (g : ref) : Prop :=
  match g with R_map k x => k = M_printer /\ x = ld_text | R_call _ | R_open _ => False | _ => True end.
Lemma stub_ref_tame : forall st j x, tame (stub_ref st j x).
Proof. intros. unfold stub_ref. destruct (find _ _); [cbn; auto|]. destruct (find _ _); exact Logic.I. Qed.

Lemma inv_stub : forall E gs a st a', Inv E none gs a -> loads_apart st ->
  place_strs (length (a_img a)) (mkA (a_img a ++ st_insns st) (a_fix a) (a_msgs a) (a_loc a)) (st_strs st) = Ok a' ->
  exists more, Inv E none (gs ++ more) a' /\ a_loc a' = a_loc a /\ stub_laid (gs ++ more) (length (a_img a)) st
    /\ Forall tame more.
Proof.
  intros E gs a st a' V (AP & IN0) H. rewrite Forall_forall in IN0.
  pose proof (inv_app_ins E (st_insns st) _ _ V) as V1.
  assert (NT : forall j x, nth_error (st_insns st) j = Some x -> nth_error (gs ++ map R_ins (st_insns st)) (length (a_img a) + j) = Some (R_ins x)).
  { intros j x J. rewrite <- (i_len _ _ _ _ V). rewrite nth_error_app2 by lia.
    replace (length gs + j - length gs) with j by lia. exact (map_nth_error R_ins _ _ J). }
  assert (PP : exists gs', Inv E none gs' a' /\ a_loc a' = a_loc a /\ length gs' = length (gs ++ map R_ins (st_insns st))
    /\ (forall i, (forall p, In p (st_strs st) -> i <> length (a_img a) + fst p /\ i <> S (length (a_img a) + fst p)) -> nth_error gs' i = nth_error (gs ++ map R_ins (st_insns st)) i)
    /\ (forall p, In p (st_strs st) -> nth_error gs' (length (a_img a) + fst p) = Some (R_map M_printer ld_text)
                         /\ nth_error gs' (S (length (a_img a) + fst p)) = Some (R_text (snd p)))).
  { refine (inv_places _ _ _ _ _ _ V1 AP _ H).
    intros p P. specialize (IN0 _ P).
    destruct (nth_some (st_insns st) (fst p)) as (x & X); [lia|].
    destruct (nth_some (st_insns st) (S (fst p))) as (y & Y); [lia|].
    exists x, y. split; [exact (NT _ _ X)|]. replace (S (length (a_img a) + fst p)) with (length (a_img a) + S (fst p)) by lia. exact (NT _ _ Y). }
  destruct PP as (gs' & V' & LC & LN & OUT & IN).
    assert (PRE : firstn (length gs) gs' = gs).
    { apply nth_ext with (d := R_len []) (d' := R_len []).
      - rewrite firstn_length, LN, app_length. lia.
      - intros n Hn. rewrite firstn_length, LN, app_length in Hn.
        assert (Q : nth_error gs' n = nth_error gs n).
        { rewrite OUT; [apply nth_error_app1; lia|]. intros p _. rewrite <- (i_len _ _ _ _ V). lia. }
        assert (Q2 : nth_error (firstn (length gs) gs') n = nth_error gs n).
        { rewrite <- (firstn_skipn (length gs) gs') in Q. rewrite nth_error_app1 in Q by (rewrite firstn_length, LN, app_length; lia). exact Q. }
        destruct (nth_some gs n) as (z & Z); [lia|]. rewrite Z in Q2.
        rewrite (nth_error_nth _ _ _ Q2), (nth_error_nth _ _ _ Z). reflexivity. }
    exists (skipn (length gs) gs'). rewrite <- PRE at 1 3. rewrite firstn_skipn. split; [exact V'|]. split; [exact LC|].
    assert (SL : stub_laid gs' (length (a_img a)) st).
    2:{ split; [exact SL|]. apply Forall_forall. intros g G. apply In_nth_error in G. destruct G as (j & G).
        assert (J : nth_error gs' (length gs + j) = Some g).
        { rewrite <- (firstn_skipn (length gs) gs'). rewrite PRE. rewrite nth_error_app2 by lia.
          replace (length gs + j - length gs) with j by lia. exact G. }
        pose proof (nth_len _ _ _ J) as JL. rewrite LN, app_length, map_length in JL.
        destruct (nth_some (st_insns st) j) as (x & X); [lia|]. specialize (SL _ _ X).
        rewrite (i_len _ _ _ _ V) in J. rewrite J in SL. inversion SL. apply stub_ref_tame. }
    intros j x J. unfold stub_ref.
    destruct (find _ (st_strs st)) as [q|] eqn:F1.
    + apply find_some in F1. destruct F1 as (Q1 & Q2). apply Nat.eqb_eq in Q2. subst j. apply (IN _ Q1).
    + destruct (find (fun p => S (fst p) =? j) (st_strs st)) as [q|] eqn:F2.
      * apply find_some in F2. destruct F2 as (Q1 & Q2). apply Nat.eqb_eq in Q2. subst j.
        rewrite Nat.add_succ_r. apply (IN _ Q1).
      * rewrite OUT; [exact (NT _ _ J)|]. intros p P.
        pose proof (find_none _ _ F1 _ P) as N1. pose proof (find_none _ _ F2 _ P) as N2.
        cbn in N1. apply Nat.eqb_neq in N1. apply Nat.eqb_neq in N2. lia.
Qed.

Definition loc_ok (E : env) (base : nat) (gs : list ref) (loc : nat -> Z) : Prop :=
  forall id, loc id <> 0%Z -> exists t st, e_stub E id = Some st /\ loc id = to_u32 (Z.of_nat t) /\ base <= t < length gs + 1 /\ stub_laid gs t st.

Lemma stub_laid_grow : forall gs more t st, stub_laid gs t st -> stub_laid (gs ++ more) t st.
Proof.
  intros gs more t st H j x J. specialize (H _ _ J).
  rewrite nth_error_app1; [exact H|]. eapply nth_len; eauto.
Qed.

Lemma inv_stubs : forall E base l a a' gs, Inv E none gs a -> base <= length gs -> loc_ok E base gs (a_loc a) ->
  (forall id st, e_stub E id = Some st -> loads_apart st) ->
  (length (a_img a) <> 0 \/ l = []) ->
  gen_stubs E l a = Ok a' -> (Z.of_nat (length (a_img a')) < 2147483648)%Z ->
  exists more, Inv E none (gs ++ more) a' /\ loc_ok E base (gs ++ more) (a_loc a')
    /\ length (a_img a) <= length (a_img a')
    /\ (forall id, a_loc a id <> 0%Z -> a_loc a' id <> 0%Z)
    /\ (forall f id, In f l -> fx_kind f = K_call id -> a_loc a' id <> 0%Z)
    /\ Forall tame more.
Proof.
  intros E base. induction l as [|f l IH]; intros a a' gs V BG LO AP NE H SZ; cbn [gen_stubs] in H.
  - inversion H; subst. exists []. rewrite app_nil_r. split; [exact V|]. split; [exact LO|]. split; [lia|]. split; [auto|split; [intros f id []|constructor]].
  - assert (NE1 : length (a_img a) <> 0) by (destruct NE as [NE|NE]; [exact NE|discriminate]).
    assert (SKIP : gen_stubs E l a = Ok a' -> (forall id, fx_kind f = K_call id -> a_loc a id <> 0%Z) ->
      exists more, Inv E none (gs ++ more) a' /\ loc_ok E base (gs ++ more) (a_loc a')
    /\ length (a_img a) <= length (a_img a')
    /\ (forall id, a_loc a id <> 0%Z -> a_loc a' id <> 0%Z)
    /\ (forall f0 id, In f0 (f :: l) -> fx_kind f0 = K_call id -> a_loc a' id <> 0%Z)
    /\ Forall tame more).
    { intros H' NC. destruct (IH _ _ _ V BG LO AP (or_introl NE1) H' SZ) as (more & A & B & C & D & F & T).
      exists more. split; [exact A|]. split; [exact B|]. split; [exact C|]. split; [exact D|].
      split; [|exact T]. intros f0 id [->|I0] K; [apply D, NC, K|eapply F; eauto]. }
    destruct (fx_kind f) as [|k|id] eqn:KF.
    + apply (SKIP H). intros id C; discriminate.
    + apply (SKIP H). intros id C; discriminate.
    + destruct (a_loc a id =? 0)%Z eqn:LZ.
      * destruct (e_stub E id) as [st|] eqn:ES; [|discriminate].
        destruct (place_strs _ _ (st_strs st)) as [a1|] eqn:P; [|discriminate]. cbn [bind] in H.
        destruct (inv_stub _ _ _ _ _ V (AP _ _ ES) P) as (m1 & V1 & LC & SL & T1).
        set (a2 := mkA (a_img a1) (a_fix a1) (a_msgs a1)
              (fun j => if Nat.eqb j id then to_u32 (Z.of_nat (length (a_img a))) else a_loc a1 j)) in *.
        assert (L12 : length (a_img a) <= length (a_img a1)).
        { rewrite <- (i_len _ _ _ _ V), <- (i_len _ _ _ _ V1), app_length. lia. }
        assert (V2 : Inv E none (gs ++ m1) a2).
        { destruct V1 as [X1 X2 X3 X4 X5]. constructor; auto. }
        assert (LO2 : loc_ok E base (gs ++ m1) (a_loc a2)).
        { intros j J. cbn [a2 a_loc] in *. destruct (Nat.eqb j id) eqn:JI.
          - apply Nat.eqb_eq in JI. subst j. exists (length (a_img a)), st. split; [exact ES|]. split; [reflexivity|].
            split; [rewrite <- (i_len _ _ _ _ V), app_length; lia|exact SL].
          - rewrite LC in J |- *. destruct (LO _ J) as (t & s & A & B & C & D). exists t, s.
            split; [exact A|]. split; [exact B|]. split; [rewrite app_length; lia|]. apply stub_laid_grow. exact D. }
        destruct (IH a2 a' (gs ++ m1) V2) as (more & A & B & C & D & F & T); [rewrite app_length; lia|exact LO2|exact AP|left; cbn [a2 a_img]; lia|exact H|exact SZ|].
        cbn [a2 a_img] in C.
        assert (NZ : a_loc a' id <> 0%Z).
        { apply D. cbn [a2 a_loc]. rewrite Nat.eqb_refl. unfold to_u32. rewrite Z.mod_small by lia. lia. }
        exists (m1 ++ more). rewrite app_assoc.
        split; [exact A|]. split; [exact B|]. split; [lia|]. split; [|split; [|apply Forall_app; auto]].
        -- intros j J. destruct (Nat.eqb j id) eqn:JI; [apply Nat.eqb_eq in JI; subst j; exact NZ|].
           apply D. cbn [a2 a_loc]. rewrite JI, LC. exact J.
        -- intros f0 j [->|I0] K; [|eapply F; eauto]. rewrite KF in K. inversion K; subst j. exact NZ.
      * apply (SKIP H). intros j C. inversion C; subst j. apply Z.eqb_neq in LZ. exact LZ.
Qed.
