(** Every stub that is called is placed once. *)
From Coq Require Import ZArith NArith List Lia Bool.
From Verif Require Import Bytes GenModel BytesFacts NewFacts AsmModel AsmSpec AsmFacts AsmFacts2 AsmFacts3 AsmFacts4 AsmFacts5.
Import ListNotations.
Open Scope res_scope.

Lemma places_loc : forall s l x a, place_strs s x l = Ok a -> a_loc a = a_loc x.
Proof.
  intros s. induction l as [|p l IH]; intros x a P; cbn [place_strs] in P; [inversion P; reflexivity|].
  destruct (place_str s x p) as [y|] eqn:PS; [|discriminate]. cbn [bind] in P. apply IH in P. rewrite P.
  unfold place_str in PS. destruct (add_msg _ _). destruct (_ <=? _); [discriminate|]. destruct (_ <=? _); [discriminate|].
  inversion PS. reflexivity.
Qed.

Lemma stubs_once E : forall fs a a', gen_stubs E fs a = Ok a' -> (length (a_img a) <> 0 \/ fs = []) ->
  (Z.of_nat (length (a_img a')) < 2147483648)%Z ->
  exists ids, NoDup ids
    /\ (forall id, In id ids <-> a_loc a id = 0%Z /\ exists f, In f fs /\ fx_kind f = K_call id)
    /\ length (a_img a') = length (a_img a) + list_sum (map (stub_size E) ids).
Proof.
  induction fs as [|f fs IH]; intros a a' H NE SZ; cbn [gen_stubs] in H.
  - inversion H; subst. exists []. split; [constructor|]. split; [|cbn; lia].
    intros id. split; [intros []|intros (_ & f & [] & _)].
  - assert (NE1 : length (a_img a) <> 0) by (destruct NE as [NE|NE]; [exact NE|discriminate]).
    assert (SK : gen_stubs E fs a = Ok a' -> (forall id, fx_kind f = K_call id -> a_loc a id <> 0%Z) ->
      exists ids, NoDup ids
        /\ (forall id, In id ids <-> a_loc a id = 0%Z /\ exists g, In g (f :: fs) /\ fx_kind g = K_call id)
        /\ length (a_img a') = length (a_img a) + list_sum (map (stub_size E) ids)).
    { intros H' NC. destruct (IH _ _ H' (or_introl NE1) SZ) as (ids & A & B & C). exists ids. split; [exact A|]. split; [|exact C].
      intros id. rewrite B. split.
      - intros (L & g & G1 & G2). split; [exact L|]. exists g. split; [right; exact G1|exact G2].
      - intros (L & g & [G1|G1] & G2); [subst g; destruct (NC _ G2 L)|]. split; [exact L|]. exists g. auto. }
    destruct (fx_kind f) as [|k|id] eqn:KF.
    + apply (SK H). intros id C; discriminate.
    + apply (SK H). intros id C; discriminate.
    + destruct (a_loc a id =? 0)%Z eqn:LZ.
      * destruct (e_stub E id) as [st|] eqn:ES; [|discriminate].
        destruct (place_strs _ _ (st_strs st)) as [a1|] eqn:P; [|discriminate]. cbn [bind] in H.
        pose proof (places_len _ _ _ _ P) as PL. cbn [a_img] in PL. rewrite app_length in PL.
        pose proof (places_loc _ _ _ _ P) as PC. cbn [a_loc] in PC.
        pose proof (stubs_len _ _ _ _ H) as GL. cbn [a_img] in GL.
        apply Z.eqb_eq in LZ.
        destruct (IH _ _ H) as (ids & A & B & C); [left; cbn [a_img]; lia|exact SZ|]. cbn [a_img a_loc] in B, C.
        exists (id :: ids). split; [|split].
        -- constructor; [|exact A]. rewrite B. rewrite Nat.eqb_refl. intros (Q & _).
           unfold to_u32 in Q. rewrite Z.mod_small in Q by lia. lia.
        -- intros j. cbn [In]. rewrite B, PC. destruct (Nat.eqb j id) eqn:JI.
           ++ apply Nat.eqb_eq in JI. subst j. split; [|auto]. intros _. split; [exact LZ|]. exists f. auto.
           ++ apply Nat.eqb_neq in JI. split.
              ** intros [Q|(Q & g & G1 & G2)]; [congruence|]. split; [exact Q|]. exists g. auto.
              ** intros (Q & g & [G1|G1] & G2); [subst g; congruence|]. right. split; [exact Q|]. exists g. auto.
        -- rewrite C, PL. cbn [map]. change (list_sum (?x :: ?y)) with (x + list_sum y).
           unfold stub_size at 2. rewrite ES. lia.
      * apply (SK H). intros j C. inversion C; subst j. apply Z.eqb_neq in LZ. exact LZ.
Qed.

Lemma steps_calls E id : forall l a a', do_steps E a l = Ok a' ->
  ((exists f, In f (a_fix a') /\ fx_kind f = K_call id)
   <-> (exists f, In f (a_fix a) /\ fx_kind f = K_call id) \/ In (R_call id) (layout l)).
Proof.
  induction l as [|s l IH]; intros a a' H; cbn [do_steps] in H.
  - inversion H; subst. cbn. tauto.
  - destruct (do_step E a s) as [a1|] eqn:S1; [|discriminate]. cbn [bind] in H. apply IH in H. rewrite H. clear H.
    assert (G : forall (k : kind) (i : nat), (exists f, In f (a_fix a ++ [mkFx i k]) /\ fx_kind f = K_call id)
       <-> (exists f, In f (a_fix a) /\ fx_kind f = K_call id) \/ k = K_call id).
    { intros k i. split.
      - intros (f & F1 & F2). apply in_app_or in F1. destruct F1 as [F1|[F1|[]]]; [left; eauto|]. subst f. right. exact F2.
      - intros [(f & F1 & F2)|Q]; [exists f; split; [apply in_or_app; auto|exact F2]|].
        exists (mkFx i k). split; [apply in_or_app; right; left; reflexivity|exact Q]. }
    destruct s; cbn [do_step] in S1.
    + inversion S1; subst. cbn [push a_fix layout In]. intuition congruence.
    + inversion S1; subst. cbn [push_fix a_fix layout In]. rewrite G.
      destruct (to_end l); intuition congruence.
    + inversion S1; subst. cbn [push_fix a_fix layout In]. rewrite G. intuition congruence.
    + inversion S1; subst. cbn [push_fix a_fix layout In]. rewrite G.
      assert (Q : K_call id0 = K_call id <-> R_call id0 = R_call id) by (split; congruence). rewrite Q. tauto.
    + destruct (add_msg (a_msgs a) m) as (l', x). inversion S1; subst. cbn [push_fix push a_fix layout In]. rewrite G. intuition congruence.
    + unfold fix_all in S1. destruct (fixups _ _ _ _ _) as [p|] eqn:F; [|discriminate]. cbn [bind] in S1. inversion S1; subst.
      cbn [a_fix layout]. rewrite (fixups_fixes _ _ _ _ _ _ F).
      assert (Q : (exists f, In f (filter (fun f => negb (is_next (fx_kind f))) (a_fix a)) /\ fx_kind f = K_call id)
                  <-> (exists f, In f (a_fix a) /\ fx_kind f = K_call id)).
      { split; intros (f & F1 & F2); exists f.
        - apply filter_In in F1. split; [apply F1|exact F2].
        - split; [|exact F2]. apply filter_In. rewrite F2. auto. }
      rewrite Q. reflexivity.
Qed.

Lemma link_once : forall E junk l img buf, link E junk l = Ok (img, buf) ->
  (forall id st, e_stub E id = Some st -> loads_apart st) ->
  (Z.of_nat (length img) < 2147483648)%Z -> (Z.of_nat (length buf) < 2147483648)%Z ->
  (exists ids, NoDup ids /\ (forall id, In id ids <-> In (R_call id) (layout l))
     /\ length img = length (layout l) + list_sum (map (stub_size E) ids))
  /\ (exists place, forall i id, nth_error (layout l) i = Some (R_call id) ->
        nth_error img i = Some (set_imm call_rel (Z.of_nat (place id) - Z.of_nat i - 1))
        /\ length (layout l) <= place id
        /\ exists st, e_stub E id = Some st /\ stub_at E buf img (place id) st).
Proof.
  intros E junk l img buf H AP SZ SZB. split.
  - pose proof H as H0. unfold link in H.
    destruct (do_steps E asm0 l) as [a1|] eqn:S1; [|discriminate]. cbn [bind] in H.
    destruct (gen_stubs E (a_fix a1) a1) as [a2|] eqn:S2; [|discriminate]. cbn [bind] in H.
    destruct (fix_all is_call E a2) as [a3|] eqn:S3; [|discriminate]. cbn [bind] in H.
    destruct (fix_all is_set E a3) as [a4|] eqn:S4; [|discriminate]. cbn [bind] in H.
    destruct (fix_all is_counters E a4) as [a5|] eqn:S5; [|discriminate]. cbn [bind] in H.
    destruct (assemble junk (a_msgs a5)) as [b|] eqn:SB; [|discriminate]. cbn [bind] in H.
    destruct (fix_all is_printer E a5) as [a6|] eqn:S6; [|discriminate]. cbn [bind] in H.
    destruct (fix_if M_log is_log E a6) as [a7|] eqn:S7; [|discriminate]. cbn [bind] in H.
    destruct (fix_if M_state is_state E a7) as [a8|] eqn:S8; [|discriminate]. cbn [bind] in H.
    inversion H; subst img buf. clear H.
    pose proof (fix_all_len _ _ _ _ S3) as (L3 & _). pose proof (fix_all_len _ _ _ _ S4) as (L4 & _).
    pose proof (fix_all_len _ _ _ _ S5) as (L5 & _). pose proof (fix_all_len _ _ _ _ S6) as (L6 & _).
    assert (L7 : length (a_img a7) = length (a_img a6)).
    { unfold fix_if in S7. destruct (e_fd E M_log); [apply (fix_all_len _ _ _ _ S7)|inversion S7; reflexivity]. }
    assert (L8 : length (a_img a8) = length (a_img a7)).
    { unfold fix_if in S8. destruct (e_fd E M_state); [apply (fix_all_len _ _ _ _ S8)|inversion S8; reflexivity]. }
    pose proof (stubs_len _ _ _ _ S2) as G12.
    pose proof (inv_steps _ _ _ _ _ (inv0 E) S1) as V1.
    assert (V1' : Inv E none (layout l) a1).
    { replace (layout l) with (fin [] (to_end l) ++ layout l) by (destruct (to_end l); reflexivity). apply V1. lia. }
    assert (NE : length (a_img a1) <> 0 \/ a_fix a1 = []).
    { destruct (a_fix a1) as [|f fs] eqn:FX; [auto|]. left. pose proof (i_in _ _ _ _ V1' f) as Q. rewrite FX in Q. specialize (Q (or_introl eq_refl)). lia. }
    destruct (stubs_once _ _ _ _ S2 NE ltac:(lia)) as (ids & A & B & C).
    exists ids. split; [exact A|]. split.
    + intros id. rewrite B. rewrite (steps_calls _ id _ _ _ S1).
      apply steps_len in S1. destruct S1 as (_ & LC). rewrite LC. cbn [asm0 a_loc a_fix]. split.
      * intros (_ & [(f & [] & _)|Q]). exact Q.
      * intros Q. split; [reflexivity|right; exact Q].
    + rewrite L8, L7, L6, L5, L4, L3, C. rewrite (i_len _ _ _ _ V1'). reflexivity.
  - destruct (link_linked _ _ _ _ _ H AP SZ) as (gs & a & D & K & <- & BF).
    destruct (k_pre _ _ _ _ _ K) as (more & GS).
    exists (fun id => Z.to_nat (a_loc a id)). intros i id N.
    assert (NG : nth_error gs i = Some (R_call id)) by (rewrite GS, nth_error_app1; [exact N|eapply nth_len; eauto]).
    pose proof (k_inv _ _ _ _ _ K) as V.
    destruct (i_now _ _ _ _ V _ _ NG) as (w & W & M).
    cbn [now] in M. rewrite (k_call _ _ _ _ _ K id) in M. destruct M as (_ & s & P).
    pose proof (k_calls _ _ _ _ _ K _ _ N) as NZ.
    destruct (k_loc _ _ _ _ _ K _ NZ) as (t & st & T1 & T2 & T3 & T4).
    pose proof (nth_len _ _ _ W) as LI. pose proof (i_len _ _ _ _ V) as LG. pose proof (nth_len _ _ _ N) as LN.
    unfold to_u32 in T2. rewrite Z.mod_small in T2 by lia.
    assert (TT : Z.to_nat (a_loc a id) = t) by (rewrite T2; apply Nat2Z.id). rewrite TT.
    cbn [patched] in P. rewrite T2 in P. unfold to_u64 in P. rewrite Z.mod_small in P by lia.
    destruct (2147483647 <=? _)%Z; [discriminate|]. apply imm_inv in P. subst w.
    split; [exact W|]. split; [lia|]. exists st. split; [exact T1|].
    intros j x J. eapply plain_final; eauto. unfold stub_ref. intros id'.
    destruct (find _ _); [discriminate|]. destruct (find _ _); discriminate.
Qed.
