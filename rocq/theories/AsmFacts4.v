(** The whole: what a linked program contains. *)
From Coq Require Import ZArith NArith List Lia Bool.
From Verif Require Import Bytes GenModel BytesFacts NewFacts AsmModel AsmSpec AsmFacts AsmFacts2 AsmFacts3.
Import ListNotations.
Open Scope res_scope.

Lemma inv0 : forall E, Inv E none [] asm0.
Proof.
  intros E. constructor; cbn; auto; try (intros; contradiction); try constructor.
  intros i g H. destruct i; discriminate.
Qed.

Lemma inv_weaken : forall E D D' gs a, Inv E D gs a -> (forall k, D k = D' k) -> Inv E D' gs a.
Proof.
  intros E D D' gs a [L W ND I1 LD] Q. constructor; auto. intros i g H. destruct (W _ _ H) as (w & A & B).
  exists w. split; [exact A|]. destruct g; cbn [now] in *; auto; rewrite <- Q; exact B.
Qed.

(** The state of the program when everything is resolved. *)
Record linked (E : env) (l : list step) (gs : list ref) (a : asm) (D : kind -> bool) : Prop := mkLinked {
  k_inv : Inv E D gs a;
  k_pre : exists more, gs = layout l ++ more;
  k_loc : loc_ok E (length (layout l)) gs (a_loc a);
  k_calls : forall i id, nth_error (layout l) i = Some (R_call id) -> a_loc a id <> 0%Z;
  k_call : forall id, D (K_call id) = true;
  k_set : forall s, D (K_map (M_set s)) = true;
  k_cnt : D (K_map M_counters) = true;
  k_prn : D (K_map M_printer) = true;
  k_log : e_fd E M_log <> None -> D (K_map M_log) = true;
  k_st : e_fd E M_state <> None -> D (K_map M_state) = true }.

Lemma fix_if_pass : forall E D gs a m sel a', Inv E D gs a -> fix_if m sel E a = Ok a' ->
  sel K_next = false -> (forall k, D k = true -> sel k = false) ->
  exists D', Inv E D' gs a' /\ a_loc a' = a_loc a /\ a_msgs a' = a_msgs a /\ length (a_img a') = length (a_img a)
    /\ (forall k, D k = true -> D' k = true) /\ (forall k, D' k = true -> D k = true \/ sel k = true)
    /\ (e_fd E m <> None -> forall k, sel k = true -> D' k = true).
Proof.
  intros E D gs a m sel a' V H SN DS. unfold fix_if in H. destruct (e_fd E m) as [fd|] eqn:F.
  - destruct (inv_pass _ _ _ _ _ _ V H SN DS) as (V' & L & M). exists (orb2 D sel).
    apply fix_all_len in H. destruct H as (H & _).
    split; [exact V'|]. split; [exact L|]. split; [exact M|]. split; [exact H|]. unfold orb2.
    repeat split; intros k K.
    + rewrite K. reflexivity.
    + apply orb_true_iff in K. exact K.
    + intros K2. rewrite K2. apply orb_true_r.
  - inversion H; subst. exists D. repeat split; auto; try apply V; congruence.
Qed.

Lemma places_len : forall s l x a, place_strs s x l = Ok a -> length (a_img a) = length (a_img x).
Proof.
  intros s. induction l as [|p l IH]; intros x a P; cbn [place_strs] in P; [inversion P; reflexivity|].
  destruct (place_str s x p) as [y|] eqn:PS; [|discriminate]. cbn [bind] in P. apply IH in P. rewrite P.
  unfold place_str in PS. destruct (add_msg _ _). destruct (_ <=? _); [discriminate|]. destruct (_ <=? _); [discriminate|].
  inversion PS. cbn [a_img]. rewrite !wset_length. reflexivity.
Qed.
Lemma stubs_len : forall E fs a a', gen_stubs E fs a = Ok a' -> length (a_img a) <= length (a_img a').
Proof.
  intros E. induction fs as [|f fs IH]; intros a a' H; cbn [gen_stubs] in H; [inversion H; lia|].
  destruct (fx_kind f); try (apply IH; exact H).
  destruct (a_loc a id =? 0)%Z; [|apply IH; exact H].
  destruct (e_stub E id) as [st|]; [|discriminate].
  destruct (place_strs _ _ (st_strs st)) as [x|] eqn:P; [|discriminate]. cbn [bind] in H.
  apply IH in H. cbn [a_img] in H. apply places_len in P. cbn [a_img] in P. rewrite app_length in P. lia.
Qed.

Lemma link_linked : forall E junk l img buf, link E junk l = Ok (img, buf) ->
  (forall id st, e_stub E id = Some st -> loads_apart st) ->
  (Z.of_nat (length img) < 2147483648)%Z ->
  exists gs a D, linked E l gs a D /\ a_img a = img /\ buf = match a_msgs a with [] => [0%N] | _ => body (a_msgs a) end.
Proof.
  intros E junk l img buf H AP SZ. unfold link in H.
  destruct (do_steps E asm0 l) as [a1|] eqn:S1; [|discriminate]. cbn [bind] in H.
  destruct (gen_stubs E (a_fix a1) a1) as [a2|] eqn:S2; [|discriminate]. cbn [bind] in H.
  destruct (fix_all is_call E a2) as [a3|] eqn:S3; [|discriminate]. cbn [bind] in H.
  destruct (fix_all is_set E a3) as [a4|] eqn:S4; [|discriminate]. cbn [bind] in H.
  destruct (fix_all is_counters E a4) as [a5|] eqn:S5; [|discriminate]. cbn [bind] in H.
  destruct (assemble junk (a_msgs a5)) as [b|] eqn:SB; [|discriminate]. cbn [bind] in H.
  destruct (fix_all is_printer E a5) as [a6|] eqn:S6; [|discriminate]. cbn [bind] in H.
  destruct (fix_if M_log is_log E a6) as [a7|] eqn:S7; [|discriminate]. cbn [bind] in H.
  destruct (fix_if M_state is_state E a7) as [a8|] eqn:S8; [|discriminate]. cbn [bind] in H.
  inversion H; subst img buf. clear H.
  pose proof (fix_all_len _ _ _ _ S3) as (L3 & _). pose proof (fix_all_len _ _ _ _ S4) as (L4 & _).
  pose proof (fix_all_len _ _ _ _ S5) as (L5 & _). pose proof (fix_all_len _ _ _ _ S6) as (L6 & _).
  assert (L7 : length (a_img a7) = length (a_img a6)).
  { unfold fix_if in S7. destruct (e_fd E M_log); [apply (fix_all_len _ _ _ _ S7)|inversion S7; reflexivity]. }
  assert (L8 : length (a_img a8) = length (a_img a7)).
  { unfold fix_if in S8. destruct (e_fd E M_state); [apply (fix_all_len _ _ _ _ S8)|inversion S8; reflexivity]. }
  assert (SZ2 : (Z.of_nat (length (a_img a2)) < 2147483648)%Z) by lia.
  assert (G12 : length (a_img a1) <= length (a_img a2)).
  { exact (stubs_len _ _ _ _ S2). }
  pose proof (inv_steps _ _ _ _ _ (inv0 E) S1) as V1.
  assert (V1' : Inv E none (layout l) a1).
  { replace (layout l) with (fin [] (to_end l) ++ layout l) by (destruct (to_end l); reflexivity). apply V1. lia. }
  clear V1.
  assert (LOC1 : a_loc a1 = fun _ => 0%Z) by (apply steps_len in S1; apply S1).
  assert (LO1 : loc_ok E (length (layout l)) (layout l) (a_loc a1)) by (intros id C; rewrite LOC1 in C; congruence).
  assert (NE : length (a_img a1) <> 0 \/ a_fix a1 = []).
  { destruct (a_fix a1) as [|f fs] eqn:FX; [auto|]. left. pose proof (i_in _ _ _ _ V1' f) as Q. rewrite FX in Q. specialize (Q (or_introl eq_refl)). lia. }
  destruct (inv_stubs _ _ _ _ _ _ V1' (le_n _) LO1 AP NE S2 SZ2) as (more & V2 & LO2 & _ & _ & CL & _).
  destruct (inv_pass _ _ _ _ _ _ V2 S3 eq_refl) as (V3 & LC3 & M3); [discriminate|].
  destruct (inv_pass _ _ _ _ _ _ V3 S4 eq_refl) as (V4 & LC4 & M4); [intros [|[]|]; try discriminate; reflexivity|].
  destruct (inv_pass _ _ _ _ _ _ V4 S5 eq_refl) as (V5 & LC5 & M5); [intros [|[]|]; try discriminate; reflexivity|].
  destruct (inv_pass _ _ _ _ _ _ V5 S6 eq_refl) as (V6 & LC6 & M6); [intros [|[]|]; try discriminate; reflexivity|].
  destruct (fix_if_pass _ _ _ _ _ _ _ V6 S7 eq_refl) as (D7 & V7 & LC7 & M7 & _ & U7 & B7 & C7); [intros [|[]|]; try discriminate; reflexivity|].
  destruct (fix_if_pass _ _ _ _ _ _ _ V7 S8 eq_refl) as (D8 & V8 & LC8 & M8 & _ & U8 & B8 & C8).
  { intros k K. destruct (B7 _ K) as [K2|K2]; destruct k as [|[]|]; try discriminate; reflexivity. }
  exists (layout l ++ more), a8, D8.
  assert (LOC : a_loc a8 = a_loc a2) by congruence.
  split; [|split; [reflexivity|]].
  - constructor; auto.
    + eauto.
    + rewrite LOC. exact LO2.
    + intros i id N. rewrite LOC.
      destruct (i_now _ _ _ _ V1' _ _ N) as (w & _ & (_ & IN)).
      exact (CL _ _ IN eq_refl).
  - rewrite M8, M7, M6. rewrite assemble_ok in SB by exact (i_laid _ _ _ _ V5).
    inversion SB. reflexivity.
Qed.

Lemma plain_final : forall E l gs a D buf i r, linked E l gs a D ->
  buf = match a_msgs a with [] => [0%N] | _ => body (a_msgs a) end ->
  (Z.of_nat (length buf) < 2147483648)%Z ->
  nth_error gs i = Some r -> (forall id, r <> R_call id) ->
  exists w, nth_error (a_img a) i = Some w /\ plain_means E buf r w.
Proof.
  intros E l gs a D buf i r K BF SZ N NC. destruct K as [V _ _ _ _ KS KC KP KL KT].
  assert (BB : forall p, In p (a_msgs a) -> buf = body (a_msgs a)).
  { intros p P. rewrite BF. destruct (a_msgs a); [destruct P|reflexivity]. }
  assert (BO : forall p, In p (a_msgs a) -> text_at buf (p_off p) (p_str p) /\ p_off p + length (p_str p) + 1 <= length buf).
  { intros p P. rewrite (BB _ P). apply laid_text; [exact (i_laid _ _ _ _ V)|exact P]. }
  destruct (i_now _ _ _ _ V _ _ N) as (w & W & M). exists w. split; [exact W|].
  destruct r; cbn [now plain_means] in *.
  - apply M.
  - destruct M as (M & _). split; [exact M|]. intros B. rewrite s16_small in M by lia. exact M.
  - apply M.
  - destruct (D (K_map k)) eqn:DK.
    + destruct M as (_ & fd & F1 & F2). rewrite F1. exact F2.
    + destruct M as (M & _). destruct (e_fd E k) eqn:F; [|exact M].
      destruct k; [rewrite KS in DK; discriminate|congruence|congruence|rewrite KL in DK; congruence|rewrite KT in DK; congruence].
  - congruence.
  - destruct M as (_ & p & P1 & P2 & P3). destruct (BO _ P1) as (B1 & B2). exists (p_off p).
    rewrite s32_small in P3 by lia. subst m. auto.
  - destruct M as (_ & p & P1 & P2 & P3). destruct (BO _ P1) as (B1 & B2). subst m.
    rewrite s32_small in P3 by lia. exact P3.
Qed.

Lemma linked_means : forall E junk l img buf, link E junk l = Ok (img, buf) ->
  (forall id st, e_stub E id = Some st -> loads_apart st) ->
  (Z.of_nat (length img) < 2147483648)%Z -> (Z.of_nat (length buf) < 2147483648)%Z ->
  forall i r, nth_error (layout l) i = Some r ->
    exists w, nth_error img i = Some w /\ means E buf img i r w.
Proof.
  intros E junk l img buf H AP SZ SZB i r N.
  destruct (link_linked _ _ _ _ _ H AP SZ) as (gs & a & D & K & <- & BF).
  destruct (k_pre _ _ _ _ _ K) as (more & GS).
  assert (NG : nth_error gs i = Some r) by (rewrite GS, nth_error_app1; [exact N|eapply nth_len; eauto]).
  assert (PL : (forall id, r <> R_call id) -> exists w, nth_error (a_img a) i = Some w /\ plain_means E buf r w).
  { intros NC. eapply plain_final; eauto. }
  destruct r as [x|x n|x|k x|id|m|m];
    try (cbn [means]; apply PL; intros; discriminate).
  pose proof (k_inv _ _ _ _ _ K) as V.
  destruct (i_now _ _ _ _ V _ _ NG) as (w & W & M). exists w. split; [exact W|].
  cbn [now] in M. rewrite (k_call _ _ _ _ _ K id) in M. destruct M as (_ & s & P).
  pose proof (k_calls _ _ _ _ _ K _ _ N) as NZ.
  destruct (k_loc _ _ _ _ _ K _ NZ) as (t & st & T1 & T2 & T3 & T4).
  exists t, st. split; [exact T1|].
  pose proof (nth_len _ _ _ W) as LI. pose proof (i_len _ _ _ _ V) as LG.
  cbn [patched] in P. rewrite T2 in P. unfold to_u32 in P. rewrite Z.mod_small in P by lia.
  destruct (2147483647 <=? to_u64 (Z.of_nat t - Z.of_nat i - 1))%Z eqn:C; [discriminate|].
  apply Z.leb_gt in C. unfold to_u64 in *.
  assert (IT : i < t).
  { destruct (Nat.lt_ge_cases i t) as [Q|Q]; [exact Q|]. exfalso.
    rewrite <- (Z_mod_plus_full _ 1) in C. rewrite Z.mod_small in C by lia. lia. }
  split; [exact IT|]. split.
  - apply imm_inv in P. rewrite Z.mod_small in P by lia. exact P.
  - intros j x J. eapply plain_final; eauto. unfold stub_ref. intros id'.
    destruct (find _ _); [discriminate|]. destruct (find _ _); discriminate.
Qed.
