(** When a program can be put together, and that memory does not matter. *)
From Coq Require Import ZArith NArith List Lia Bool.
From Verif Require Import Bytes GenModel BytesFacts NewFacts AsmModel AsmSpec AsmFacts AsmFacts2 AsmFacts3 AsmFacts4.
Import ListNotations.
Open Scope res_scope.

(** ** The printer is always well laid out *)
Lemma step_laid : forall E a s a', do_step E a s = Ok a' -> laid 0 (a_msgs a) -> laid 0 (a_msgs a').
Proof.
  intros E a s a' H L. destruct s; cbn [do_step] in H; try (inversion H; subst; exact L).
  - destruct (add_msg (a_msgs a) m) as (l, x) eqn:AM. inversion H; subst. cbn.
    apply (add_laid _ _ _ _ L AM).
  - apply fix_all_len in H. destruct H as (_ & _ & ->). exact L.
Qed.
Lemma steps_laid : forall E l a a', do_steps E a l = Ok a' -> laid 0 (a_msgs a) -> laid 0 (a_msgs a').
Proof.
  induction l as [|s l IH]; intros a a' H L; cbn [do_steps] in H; [inversion H; subst; exact L|].
  destruct (do_step E a s) as [a1|] eqn:S1; [|discriminate]. eapply IH; [exact H|]. eapply step_laid; eauto.
Qed.
Lemma places_laid : forall s l a a', place_strs s a l = Ok a' -> laid 0 (a_msgs a) -> laid 0 (a_msgs a').
Proof.
  induction l as [|p l IH]; intros a a' H L; cbn [place_strs] in H; [inversion H; subst; exact L|].
  destruct (place_str s a p) as [a1|] eqn:S1; [|discriminate]. eapply IH; [exact H|].
  unfold place_str in S1. destruct (add_msg (a_msgs a) (snd p)) as (l', x) eqn:AM.
  destruct (_ <=? _); [discriminate|]. destruct (_ <=? _); [discriminate|]. inversion S1; subst. cbn.
  apply (add_laid _ _ _ _ L AM).
Qed.
Lemma stubs_laid : forall E fs a a', gen_stubs E fs a = Ok a' -> laid 0 (a_msgs a) -> laid 0 (a_msgs a').
Proof.
  intros E. induction fs as [|f fs IH]; intros a a' H L; cbn [gen_stubs] in H; [inversion H; subst; exact L|].
  destruct (fx_kind f); try (eapply IH; eauto; fail).
  destruct (a_loc a id =? 0)%Z; [|eapply IH; eauto].
  destruct (e_stub E id) as [st|]; [|discriminate].
  destruct (place_strs _ _ (st_strs st)) as [x|] eqn:P; [|discriminate]. cbn [bind] in H.
  eapply IH; [exact H|]. cbn [a_msgs]. eapply places_laid; eauto.
Qed.

Lemma link_junk : forall E junk junk' l, link E junk l = link E junk' l.
Proof.
  intros E junk junk' l. unfold link.
  destruct (do_steps E asm0 l) as [a1|] eqn:S1; [|reflexivity]. cbn [bind].
  destruct (gen_stubs E (a_fix a1) a1) as [a2|] eqn:S2; [|reflexivity]. cbn [bind].
  destruct (fix_all is_call E a2) as [a3|] eqn:S3; [|reflexivity]. cbn [bind].
  destruct (fix_all is_set E a3) as [a4|] eqn:S4; [|reflexivity]. cbn [bind].
  destruct (fix_all is_counters E a4) as [a5|] eqn:S5; [|reflexivity]. cbn [bind].
  apply fix_all_len in S3, S4, S5. destruct S3 as (_ & _ & M3), S4 as (_ & _ & M4), S5 as (_ & _ & M5).
  assert (L : laid 0 (a_msgs a5)).
  { rewrite M5, M4, M3. eapply stubs_laid; [exact S2|]. eapply steps_laid; [exact S1|exact Logic.I]. }
  rewrite !assemble_ok by exact L. reflexivity.
Qed.

(** ** Passes succeed *)
Lemma fixups_total : forall sel E loc l img, NoDup (map fx_at l) ->
  (forall f, In f l -> sel (fx_kind f) = true ->
     exists w w', nth_error img (fx_at f) = Some w /\ patched E loc (length img) (fx_at f) (fx_kind f) w = Ok w') ->
  exists p, fixups sel E loc img l = Ok p.
Proof.
  induction l as [|f l IH]; intros img ND G; cbn [fixups]; [eauto|].
  cbn [map] in ND. inversion ND as [|? ? NI ND']; subst.
  destruct (sel (fx_kind f)) eqn:SE.
  - destruct (G f (or_introl eq_refl) SE) as (w & w' & N & P). rewrite N, P. cbn [bind].
    apply IH; [exact ND'|]. intros f1 F1 S1. destruct (G f1 (or_intror F1) S1) as (w1 & w1' & N1 & P1).
    rewrite wset_length. exists w1, w1'. split; [|exact P1].
    rewrite wset_other; [exact N1|]. intros C. apply NI. rewrite C. apply in_map. exact F1.
  - destruct (IH img ND') as (p & P); [intros f1 F1 S1; apply G; auto; right; exact F1|].
    rewrite P. cbn [bind]. eauto.
Qed.
Lemma pass_total : forall sel E D gs a, Inv E D gs a ->
  (forall i k w, In (mkFx i k) (a_fix a) -> sel k = true -> nth_error (a_img a) i = Some w ->
     exists w', patched E (a_loc a) (length (a_img a)) i k w = Ok w') ->
  exists a', fix_all sel E a = Ok a'.
Proof.
  intros sel E D gs a V G. unfold fix_all.
  destruct (fixups_total sel E (a_loc a) (a_fix a) (a_img a) (i_nd _ _ _ _ V)) as (p & P).
  - intros [fa fk] F S1. cbn [fx_at fx_kind] in *.
    destruct (nth_some (a_img a) fa) as (w & W); [exact (i_in _ _ _ _ V _ F)|].
    destruct (G _ _ _ F S1 W) as (w' & P). eauto.
  - rewrite P. cbn [bind]. eauto.
Qed.

(** What a fixup is for. *)
Lemma fix_ref : forall E D gs a i k, Inv E D gs a -> In (mkFx i k) (a_fix a) ->
  match k with
  | K_next => exists w, nth_error gs i = Some (R_open w) /\ nth_error (a_img a) i = Some w
  | K_map m => exists w, nth_error gs i = Some (R_map m w) /\ nth_error (a_img a) i = Some w
  | K_call id => nth_error gs i = Some (R_call id) /\ nth_error (a_img a) i = Some call_rel
  end.
Proof.
  intros E D gs a i k V F. pose proof (i_in _ _ _ _ V _ F) as LI. cbn in LI.
  rewrite <- (i_len _ _ _ _ V) in LI. destruct (nth_some gs i LI) as (g & G).
  destruct (i_now _ _ _ _ V _ _ G) as (w & W & N).
  assert (NF : free a i -> False) by (intros H; exact (H _ F)).
  destruct g; cbn [now] in N.
  - destruct (NF (proj2 N)).
  - destruct (NF (proj2 N)).
  - destruct N as (-> & N). rewrite (one_kind _ _ _ _ (i_nd _ _ _ _ V) F N). eauto.
  - destruct (D (K_map k0)); [destruct (NF (proj1 N))|]. destruct N as (-> & N).
    rewrite (one_kind _ _ _ _ (i_nd _ _ _ _ V) F N). eauto.
  - destruct (D (K_call id)); [destruct (NF (proj1 N))|]. destruct N as (-> & N).
    rewrite (one_kind _ _ _ _ (i_nd _ _ _ _ V) F N). eauto.
  - destruct (NF (proj1 N)).
  - destruct (NF (proj1 N)).
Qed.

Lemma imm_ok : forall b w v, w_imm w = 0%Z -> patch_imm b w v = Ok (set_imm w v).
Proof. intros b w v H. unfold patch_imm. rewrite H. destruct b; reflexivity. Qed.

Lemma fin_keep : forall gs o g i, nth_error gs i = Some g -> (forall w, g <> R_open w) -> nth_error (fin gs o) i = Some g.
Proof.
  intros gs [d|] g i H N; [|exact H]. cbn [fin]. rewrite (finish_nth _ _ _ _ H). destruct g; try reflexivity. destruct (N w eq_refl).
Qed.

Lemma steps_total : forall E l a gs, Inv E none gs a ->
  (forall r, In r (fin gs (to_end l) ++ layout l) -> ready E r) ->
  (Z.of_nat (length gs + length (layout l)) < 2147483648)%Z ->
  exists a', do_steps E a l = Ok a'.
Proof.
  induction l as [|s l IH]; intros a gs V R SZ; [cbn; eauto|].
  cbn [do_steps]. destruct (do_step E a s) as [a1|] eqn:S1; cbn [bind].
  - (* one step on: the same layout *)
    assert (V1 : exists gs1, Inv E none gs1 a1 /\ fin gs1 (to_end l) ++ layout l = fin gs (to_end (s :: l)) ++ layout (s :: l)).
    { destruct s.
      + inversion S1; subst a1. exists (gs ++ [R_ins w]). split.
        * apply inv_push; [exact V|]. split; [reflexivity|exact (fresh_free _ _ _ _ V)].
        * rewrite fin_app, <- app_assoc. cbn [to_end layout width length]. destruct (to_end l); reflexivity.
      + inversion S1; subst a1. exists (gs ++ [R_open w]). split.
        * apply inv_fix; [exact V|]. split; [reflexivity|]. cbn. apply in_or_app. right. left. reflexivity.
        * rewrite fin_app, <- app_assoc. cbn [to_end layout width length]. destruct (to_end l); reflexivity.
      + inversion S1; subst a1. exists (gs ++ [R_map k w]). split.
        * apply inv_fix; [exact V|]. cbn [now none]. split; [reflexivity|]. cbn. apply in_or_app. right. left. reflexivity.
        * rewrite fin_app, <- app_assoc. cbn [to_end layout width length]. destruct (to_end l); reflexivity.
      + inversion S1; subst a1. exists (gs ++ [R_call id]). split.
        * apply inv_fix; [exact V|]. cbn [now none]. split; [reflexivity|]. cbn. apply in_or_app. right. left. reflexivity.
        * rewrite fin_app, <- app_assoc. cbn [to_end layout width length]. destruct (to_end l); reflexivity.
      + pose proof (inv_print _ _ _ _ _ V S1) as V1. eexists. split; [exact V1|].
        rewrite fin_app, <- app_assoc. cbn [to_end layout width length]. destruct (to_end l); reflexivity.
      + cbn [do_step] in S1. exists (finish gs 0). split.
        * eapply inv_end; eauto. rewrite <- (i_len _ _ _ _ V). lia.
        * cbn [to_end layout fin]. destruct (to_end l); cbn [fin]; [rewrite finish_twice|]; reflexivity. }
    destruct V1 as (gs1 & V1 & Q). eapply IH; [exact V1|rewrite Q; exact R|].
    assert (LQ : length (fin gs1 (to_end l) ++ layout l) = length (fin gs (to_end (s :: l)) ++ layout (s :: l))) by (rewrite Q; reflexivity).
    rewrite !app_length, !fin_length in LQ. lia.
  - exfalso. destruct s; cbn [do_step] in S1; try discriminate.
    + destruct (add_msg (a_msgs a) m). discriminate.
    + destruct (pass_total is_next E none gs a V) as (a' & A); [|congruence].
      intros i k w F K W. destruct k as [|k|id]; try discriminate.
      destruct (fix_ref _ _ _ _ _ _ V F) as (w0 & G & W0). rewrite W in W0. inversion W0; subst w0.
      pose proof (finish_nth gs 0 i _ G) as FN. cbn in FN.
      assert (RD : ready E (R_skip w (length gs - i - 1 + 0))).
      { apply R. cbn [to_end fin layout]. apply in_or_app. left. eapply nth_error_In. exact FN. }
      destruct RD as (R1 & R2). pose proof (nth_len _ _ _ G) as LI. pose proof (i_len _ _ _ _ V) as LG.
      cbn [patched]. rewrite s32_small by (rewrite <- LG; lia). unfold patch_off. rewrite R1. cbn [Z.eqb negb]. rewrite andb_false_r.
      assert (C : (Z.of_nat (length (a_img a)) - Z.of_nat i - 1 <? 32767)%Z = true) by (apply Z.ltb_lt; lia).
      rewrite C, andb_false_r. eauto.
Qed.

(** ** Stubs fit *)
Definition fsize (E : env) (f : fixup) : nat :=
  match fx_kind f with K_call id => call_size E (R_call id) | _ => 0 end.

Lemma places_total : forall s l a, (forall p, In p l -> S (s + fst p) < length (a_img a)) ->
  exists a', place_strs s a l = Ok a'.
Proof.
  induction l as [|p l IH]; intros a H; [cbn; eauto|]. cbn [place_strs].
  pose proof (H p (or_introl eq_refl)) as HP. unfold place_str at 1.
  destruct (add_msg (a_msgs a) (snd p)) as (l', m).
  assert (B1 : (length (a_img a) <=? s + fst p) = false) by (apply Nat.leb_gt; lia).
  assert (B2 : (length (a_img a) <=? S (s + fst p)) = false) by (apply Nat.leb_gt; lia).
  rewrite B1, B2. cbn [bind]. apply IH. intros q Q. cbn [a_img]. rewrite !wset_length. apply H. right. exact Q.
Qed.

Lemma stubs_total : forall E fs a,
  (forall id st, e_stub E id = Some st -> loads_apart st) ->
  (forall f id, In f fs -> fx_kind f = K_call id -> e_stub E id <> None) ->
  exists a', gen_stubs E fs a = Ok a' /\ length (a_img a') <= length (a_img a) + list_sum (map (fsize E) fs).
Proof.
  intros E. induction fs as [|f fs IH]; intros a AP H; [exists a; cbn; split; [reflexivity|lia]|].
  assert (H' : forall f id, In f fs -> fx_kind f = K_call id -> e_stub E id <> None) by (intros; eapply H; eauto; right; eauto).
  assert (SK : exists a', gen_stubs E fs a = Ok a' /\ length (a_img a') <= length (a_img a) + list_sum (map (fsize E) (f :: fs))).
  { destruct (IH a AP H') as (a' & A & B). exists a'. split; [exact A|].
    change (list_sum (map (fsize E) (f :: fs))) with (fsize E f + list_sum (map (fsize E) fs)). lia. }
  cbn [gen_stubs]. destruct (fx_kind f) as [|k|id] eqn:KF; try exact SK.
  destruct (a_loc a id =? 0)%Z; [|exact SK].
  pose proof (H f id (or_introl eq_refl) KF) as NN. destruct (e_stub E id) as [st|] eqn:ES; [|congruence].
  destruct (AP _ _ ES) as (_ & IN). rewrite Forall_forall in IN.
  destruct (places_total (length (a_img a)) (st_strs st) (mkA (a_img a ++ st_insns st) (a_fix a) (a_msgs a) (a_loc a))) as (a1 & A1).
  { intros p P. cbn [a_img]. rewrite app_length. specialize (IN _ P). lia. }
  rewrite A1. cbn [bind]. destruct (IH (mkA (a_img a1) (a_fix a1) (a_msgs a1)
       (fun j => if Nat.eqb j id then to_u32 (Z.of_nat (length (a_img a))) else a_loc a1 j)) AP H') as (a' & A & B).
  exists a'. split; [exact A|]. cbn [a_img] in B. apply places_len in A1. cbn [a_img] in A1. rewrite app_length in A1.
  change (list_sum (map (fsize E) (f :: fs))) with (fsize E f + list_sum (map (fsize E) fs)).
  unfold fsize at 1. rewrite KF. cbn [call_size]. rewrite ES. lia.
Qed.

Lemma sum_app : forall a b, list_sum (a ++ b) = list_sum a + list_sum b.
Proof. apply list_sum_app. Qed.
Lemma filter_sum : forall E (l : list fixup),
  list_sum (map (fsize E) (filter (fun f => negb (is_next (fx_kind f))) l)) = list_sum (map (fsize E) l).
Proof.
  intros E. induction l as [|f l IH]; [reflexivity|]. cbn [filter].
  change (list_sum (map (fsize E) (f :: l))) with (fsize E f + list_sum (map (fsize E) l)).
  destruct (is_next (fx_kind f)) eqn:N; cbn [negb].
  - rewrite IH. unfold fsize at 2. destruct (fx_kind f); try discriminate. reflexivity.
  - change (list_sum (map (fsize E) (f :: ?x))) with (fsize E f + list_sum (map (fsize E) x)).
    cbn [map list_sum fold_right]. change (fold_right Nat.add 0) with list_sum. rewrite IH. reflexivity.
Qed.
Lemma fixups_fixes : forall sel E loc l img p, fixups sel E loc img l = Ok p ->
  snd p = filter (fun f => negb (sel (fx_kind f))) l.
Proof.
  intros sel E loc. induction l as [|f l IH]; intros img p H; cbn [fixups] in H; [inversion H; reflexivity|].
  cbn [filter]. destruct (sel (fx_kind f)) eqn:SE; cbn [negb].
  - destruct (nth_error img (fx_at f)); [|discriminate]. destruct (patched _ _ _ _ _ _); [|discriminate].
    cbn [bind] in H. eapply IH; exact H.
  - destruct (fixups sel E loc img l) as [q|] eqn:F; [|discriminate]. cbn [bind] in H. inversion H; subst. cbn [snd].
    rewrite (IH _ _ F). reflexivity.
Qed.
Lemma steps_sum : forall E l a a', do_steps E a l = Ok a' ->
  list_sum (map (fsize E) (a_fix a')) = list_sum (map (fsize E) (a_fix a)) + list_sum (map (call_size E) (layout l)).
Proof.
  induction l as [|s l IH]; intros a a' H; cbn [do_steps] in H.
  - inversion H; subst. cbn. lia.
  - destruct (do_step E a s) as [a1|] eqn:S1; [|discriminate]. cbn [bind] in H. apply IH in H. rewrite H.
    destruct s; cbn [do_step] in S1.
    + inversion S1; subst. reflexivity.
    + inversion S1; subst. cbn [push_fix a_fix layout]. rewrite map_app, sum_app.
      destruct (to_end l); cbn; unfold list_sum; lia.
    + inversion S1; subst. cbn [push_fix a_fix layout]. rewrite map_app, sum_app. cbn. unfold list_sum. lia.
    + inversion S1; subst. cbn [push_fix a_fix layout]. rewrite map_app, sum_app. cbn. unfold list_sum. lia.
    + destruct (add_msg (a_msgs a) m) as (l', x). inversion S1; subst. cbn [push_fix push a_fix layout]. rewrite map_app, sum_app. cbn. unfold list_sum. lia.
    + unfold fix_all in S1. destruct (fixups _ _ _ _ _) as [p|] eqn:F; [|discriminate]. cbn [bind] in S1. inversion S1; subst.
      cbn [a_fix layout]. rewrite (fixups_fixes _ _ _ _ _ _ F), filter_sum. reflexivity.
Qed.

(** ** It succeeds *)
Lemma link_total : forall E junk l,
  (forall r, In r (layout l) -> ready E r) ->
  (forall id st, e_stub E id = Some st -> loads_apart st) ->
  e_fd E M_printer <> None ->
  (Z.of_nat (at_most E l) < 2147483648)%Z ->
  exists img buf, link E junk l = Ok (img, buf) /\ length img <= at_most E l.
Proof.
  intros E junk l RD AP FP SZ. unfold at_most in *.
  destruct (steps_total E l asm0 [] (inv0 E)) as (a1 & S1).
  { intros r R. apply RD. destruct (to_end l); exact R. }
  { cbn [length]. lia. }
  unfold link. rewrite S1. cbn [bind].
  pose proof (steps_len _ _ _ _ S1) as (_ & LOC1). pose proof (steps_sum _ _ _ _ S1) as SUM. change (list_sum (map (fsize E) (a_fix asm0))) with 0 in SUM.
  pose proof (steps_laid _ _ _ _ S1 Logic.I) as LD1.
  assert (SZL : (Z.of_nat (length (layout l)) < 2147483648)%Z) by lia.
  assert (V1 : Inv E none (layout l) a1).
  { assert (LA : length (a_img a1) <= length (layout l)).
    { clear - S1. assert (G : forall l a a', do_steps E a l = Ok a' -> length (a_img a') = length (a_img a) + length (layout l)).
      { clear. induction l as [|s l IH]; intros a a' H; cbn [do_steps] in H; [inversion H; subst; cbn; lia|].
        destruct (do_step E a s) as [a1|] eqn:S1; [|discriminate]. cbn [bind] in H. rewrite (IH _ _ H).
        destruct s; cbn [do_step] in S1; cbn [layout].
        - inversion S1; subst. cbn. rewrite app_length. cbn. lia.
        - inversion S1; subst. cbn. rewrite app_length. cbn. lia.
        - inversion S1; subst. cbn. rewrite app_length. cbn. lia.
        - inversion S1; subst. cbn. rewrite app_length. cbn. lia.
        - destruct (add_msg (a_msgs a) m). inversion S1; subst. cbn. rewrite !app_length. cbn. lia.
        - apply fix_all_len in S1. lia. }
      rewrite (G _ _ _ S1). cbn. lia. }
    replace (layout l) with (fin [] (to_end l) ++ layout l) by (destruct (to_end l); reflexivity).
    eapply inv_steps; [apply inv0|exact S1|lia]. }
  assert (LA1 : length (a_img a1) = length (layout l)) by (symmetry; exact (i_len _ _ _ _ V1)).
  destruct (stubs_total E (a_fix a1) a1 AP) as (a2 & S2 & LA2).
  { intros [i k] id F K. cbn in K. subst k. destruct (fix_ref _ _ _ _ _ _ V1 F) as (G & _).
    exact (RD _ (nth_error_In _ _ G)). }
  rewrite S2. cbn [bind].
  assert (SZ2 : length (a_img a2) <= length (layout l) + list_sum (map (call_size E) (layout l))) by lia.
  assert (LO1 : loc_ok E (length (layout l)) (layout l) (a_loc a1)) by (intros id C; rewrite LOC1 in C; cbn in C; congruence).
  assert (NE : length (a_img a1) <> 0 \/ a_fix a1 = []).
  { destruct (a_fix a1) as [|f fs] eqn:FX; [auto|]. left. pose proof (i_in _ _ _ _ V1 f) as Q. rewrite FX in Q. specialize (Q (or_introl eq_refl)). lia. }
  assert (SZ2z : (Z.of_nat (length (a_img a2)) < 2147483648)%Z) by lia.
  destruct (inv_stubs _ _ _ _ _ _ V1 (le_n _) LO1 AP NE S2 SZ2z) as (more & V2 & LO2 & _ & _ & CL & TM).
  rewrite Forall_forall in TM.
  assert (LD2 : laid 0 (a_msgs a2)) by exact (i_laid _ _ _ _ V2).
  set (gs := layout l ++ more) in *.
  assert (RM : forall k w, In (R_map k w) gs -> w_imm w = 0%Z /\ (e_fd E k <> None \/ k = M_log \/ k = M_state)).
  { intros k w G. apply in_app_or in G. destruct G as [G|G]; [exact (RD _ G)|]. apply TM in G. destruct G as (-> & ->). split; [reflexivity|auto]. }
  assert (CALLS : forall i id, nth_error gs i = Some (R_call id) -> i < length (layout l) /\ a_loc a2 id <> 0%Z).
  { intros i id G. assert (I0 : i < length (layout l)).
    { destruct (Nat.lt_ge_cases i (length (layout l))) as [C|C]; [exact C|]. unfold gs in G. rewrite nth_error_app2 in G by exact C.
      apply nth_error_In, TM in G. destruct G. }
    split; [exact I0|]. unfold gs in G. rewrite nth_error_app1 in G by exact I0.
    destruct (i_now _ _ _ _ V1 _ _ G) as (w & _ & (_ & IN)). exact (CL _ _ IN eq_refl). }
  (* one pass over maps *)
  assert (MAPS : forall D a sel, Inv E D gs a -> (forall k, sel k = true -> exists m, k = K_map m /\ (e_fd E m <> None \/ (m <> M_log /\ m <> M_state))) ->
            exists a', fix_all sel E a = Ok a').
  { intros D a sel V SM. eapply pass_total; [exact V|]. intros i k w F K W.
    destruct (SM _ K) as (m & -> & EM). destruct (fix_ref _ _ _ _ _ _ V F) as (w0 & G & W0). rewrite W in W0. inversion W0; subst w0.
    destruct (RM _ _ (nth_error_In _ _ G)) as (R1 & R2). cbn [patched].
    destruct (e_fd E m) as [fd|] eqn:FD; [|exfalso; destruct EM as [EM|(E1 & E2)]; [congruence|]; destruct R2 as [R2|[R2|R2]]; congruence].
    rewrite imm_ok by exact R1. eauto. }
  destruct (pass_total is_call E none gs a2 V2) as (a3 & S3).
  { intros i k w F K W. destruct k as [|k|id]; try discriminate.
    destruct (fix_ref _ _ _ _ _ _ V2 F) as (G & W0). rewrite W in W0. inversion W0; subst w.
    destruct (CALLS _ _ G) as (I0 & NZ). destruct (LO2 _ NZ) as (t & st & T1 & T2 & T3 & T4).
    cbn [patched]. rewrite T2. unfold to_u32. pose proof (i_len _ _ _ _ V2) as LG.
    rewrite Z.mod_small by lia. unfold to_u64. rewrite Z.mod_small by lia.
    assert (C : (2147483647 <=? Z.of_nat t - Z.of_nat i - 1)%Z = false) by (apply Z.leb_gt; lia).
    rewrite C. rewrite imm_ok by reflexivity. eauto. }
  rewrite S3. cbn [bind]. destruct (inv_pass _ _ _ _ _ _ V2 S3 eq_refl) as (V3 & _ & M3); [discriminate|].
  destruct (MAPS _ _ is_set V3) as (a4 & S4).
  { intros [|[]|] K; try discriminate. eexists. split; [reflexivity|]. right. split; discriminate. }
  rewrite S4. cbn [bind]. destruct (inv_pass _ _ _ _ _ _ V3 S4 eq_refl) as (V4 & _ & M4); [intros [|[]|]; try discriminate; reflexivity|].
  destruct (MAPS _ _ is_counters V4) as (a5 & S5).
  { intros [|[]|] K; try discriminate. eexists. split; [reflexivity|]. right. split; discriminate. }
  rewrite S5. cbn [bind]. destruct (inv_pass _ _ _ _ _ _ V4 S5 eq_refl) as (V5 & _ & M5); [intros [|[]|]; try discriminate; reflexivity|].
  rewrite assemble_ok by (rewrite M5, M4, M3; exact LD2). cbn [bind].
  destruct (MAPS _ _ is_printer V5) as (a6 & S6).
  { intros [|[]|] K; try discriminate. eexists. split; [reflexivity|]. left. exact FP. }
  rewrite S6. cbn [bind]. destruct (inv_pass _ _ _ _ _ _ V5 S6 eq_refl) as (V6 & _ & M6); [intros [|[]|]; try discriminate; reflexivity|].
  assert (S7 : exists a7, fix_if M_log is_log E a6 = Ok a7).
  { unfold fix_if. destruct (e_fd E M_log) eqn:FL; [|eauto]. apply (MAPS _ _ is_log V6).
    intros [|[]|] K; try discriminate. eexists. split; [reflexivity|]. left. congruence. }
  destruct S7 as (a7 & S7). rewrite S7. cbn [bind].
  destruct (fix_if_pass _ _ _ _ _ _ _ V6 S7 eq_refl) as (D7 & V7 & _ & _ & L7 & _ & B7 & _); [intros [|[]|]; try discriminate; reflexivity|].
  assert (S8 : exists a8, fix_if M_state is_state E a7 = Ok a8).
  { unfold fix_if. destruct (e_fd E M_state) eqn:FL; [|eauto]. apply (MAPS _ _ is_state V7).
    intros [|[]|] K; try discriminate. eexists. split; [reflexivity|]. left. congruence. }
  destruct S8 as (a8 & S8). rewrite S8. cbn [bind].
  eexists. eexists. split; [reflexivity|].
  assert (L8 : length (a_img a8) = length (a_img a7)).
  { unfold fix_if in S8. destruct (e_fd E M_state); [apply (fix_all_len _ _ _ _ S8)|inversion S8; reflexivity]. }
  apply fix_all_len in S3, S4, S5, S6. lia.
Qed.

(** ** A rule of more than 32767 instructions *)
Lemma do_ins E : forall ws a r, do_steps E a (map E_ins ws ++ r) = do_steps E (mkA (a_img a ++ ws) (a_fix a) (a_msgs a) (a_loc a)) r.
Proof.
  induction ws as [|w ws IH]; intros a r; cbn [map app].
  - rewrite app_nil_r. destruct a. reflexivity.
  - cbn [do_steps do_step bind]. rewrite IH. unfold push. cbn [a_img a_fix a_msgs a_loc]. rewrite <- app_assoc. reflexivity.
Qed.
Lemma link_far E junk w ws r : e_debug E = true -> (32767 <= Z.of_nat (length ws) < 2147483647)%Z ->
  link E junk (E_next w :: map E_ins ws ++ E_end :: r) = Er EABORT.
Proof.
  intros DB H. unfold link. cbn [do_steps do_step bind]. rewrite do_ins. cbn [push_fix asm0 a_img a_fix a_msgs a_loc app].
  cbn [do_steps do_step]. unfold fix_all. cbn [a_img a_fix a_msgs a_loc fixups is_next fx_kind fx_at nth_error length patched].
  rewrite s32_small by lia.
  replace (Z.of_nat (S (length ws)) - Z.of_nat 0 - 1)%Z with (Z.of_nat (length ws)) by lia.
  unfold patch_off. rewrite DB. cbn [andb]. destruct (negb (w_off w =? 0)%Z); [reflexivity|].
  assert (C : (Z.of_nat (length ws) <? 32767)%Z = false) by (apply Z.ltb_ge; lia). rewrite C. reflexivity.
Qed.

(** Without assertions the jump goes where 16 bits say. *)
Lemma link_wrong E junk w ws : e_debug E = false -> e_fd E M_log = None -> e_fd E M_state = None ->
  (Z.of_nat (length ws) < 2147483647)%Z ->
  link E junk (E_next w :: map E_ins ws ++ [E_end]) = Ok (set_off w (to_s16 (Z.of_nat (length ws))) :: ws, [0%N]).
Proof.
  intros DB FL FS H. unfold link. cbn [do_steps do_step bind]. rewrite do_ins. cbn [push_fix asm0 a_img a_fix a_msgs a_loc app].
  cbn [do_steps do_step]. unfold fix_all at 1. cbn [a_img a_fix a_msgs a_loc fixups is_next fx_kind fx_at nth_error length patched].
  rewrite s32_small by lia.
  replace (Z.of_nat (S (length ws)) - Z.of_nat 0 - 1)%Z with (Z.of_nat (length ws)) by lia.
  unfold patch_off. rewrite DB. cbn [andb bind wset fixups fst snd a_fix gen_stubs].
  unfold fix_all, fix_if. rewrite FL, FS. reflexivity.
Qed.
