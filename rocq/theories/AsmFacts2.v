(** The invariant of the program under construction. *)
From Coq Require Import ZArith NArith List Lia Bool.
From Verif Require Import Bytes GenModel BytesFacts NewFacts AsmModel AsmSpec AsmFacts.
Import ListNotations.
Open Scope res_scope.

Definition free (a : asm) (i : nat) : Prop := forall k, ~ In (mkFx i k) (a_fix a).
Definition none : kind -> bool := fun _ => false.
Definition orb2 (f g : kind -> bool) : kind -> bool := fun k => f k || g k.

Definition now (E : env) (D : kind -> bool) (a : asm) (i : nat) (g : ref) (w : word) : Prop :=
  match g with
  | R_ins x => w = x /\ free a i
  | R_skip x n => w = set_off x (to_s16 (Z.of_nat n)) /\ free a i
  | R_open x => w = x /\ In (mkFx i K_next) (a_fix a)
  | R_map k x =>
      if D (K_map k) then free a i /\ exists fd, e_fd E k = Some fd /\ w = set_imm x fd
      else w = x /\ In (mkFx i (K_map k)) (a_fix a)
  | R_call id =>
      if D (K_call id) then free a i /\ exists s, patched E (a_loc a) s i (K_call id) call_rel = Ok w
      else w = call_rel /\ In (mkFx i (K_call id)) (a_fix a)
  | R_text m => free a i /\ exists p, In p (a_msgs a) /\ p_str p = m /\ w = text_half (to_s32 (Z.of_nat (p_off p)))
  | R_len m => free a i /\ exists p, In p (a_msgs a) /\ p_str p = m /\ w = mov_len (to_s32 (Z.of_nat (length m + 1)))
  end.

Record Inv (E : env) (D : kind -> bool) (gs : list ref) (a : asm) : Prop := mkInv {
  i_len : length gs = length (a_img a);
  i_now : forall i g, nth_error gs i = Some g ->
            exists w, nth_error (a_img a) i = Some w /\ now E D a i g w;
  i_nd : NoDup (map fx_at (a_fix a));
  i_in : forall f, In f (a_fix a) -> fx_at f < length (a_img a);
  i_laid : laid 0 (a_msgs a) }.

Lemma one_kind : forall l i k1 k2, NoDup (map fx_at l) -> In (mkFx i k1) l -> In (mkFx i k2) l -> k1 = k2.
Proof.
  induction l as [|f l IH]; intros i k1 k2 ND H1 H2; [destruct H1|].
  cbn [map] in ND. inversion ND as [|? ? NI ND']; subst.
  destruct H1 as [H1|H1], H2 as [H2|H2].
  - congruence.
  - subst f. cbn in NI. destruct NI. apply in_map_iff. exists (mkFx i k2). auto.
  - subst f. cbn in NI. destruct NI. apply in_map_iff. exists (mkFx i k1). auto.
  - eapply IH; eauto.
Qed.

(** Emissions keep what is there. *)
Lemma now_grow : forall E a a' i g w, now E none a i g w ->
  (forall f, In f (a_fix a) -> In f (a_fix a')) ->
  (forall k, In (mkFx i k) (a_fix a') -> In (mkFx i k) (a_fix a)) ->
  (forall p, In p (a_msgs a) -> In p (a_msgs a')) -> now E none a' i g w.
Proof.
  intros E a a' i g w N F F2 M.
  assert (FR : free a i -> free a' i) by (intros G k I1; apply (G k), F2, I1).
  destruct g; cbn [now none] in *; try (destruct N as (A & B); split; auto; fail).
  - destruct N as (A & p & P1 & P2). split; auto. exists p. split; auto.
  - destruct N as (A & p & P1 & P2). split; auto. exists p. split; auto.
Qed.

Lemma inv_push : forall E gs a w g, Inv E none gs a ->
  now E none (push a w) (length (a_img a)) g w ->
  Inv E none (gs ++ [g]) (push a w).
Proof.
  intros E gs a w g V N. destruct V as [L W ND I1 LD]. constructor.
  - cbn [push a_img]. rewrite !app_length, L. reflexivity.
  - intros i g' H. destruct (Nat.lt_ge_cases i (length gs)) as [C|C].
    + rewrite nth_error_app1 in H by exact C. destruct (W _ _ H) as (w' & A & B).
      exists w'. cbn [push a_img]. rewrite nth_error_app1 by (eapply nth_len; eauto). split; [exact A|].
      eapply now_grow; eauto.
    + rewrite nth_error_app2 in H by exact C.
      destruct (i - length gs) as [|z] eqn:Z; [|destruct z; discriminate].
      cbn in H. inversion H; subst g'. assert (i = length (a_img a)) by lia. subst i.
      exists w. cbn [push a_img]. rewrite nth_error_app2 by lia. rewrite Nat.sub_diag. split; [reflexivity|exact N].
  - exact ND.
  - intros f F. cbn [push a_img a_fix] in *. rewrite app_length. specialize (I1 _ F). lia.
  - exact LD.
Qed.

Lemma inv_fix : forall E gs a w g k, Inv E none gs a ->
  now E none (push_fix a w k) (length (a_img a)) g w ->
  Inv E none (gs ++ [g]) (push_fix a w k).
Proof.
  intros E gs a w g k V N. destruct V as [L W ND I1 LD]. constructor.
  - cbn [push_fix a_img]. rewrite !app_length, L. reflexivity.
  - intros i g' H. destruct (Nat.lt_ge_cases i (length gs)) as [C|C].
    + rewrite nth_error_app1 in H by exact C. destruct (W _ _ H) as (w' & A & B).
      exists w'. cbn [push_fix a_img]. rewrite nth_error_app1 by (eapply nth_len; eauto). split; [exact A|].
      eapply now_grow; eauto; cbn [push_fix a_fix a_msgs].
      * intros f F. apply in_or_app. auto.
      * intros k' F. apply in_app_or in F. destruct F as [F|[F|[]]]; [exact F|]. inversion F. lia.
    + rewrite nth_error_app2 in H by exact C.
      destruct (i - length gs) as [|z] eqn:Z; [|destruct z; discriminate].
      cbn in H. inversion H; subst g'. assert (i = length (a_img a)) by lia. subst i.
      exists w. cbn [push_fix a_img]. rewrite nth_error_app2 by lia. rewrite Nat.sub_diag. split; [reflexivity|exact N].
  - cbn [push_fix a_fix]. rewrite map_app. cbn [map fx_at].
    rewrite <- (rev_involutive (map fx_at (a_fix a) ++ _)), rev_app_distr. apply NoDup_rev. cbn [rev app]. constructor; [|apply NoDup_rev; exact ND]. rewrite <- in_rev. intros C. apply in_map_iff in C. destruct C as (f & F1 & F2).
    specialize (I1 _ F2). lia.
  - intros f F. cbn [push_fix a_img a_fix] in *. rewrite app_length. cbn [length].
    apply in_app_or in F. destruct F as [F|[F|[]]]; [specialize (I1 _ F); lia|subst f; cbn; lia].
  - exact LD.
Qed.

Lemma inv_msgs : forall E gs a l, Inv E none gs a -> laid 0 l -> (exists e, l = a_msgs a ++ e) ->
  Inv E none gs (mkA (a_img a) (a_fix a) l (a_loc a)).
Proof.
  intros E gs a l V LD (e & ->). destruct V as [L W ND I1 _]. constructor; auto.
  intros i g H. destruct (W _ _ H) as (w & A & B). exists w. split; [exact A|].
  eapply now_grow; eauto. intros p P. cbn. apply in_or_app. auto.
Qed.

Lemma fresh_free : forall E D gs a, Inv E D gs a -> free a (length (a_img a)).
Proof. intros E D gs a V k F. apply (i_in _ _ _ _ V) in F. cbn in F. lia. Qed.

(** ** A pass at the end of the generation *)

Lemma filter_in : forall (sel : kind -> bool) l i k,
  In (mkFx i k) (filter (fun f => negb (sel (fx_kind f))) l) <-> In (mkFx i k) l /\ sel k = false.
Proof. intros. rewrite filter_In. cbn. destruct (sel k); cbn; intuition congruence. Qed.

Lemma NoDup_filter_map : forall (p : fixup -> bool) l, NoDup (map fx_at l) -> NoDup (map fx_at (filter p l)).
Proof.
  induction l as [|f l IH]; intros H; [constructor|].
  cbn [map] in H. inversion H as [|? ? NI ND]; subst. cbn [filter]. destruct (p f); [|auto].
  cbn [map]. constructor; [|auto]. intros C. apply NI. apply in_map_iff in C. destruct C as (x & X1 & X2).
  apply filter_In in X2. apply in_map_iff. exists x. tauto.
Qed.

Lemma imm_inv : forall b w v w', patch_imm b w v = Ok w' -> w' = set_imm w v.
Proof. intros b w v w' H. unfold patch_imm in H. destruct (b && _); [discriminate|]. inversion H. reflexivity. Qed.

Lemma inv_pass : forall E D gs a sel a', Inv E D gs a -> fix_all sel E a = Ok a' ->
  sel K_next = false -> (forall k, D k = true -> sel k = false) ->
  Inv E (orb2 D sel) gs a' /\ a_loc a' = a_loc a /\ a_msgs a' = a_msgs a.
Proof.
  intros E D gs a sel a' V H SN DS. destruct V as [L W ND I1 LD].
  unfold fix_all in H. destruct (fixups sel E (a_loc a) (a_img a) (a_fix a)) as [[im fs]|] eqn:F; [|discriminate].
  cbn [bind fst snd] in H. inversion H; subst a'. clear H.
  pose proof (fixups_spec _ _ _ _ _ _ _ F ND) as (A & B & C). subst fs.
  split; [|split; reflexivity].
  constructor; cbn [a_img a_fix a_msgs a_loc].
  - congruence.
  - intros i g Hg. destruct (W _ _ Hg) as (w & Hw & N). destruct (C _ _ Hw) as (C1 & C2).
    assert (FR : free a i -> free (mkA im (filter (fun f => negb (sel (fx_kind f))) (a_fix a)) (a_msgs a) (a_loc a)) i).
    { intros G k F1. cbn [a_fix] in F1. apply filter_in in F1. apply (G k). tauto. }
    assert (FK : free a i -> nth_error im i = Some w).
    { intros G. apply C2. intros k K. destruct (G _ K). }
    assert (KEEP : forall k, In (mkFx i k) (a_fix a) -> sel k = false -> nth_error im i = Some w
               /\ In (mkFx i k) (filter (fun f => negb (sel (fx_kind f))) (a_fix a))).
    { intros k K S0. split; [|apply filter_in; auto]. apply C2. intros k' K'.
      rewrite (one_kind _ _ _ _ ND K' K). exact S0. }
    assert (DONE : forall k, In (mkFx i k) (a_fix a) -> sel k = true ->
               free (mkA im (filter (fun f => negb (sel (fx_kind f))) (a_fix a)) (a_msgs a) (a_loc a)) i).
    { intros k K S1 k' F1. cbn [a_fix] in F1. apply filter_in in F1. destruct F1 as (F1 & F2).
      rewrite (one_kind _ _ _ _ ND F1 K) in F2. congruence. }
    destruct g; cbn [now] in *.
    + destruct N as (N1 & N2). exists w. split; [apply FK; exact N2|split; [exact N1|apply FR; exact N2]].
    + destruct N as (N1 & N2). exists w. split; [apply FK; exact N2|split; [exact N1|apply FR; exact N2]].
    + destruct N as (N1 & N2). destruct (KEEP _ N2 SN) as (K1 & K2). subst; eexists; split; [exact K1|split; [reflexivity|exact K2]].
    + unfold orb2. destruct (D (K_map k)) eqn:DK.
      * cbn [orb]. destruct N as (N1 & N2). exists w. split; [apply FK; exact N1|split; [apply FR; exact N1|exact N2]].
      * cbn [orb]. destruct N as (N1 & N2). subst w. destruct (sel (K_map k)) eqn:SK.
        -- destruct (C1 _ N2 SK) as (w' & P & Q). exists w'. split; [exact Q|]. split; [eapply DONE; eauto|].
           cbn [patched] in P. destruct (e_fd E k) as [fd|]; [|discriminate]. apply imm_inv in P. eauto.
        -- destruct (KEEP _ N2 SK) as (K1 & K2). subst; eexists; split; [exact K1|split; [reflexivity|exact K2]].
    + unfold orb2. destruct (D (K_call id)) eqn:DK.
      * cbn [orb]. destruct N as (N1 & N2). exists w. split; [apply FK; exact N1|split; [apply FR; exact N1|exact N2]].
      * cbn [orb]. destruct N as (N1 & N2). subst w. destruct (sel (K_call id)) eqn:SK.
        -- destruct (C1 _ N2 SK) as (w' & P & Q). exists w'. split; [exact Q|]. split; [eapply DONE; eauto|].
           eexists. exact P.
        -- destruct (KEEP _ N2 SK) as (K1 & K2). subst; eexists; split; [exact K1|split; [reflexivity|exact K2]].
    + destruct N as (N1 & N2). exists w. split; [apply FK; exact N1|split; [apply FR; exact N1|exact N2]].
    + destruct N as (N1 & N2). exists w. split; [apply FK; exact N1|split; [apply FR; exact N1|exact N2]].
  - apply NoDup_filter_map. exact ND.
  - intros f F1. apply filter_In in F1. rewrite B. apply I1. tauto.
  - exact LD.
Qed.

(** ** The end of a rule *)

Fixpoint finish (gs : list ref) (d : nat) : list ref :=
  match gs with
  | [] => []
  | g :: r => match g with R_open w => R_skip w (length r + d) | _ => g end :: finish r d
  end.
Lemma finish_length : forall gs d, length (finish gs d) = length gs.
Proof. induction gs; intros; cbn; auto. Qed.
Lemma finish_nth : forall gs d i g, nth_error gs i = Some g ->
  nth_error (finish gs d) i = Some (match g with R_open w => R_skip w (length gs - i - 1 + d) | _ => g end).
Proof.
  induction gs as [|x gs IH]; intros d [|i] g H; cbn [nth_error finish length] in *; try discriminate.
  - inversion H; subst. rewrite Nat.sub_0_r. replace (S (length gs) - 1) with (length gs) by lia. reflexivity.
  - rewrite (IH _ _ _ H). replace (S (length gs) - S i - 1) with (length gs - i - 1) by lia. reflexivity.
Qed.

Lemma off_inv : forall b w v w', patch_off b w v = Ok w' -> w' = set_off w (to_s16 v).
Proof.
  intros b w v w' H. unfold patch_off in H. destruct (b && _); [discriminate|]. destruct (b && _); [discriminate|].
  inversion H. reflexivity.
Qed.
Lemma s16_small : forall z, (0 <= z < 32768)%Z -> to_s16 z = z.
Proof.
  intros z H. unfold to_s16. rewrite Z.mod_small by lia.
  assert (G : (z <? 32768)%Z = true) by (apply Z.ltb_lt; lia). rewrite G. reflexivity.
Qed.
Lemma s32_small : forall z, (0 <= z < 2147483648)%Z -> to_s32 z = z.
Proof.
  intros z H. unfold to_s32. rewrite Z.mod_small by lia.
  assert (G : (z <? 2147483648)%Z = true) by (apply Z.ltb_lt; lia). rewrite G. reflexivity.
Qed.

Lemma inv_end : forall E gs a a', Inv E none gs a -> fix_all is_next E a = Ok a' ->
  (Z.of_nat (length (a_img a)) < 2147483648)%Z -> Inv E none (finish gs 0) a'.
Proof.
  intros E gs a a' V H SZ. destruct V as [L W ND I1 LD].
  unfold fix_all in H. destruct (fixups is_next E (a_loc a) (a_img a) (a_fix a)) as [[im fs]|] eqn:F; [|discriminate].
  cbn [bind fst snd] in H. inversion H; subst a'. clear H.
  pose proof (fixups_spec _ _ _ _ _ _ _ F ND) as (A & B & C). subst fs.
  constructor; cbn [a_img a_fix a_msgs a_loc].
  - rewrite finish_length. congruence.
  - intros i g Hg.
    assert (HL : i < length gs) by (apply nth_len in Hg; rewrite finish_length in Hg; exact Hg).
    destruct (nth_some gs i HL) as (g0 & Hg0). rewrite (finish_nth _ _ _ _ Hg0) in Hg. inversion Hg; subst g. clear Hg.
    destruct (W _ _ Hg0) as (w & Hw & N). destruct (C _ _ Hw) as (C1 & C2).
    set (a2 := mkA im (filter (fun f => negb (is_next (fx_kind f))) (a_fix a)) (a_msgs a) (a_loc a)).
    assert (FR : free a i -> free a2 i).
    { intros G k F1. cbn [a2 a_fix] in F1. apply filter_in in F1. apply (G k). tauto. }
    assert (FK : free a i -> nth_error im i = Some w).
    { intros G. apply C2. intros k K. destruct (G _ K). }
    assert (KEEP : forall k, In (mkFx i k) (a_fix a) -> is_next k = false -> nth_error im i = Some w
               /\ In (mkFx i k) (a_fix a2)).
    { intros k K S0. split; [|apply filter_in; auto]. apply C2. intros k' K'.
      rewrite (one_kind _ _ _ _ ND K' K). exact S0. }
    destruct g0; cbn [now none] in *.
    + destruct N as (N1 & N2). exists w. split; [apply FK; exact N2|split; [exact N1|apply FR; exact N2]].
    + destruct N as (N1 & N2). exists w. split; [apply FK; exact N2|split; [exact N1|apply FR; exact N2]].
    + destruct N as (N1 & N2). destruct (C1 _ N2 eq_refl) as (w' & P & Q). exists w'. split; [exact Q|].
      split.
      * cbn [patched] in P. rewrite s32_small in P by lia. apply off_inv in P. subst w w'. f_equal. f_equal. lia.
      * intros k F1. cbn [a2 a_fix] in F1. apply filter_in in F1. destruct F1 as (F1 & F2).
        rewrite (one_kind _ _ _ _ ND F1 N2) in F2. discriminate.
    + destruct N as (N1 & N2). destruct (KEEP _ N2 eq_refl) as (K1 & K2). subst; eexists; split; [exact K1|split; [reflexivity|exact K2]].
    + destruct N as (N1 & N2). destruct (KEEP _ N2 eq_refl) as (K1 & K2). subst; eexists; split; [exact K1|split; [reflexivity|exact K2]].
    + destruct N as (N1 & N2). exists w. split; [apply FK; exact N1|split; [apply FR; exact N1|exact N2]].
    + destruct N as (N1 & N2). exists w. split; [apply FK; exact N1|split; [apply FR; exact N1|exact N2]].
  - apply NoDup_filter_map. exact ND.
  - intros f F1. apply filter_In in F1. rewrite B. apply I1. tauto.
  - exact LD.
Qed.
