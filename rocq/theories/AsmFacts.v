(** Facts about AsmModel: the printer, and the passes over the fixups. *)
From Coq Require Import ZArith NArith List Lia Bool.
From Verif Require Import Bytes GenModel BytesFacts NewFacts AsmModel AsmSpec.
Import ListNotations.
Open Scope res_scope.

(** ** Messages *)

Fixpoint laid (o : nat) (l : list pmsg) : Prop :=
  match l with
  | [] => True
  | m :: r => p_off m = o /\ p_len m = length (p_str m) + 1 /\ laid (o + p_len m) r
  end.
Definition body (l : list pmsg) : list N := flat_map (fun m => p_str m ++ [0%N]) l.

Lemma body_app : forall a b, body (a ++ b) = body a ++ body b.
Proof. intros. unfold body. apply flat_map_app. Qed.

Lemma laid_app : forall a o b, laid o (a ++ b) <-> laid o a /\ laid (o + length (body a)) b.
Proof.
  induction a as [|m a IH]; intros o b; cbn [app laid body flat_map length].
  - rewrite Nat.add_0_r. tauto.
  - rewrite IH. change (flat_map _ a) with (body a). rewrite !app_length. cbn [length].
    split.
    + intros (A & B & C & D). repeat split; auto. rewrite B in D. replace (o + (length (p_str m) + 1 + length (body a))) with (o + (length (p_str m) + 1) + length (body a)) by lia. exact D.
    + intros ((A & B & C) & D). repeat split; auto. rewrite B. replace (o + (length (p_str m) + 1) + length (body a)) with (o + (length (p_str m) + 1 + length (body a))) by lia. exact D.
Qed.

Lemma total_laid : forall l o, laid o l -> l <> [] -> total_size l = o + length (body l).
Proof.
  induction l as [|m l IH]; intros o L NE; [congruence|].
  destruct L as (A & B & C). cbn [body flat_map]. rewrite !app_length. cbn [length].
  change (flat_map _ l) with (body l).
  destruct l as [|m2 l].
  - cbn [total_size body flat_map length]. lia.
  - change (total_size (m :: m2 :: l)) with (total_size (m2 :: l)).
    rewrite (IH _ C) by congruence. lia.
Qed.
Lemma total_laid0 : forall l, laid 0 l -> total_size l = length (body l).
Proof.
  intros [|m l] L; [reflexivity|]. rewrite (total_laid _ _ L) by congruence. reflexivity.
Qed.

Lemma add_laid : forall l s l' m, laid 0 l -> add_msg l s = (l', m) ->
  laid 0 l' /\ In m l' /\ p_str m = s /\ p_len m = length s + 1 /\ exists e, l' = l ++ e.
Proof.
  intros l s l' m L A. unfold add_msg in A.
  destruct (find _ l) as [x|] eqn:F.
  - inversion A; subst. apply find_some in F. destruct F as (F1 & F2).
    apply bytes_eqb_eq in F2. repeat split; auto.
    + destruct (in_split _ _ F1) as (a & b & ->). apply laid_app in L. destruct L as (_ & L).
      destruct L as (_ & L & _). rewrite L, F2. reflexivity.
    + exists []. symmetry. apply app_nil_r.
  - inversion A; subst. clear A. cbn [p_str p_len]. repeat split; auto.
    + apply laid_app. split; [exact L|]. cbn [laid p_off p_len p_str]. rewrite (total_laid0 _ L). auto.
    + apply in_or_app. right. left. reflexivity.
    + eexists. reflexivity.
Qed.

Lemma blit_spec : forall a b c buf, length b <= length c -> buf = a ++ c ->
  blit buf (length a) b = a ++ b ++ skipn (length b) c.
Proof.
  intros a b c buf H ->. unfold blit.
  rewrite firstn_app, firstn_all, Nat.sub_diag. cbn [firstn]. rewrite app_nil_r.
  rewrite skipn_app. rewrite skipn_all2 by lia.
  replace (length a + length b - length a) with (length b) by lia. reflexivity.
Qed.

Lemma copy_ok : forall l pre buf, laid (length pre) l ->
  length buf = length (body l) -> copy_msgs (pre ++ buf) l = Ok (pre ++ body l).
Proof.
  induction l as [|m l IH]; intros pre buf L H; cbn [copy_msgs body flat_map].
  - cbn [body flat_map length] in H. destruct buf; [reflexivity|cbn in H; lia].
  - destruct L as (A & B & C). cbn [body flat_map] in H. rewrite app_length in H.
    change (flat_map _ l) with (body l) in *.
    rewrite app_length in H. cbn [length] in H.
    assert (G1 : (length (p_str m) + 1 <? p_len m) = false) by (apply Nat.ltb_ge; lia).
    assert (G2 : (length (pre ++ buf) <? p_off m + p_len m) = false)
      by (apply Nat.ltb_ge; rewrite app_length; lia).
    rewrite G1, G2. cbn [orb]. rewrite A, B.
    rewrite firstn_all2 by (rewrite app_length; cbn [length]; lia).
    rewrite (blit_spec pre (p_str m ++ [0%N]) buf) by (try reflexivity; rewrite app_length; cbn [length]; lia).
    rewrite app_assoc. rewrite IH.
    + rewrite <- app_assoc. reflexivity.
    + rewrite app_length, app_length. cbn [length]. rewrite B in C. exact C.
    + rewrite skipn_length, app_length. cbn [length]. lia.
Qed.

(** What is assembled never depends on what the allocation contained. *)
Lemma assemble_ok : forall junk l, laid 0 l ->
  assemble junk l = Ok (match l with [] => [0%N] | _ => body l end).
Proof.
  intros junk l L. unfold assemble. rewrite (total_laid0 _ L).
  destruct l as [|m l]; [reflexivity|].
  destruct (length (body (m :: l))) as [|n] eqn:B.
  { cbn [body flat_map] in B. rewrite !app_length in B. cbn [length] in B. lia. }
  rewrite <- B. change (copy_msgs (firstn (length (body (m :: l))) (junk (length (body (m :: l))) ++ repeat 0%N (length (body (m :: l))))) (m :: l))
    with (copy_msgs ([] ++ firstn (length (body (m :: l))) (junk (length (body (m :: l))) ++ repeat 0%N (length (body (m :: l))))) (m :: l)).
  rewrite copy_ok; [reflexivity|exact L|].
  rewrite firstn_length, app_length, repeat_length. lia.
Qed.

Lemma laid_text : forall l m, laid 0 l -> In m l -> text_at (body l) (p_off m) (p_str m)
  /\ p_off m + length (p_str m) + 1 <= length (body l).
Proof.
  intros l m L H. destruct (in_split _ _ H) as (a & b & ->).
  apply laid_app in L. destruct L as (_ & L). destruct L as (A & _ & _).
  rewrite body_app. cbn [body flat_map]. change (flat_map _ b) with (body b).
  cbn [Nat.add] in A. rewrite A. split.
  - unfold text_at. rewrite skipn_app, skipn_all, Nat.sub_diag. cbn [app skipn].
    rewrite firstn_app. rewrite firstn_all2 by (rewrite app_length; cbn [length]; lia).
    rewrite app_length. cbn [length]. rewrite Nat.sub_diag. cbn [firstn]. apply app_nil_r.
  - rewrite !app_length. cbn [length]. lia.
Qed.

(** ** Lists *)

Lemma wset_length : forall {A} (l : list A) i w, length (wset l i w) = length l.
Proof. induction l as [|x l IH]; intros [|i] w; cbn; auto. Qed.
Lemma wset_same : forall {A} (l : list A) i w, i < length l -> nth_error (wset l i w) i = Some w.
Proof. induction l as [|x l IH]; intros [|i] w H; cbn in *; try lia; auto. apply IH. lia. Qed.
Lemma wset_other : forall {A} (l : list A) i j w, i <> j -> nth_error (wset l i w) j = nth_error l j.
Proof.
  induction l as [|x l IH]; intros [|i] [|j] w H; cbn; try reflexivity; try lia.
  apply IH. lia.
Qed.
Lemma nth_len : forall {A} (l : list A) i x, nth_error l i = Some x -> i < length l.
Proof. intros. apply nth_error_Some. congruence. Qed.
Lemma nth_some : forall {A} (l : list A) i, i < length l -> exists x, nth_error l i = Some x.
Proof. intros A l i H. destruct (nth_error l i) eqn:E; [eauto|]. apply nth_error_None in E. lia. Qed.

(** ** A pass over the fixups *)

Lemma fixups_spec : forall sel E loc l img img' l',
  fixups sel E loc img l = Ok (img', l') -> NoDup (map fx_at l) ->
  l' = filter (fun f => negb (sel (fx_kind f))) l /\ length img' = length img
  /\ forall i w, nth_error img i = Some w ->
      (forall k, In (mkFx i k) l -> sel k = true ->
         exists w', patched E loc (length img) i k w = Ok w' /\ nth_error img' i = Some w')
      /\ ((forall k, In (mkFx i k) l -> sel k = false) -> nth_error img' i = Some w).
Proof.
  intros sel E loc. induction l as [|f l IH]; intros img img' l' H ND.
  - cbn in H. inversion H; subst. repeat split; auto. intros k [].
  - cbn [fixups] in H. cbn [map] in ND. inversion ND as [|? ? NI ND']; subst.
    destruct f as [fa fk]. cbn [fx_at fx_kind] in *.
    cbn [filter fx_kind]. destruct (sel fk) eqn:SE; cbn [negb].
    + destruct (nth_error img fa) as [w0|] eqn:N0; [|discriminate].
      destruct (patched E loc (length img) fa fk w0) as [w1|] eqn:P; [|discriminate].
      cbn [bind] in H. specialize (IH _ _ _ H ND'). destruct IH as (A & B & C).
      rewrite wset_length in B, C. split; [exact A|]. split; [exact B|].
      intros i w Hi. destruct (Nat.eq_dec i fa) as [->|NE].
      * rewrite N0 in Hi. inversion Hi; subst w0. clear Hi.
        assert (W : nth_error (wset img fa w1) fa = Some w1) by (apply wset_same; eapply nth_len; eauto).
        destruct (C _ _ W) as (C1 & C2).
        assert (K : forall k, In (mkFx fa k) l -> False).
        { intros k I1. apply NI. apply in_map_iff. exists (mkFx fa k). auto. }
        split.
        -- intros k [F|F] SK.
           ++ inversion F; subst. exists w1. split; [exact P|]. apply C2. intros k' I'. destruct (K _ I').
           ++ destruct (K _ F).
        -- intros G. specialize (G fk). rewrite SE in G. discriminate G. left. reflexivity.
      * assert (W : nth_error (wset img fa w1) i = Some w) by (rewrite wset_other by auto; exact Hi).
        destruct (C _ _ W) as (C1 & C2). split.
        -- intros k [F|F] SK; [inversion F; subst; congruence|]. apply C1; auto.
        -- intros G. apply C2. intros k I'. apply G. right. exact I'.
    + destruct (fixups sel E loc img l) as [[im fs]|] eqn:F1; [|discriminate]. cbn [bind fst snd] in H.
      inversion H; subst. specialize (IH _ _ _ F1 ND'). destruct IH as (A & B & C).
      split; [congruence|]. split; [exact B|].
      intros i w Hi. destruct (C _ _ Hi) as (C1 & C2). split.
      * intros k [F|F] SK; [inversion F; subst; congruence|]. apply C1; auto.
      * intros G. apply C2. intros k I'. apply G. right. exact I'.
Qed.
