(** The byte buffer of a bf_vector represents a sequence of elements. *)
From Coq Require Import NArith List Bool Arith Lia.
From Verif Require Import Bytes GenModel HashModel VecSpec VecModel.
Import ListNotations.
Local Open Scope res_scope.
Local Open Scope N_scope.

Definition nlen {A} (l : list A) : N := N.of_nat (length l).
Definition sized (esz : N) (l : list (list N)) : Prop := Forall (fun e => nlen e = esz) l.

Record vrep (esz : N) (v : vec) (l : list (list N)) : Prop := mkVR
  { vr_esz : v_esz v = esz
  ; vr_sized : sized esz l
  ; vr_size : v_size v = nlen l
  ; vr_fit : v_size v <= v_cap v
  ; vr_alloc : nlen (v_data v) = v_cap v * esz
  ; vr_bound : v_cap v * esz < two64
  ; vr_data : exists rest, v_data v = concat l ++ rest }.

Lemma nlen_app {A} (a b : list A) : nlen (a ++ b) = nlen a + nlen b.
Proof. unfold nlen. rewrite app_length. lia. Qed.
Lemma concat_len esz l : sized esz l -> nlen (concat l) = nlen l * esz.
Proof.
  induction 1 as [|e r He Hr IH]; [reflexivity|]. cbn [concat]. rewrite nlen_app, IH, He.
  unfold nlen. cbn [length]. lia.
Qed.
Lemma sized_app esz a b : sized esz (a ++ b) <-> sized esz a /\ sized esz b.
Proof. apply Forall_app. Qed.

Lemma copy_in_mid a b c src off : off = nlen a -> nlen src = nlen b ->
  copy_in (a ++ b ++ c) off src = Ok (a ++ src ++ c).
Proof.
  intros -> E. unfold copy_in. unfold nlen in *. rewrite !app_length.
  destruct (N.leb_spec (N.of_nat (length a) + N.of_nat (length src))
     (N.of_nat (length a + (length b + length c)))) as [_|H]; [|lia].
  f_equal. rewrite Nat2N.id. rewrite firstn_app, firstn_all, Nat.sub_diag. cbn [firstn]. rewrite app_nil_r.
  f_equal. f_equal. apply Nat2N.inj in E. rewrite E.
  rewrite skipn_app. rewrite skipn_all2 by lia. cbn [app].
  replace (length a + length b - length a)%nat with (length b) by lia.
  now rewrite skipn_app, skipn_all, Nat.sub_diag.
Qed.
Lemma copy_out_mid a b c off n : off = nlen a -> n = nlen b ->
  copy_out (a ++ b ++ c) off n = Ok b.
Proof.
  intros -> ->. unfold copy_out, nlen. rewrite !app_length.
  destruct (N.leb_spec (N.of_nat (length a) + N.of_nat (length b))
     (N.of_nat (length a + (length b + length c)))) as [_|H]; [|lia].
  rewrite !Nat2N.id. rewrite skipn_app, skipn_all, Nat.sub_diag. cbn [app skipn].
  now rewrite firstn_app, firstn_all, Nat.sub_diag, app_nil_r.
Qed.
Lemma firstn_nlen (e : list N) n : nlen e = n -> firstn (N.to_nat n) e = e.
Proof. intros <-. unfold nlen. rewrite Nat2N.id. apply firstn_all. Qed.
Lemma mul64_small a b : a * b < two64 -> mul64 a b = a * b.
Proof. intros H. unfold mul64. now apply N.mod_small. Qed.

Lemma split_at (l : list (list N)) i : i < nlen l ->
  exists l1 e l2, l = l1 ++ e :: l2 /\ nlen l1 = i /\
    nth_error l (N.to_nat i) = Some e /\ firstn (N.to_nat i) l = l1 /\ skipn (S (N.to_nat i)) l = l2.
Proof.
  intros H. unfold nlen in *.
  destruct (nth_error l (N.to_nat i)) as [e|] eqn:E.
  2:{ apply nth_error_None in E. lia. }
  destruct (nth_error_split _ _ E) as (l1 & l2 & -> & E1).
  exists l1, e, l2. split; [reflexivity|]. split; [lia|]. split; [reflexivity|]. split.
  - rewrite <- E1, firstn_app, firstn_all, Nat.sub_diag. apply app_nil_r.
  - rewrite <- E1. replace (S (length l1)) with (length l1 + 1)%nat by lia.
    rewrite skipn_app, skipn_all2 by lia.
    replace (length l1 + 1 - length l1)%nat with 1%nat by lia. reflexivity.
Qed.

Section Facts.
Variable esz : N.
Hypothesis Hesz : 0 < esz.

Lemma vrep_new : esz < two64 -> vrep esz (vec_new esz) [].
Proof.
  intros H. constructor; cbn; try reflexivity; try lia; [constructor|exists []; reflexivity].
Qed.

Lemma vec_get_ok v l i : vrep esz v l -> vec_get v i = Ok (nth_error l (N.to_nat i)).
Proof.
  intros [E1 E2 E3 E4 E5 E6 [rest E7]]. unfold vec_get. rewrite E3.
  destruct (N.leb_spec (nlen l) i) as [H|H].
  - f_equal. symmetry. apply nth_error_None. unfold nlen in H. lia.
  - destruct (split_at l i H) as (l1 & e & l2 & El & Hi & -> & _ & _).
    rewrite E1, E7, El, concat_app. cbn [concat]. rewrite <- !app_assoc.
    rewrite El in E2. apply sized_app in E2 as [S1 S2]. inversion S2 as [|? ? S3 S4]; subst x l0.
    rewrite copy_out_mid; [reflexivity| |now symmetry].
    rewrite mul64_small; [now rewrite (concat_len esz l1 S1), Hi|].
    assert (i * esz <= v_cap v * esz) by (apply N.mul_le_mono_r; lia).
    lia.
Qed.

Lemma vec_set_ok v l i e : vrep esz v l -> nlen e = esz ->
  (nlen l <= i -> vec_set v i e = Ok (v, EINVAL)) /\
  (i < nlen l -> exists v', vec_set v i e = Ok (v', 0) /\ vrep esz v' (replace_at l (N.to_nat i) e)).
Proof.
  intros R He. pose proof R as [E1 E2 E3 E4 E5 E6 [rest E7]]. unfold vec_set. rewrite E3.
  split; intros H.
  - destruct (N.leb_spec (nlen l) i); [reflexivity|lia].
  - destruct (N.leb_spec (nlen l) i); [lia|].
    destruct (split_at l i H) as (l1 & x & l2 & El & Hi & _ & F1 & F2).
    rewrite E1, firstn_nlen by assumption.
    rewrite El in E2. apply sized_app in E2 as [S1 S2]. inversion S2 as [|? ? S3 S4]; subst x0 l0.
    assert (Hd : v_data v = concat l1 ++ x ++ (concat l2 ++ rest)).
    { rewrite E7, El, concat_app. cbn [concat]. now rewrite <- !app_assoc. }
    rewrite Hd, copy_in_mid; [| |congruence].
    2:{ rewrite mul64_small; [now rewrite (concat_len esz l1 S1), Hi|].
        assert (i * esz <= v_cap v * esz) by (apply N.mul_le_mono_r; lia). lia. }
    cbn [bind]. eexists. split; [reflexivity|].
    unfold replace_at. rewrite F1, F2. constructor; cbn [v_data v_size v_cap v_esz].
    + first [assumption|reflexivity].
    + apply sized_app. split; [assumption|]. constructor; assumption.
    + rewrite El. rewrite !nlen_app. reflexivity.
    + lia.
    + rewrite <- E5, Hd, !nlen_app. congruence.
    + assumption.
    + exists rest. rewrite concat_app. cbn [concat]. now rewrite <- !app_assoc.
Qed.

Lemma vec_remove_ok v l i : vrep esz v l ->
  (nlen l <= i -> vec_remove v i = Ok (v, EINVAL)) /\
  (i < nlen l -> exists v', vec_remove v i = Ok (v', 0) /\ vrep esz v' (remove_at l (N.to_nat i))).
Proof.
  intros R. pose proof R as [E1 E2 E3 E4 E5 E6 [rest E7]]. unfold vec_remove. rewrite E3.
  split; intros H.
  - destruct (N.leb_spec (nlen l) i); [reflexivity|lia].
  - destruct (N.leb_spec (nlen l) i); [lia|].
    destruct (split_at l i H) as (l1 & x & l2 & El & Hi & _ & F1 & F2).
    rewrite E1.
    rewrite El in E2. apply sized_app in E2 as [S1 S2]. inversion S2 as [|? ? S3 S4]; subst x0 l0.
    assert (Hlen : nlen l = i + 1 + nlen l2).
    { rewrite El, nlen_app, Hi. unfold nlen. cbn [length]. lia. }
    assert (B : forall a, a <= v_cap v -> mul64 a esz = a * esz).
    { intros a Ha. apply mul64_small. assert (a * esz <= v_cap v * esz) by (apply N.mul_le_mono_r; lia). lia. }
    assert (Hd : v_data v = concat l1 ++ x ++ (concat l2 ++ rest)).
    { rewrite E7, El, concat_app. cbn [concat]. now rewrite <- !app_assoc. }
    assert (G : exists rest',
      (if i <? nlen l - 1 then
         src <- copy_out (v_data v) (mul64 (add64 i 1) esz) (mul64 (nlen l - 1 - i) esz) ;
         copy_in (v_data v) (mul64 i esz) src
       else Ok (v_data v)) = Ok (concat l1 ++ concat l2 ++ rest') /\
      nlen (concat l1 ++ concat l2 ++ rest') = nlen (v_data v)).
    { assert (L1 : nlen (concat l1) = i * esz) by (rewrite (concat_len esz l1 S1); now rewrite Hi).
      assert (L2 : nlen (concat l2) = nlen l2 * esz) by (apply concat_len; assumption).
      destruct (N.ltb_spec i (nlen l - 1)) as [Hlt|Hge].
      - assert (Ha : add64 i 1 = i + 1).
        { unfold add64. apply N.mod_small.
          assert (v_cap v * 1 <= v_cap v * esz) by (apply N.mul_le_mono_l; lia). lia. }
        rewrite Ha, !B by lia.
        rewrite Hd.
        assert (O : copy_out (concat l1 ++ x ++ concat l2 ++ rest) ((i + 1) * esz) ((nlen l - 1 - i) * esz)
                    = Ok (concat l2)).
        { rewrite app_assoc. apply copy_out_mid.
          - rewrite nlen_app, L1, S3. lia.
          - rewrite L2. f_equal. lia. }
        rewrite O. cbn [bind].
        (* overwrite the first |concat l2| bytes after concat l1 *)
        set (tl := x ++ concat l2 ++ rest).
        assert (Hsp : tl = firstn (length (concat l2)) tl ++ skipn (length (concat l2)) tl)
          by (symmetry; apply firstn_skipn).
        exists (skipn (length (concat l2)) tl).
        rewrite Hsp at 1.
        assert (Hfl : nlen (concat l2) = nlen (firstn (length (concat l2)) tl)).
        { unfold nlen, tl. rewrite firstn_length, !app_length. f_equal. lia. }
        rewrite copy_in_mid; [|now rewrite L1|exact Hfl].
        split; [reflexivity|].
        fold tl. rewrite Hsp at 2. rewrite !nlen_app, <- Hfl. reflexivity.
      - assert (l2 = []) as ->.
        { destruct l2; [reflexivity|]. unfold nlen in *. cbn [length] in *. lia. }
        exists (x ++ rest). cbn [concat app] in *. rewrite Hd. split; reflexivity. }
    destruct G as (rest' & -> & Hnl). cbn [bind].
    eexists. split; [reflexivity|]. unfold remove_at. rewrite F1, F2.
    constructor; cbn [v_data v_size v_cap v_esz].
    + first [assumption|reflexivity].
    + apply sized_app. split; assumption.
    + rewrite nlen_app. lia.
    + lia.
    + rewrite Hnl. assumption.
    + assumption.
    + exists rest'. rewrite concat_app. now rewrite <- app_assoc.
Qed.

Lemma vec_resize_ok rm jk v l c : vrep esz v l -> v_cap v <= c ->
  exists v' rc, vec_resize rm jk v c = (v', rc) /\ vrep esz v' l /\
    ((rc = 0 /\ v_cap v' = c) \/ (refusal rc /\ v' = v /\ (rm (c * esz) = false \/ two64 <= c * esz))).
Proof.
  intros R Hc. pose proof R as [E1 E2 E3 E4 E5 E6 [rest E7]]. unfold vec_resize. rewrite E1.
  destruct (N.leb_spec two64 (c * esz)) as [H|H].
  { exists v, EOVERFLOW. split; [reflexivity|]. split; [assumption|]. right. split; [now right|]. auto. }
  unfold realloc. destruct (rm (c * esz)) eqn:Er.
  - eexists _, 0. split; [reflexivity|]. split; [|now left].
    assert (Hle : (length (v_data v) <= N.to_nat (c * esz))%nat).
    { assert (v_cap v * esz <= c * esz) by (apply N.mul_le_mono_r; lia). unfold nlen in E5. lia. }
    constructor; cbn [v_data v_size v_cap v_esz].
    + first [assumption|reflexivity].
    + assumption.
    + assumption.
    + lia.
    + rewrite firstn_all2 by assumption. rewrite nlen_app. unfold nlen at 2.
      rewrite map_length, seq_length. unfold nlen. lia.
    + assumption.
    + rewrite firstn_all2 by assumption. exists (rest ++ map jk (seq 0 (N.to_nat (c * esz) - length (v_data v)))).
      rewrite E7 at 1. now rewrite <- app_assoc.
  - exists v, ENOMEM. split; [reflexivity|]. split; [assumption|]. right. split; [now left|]. auto.
Qed.

Lemma big m : V_MAX <= m -> two64 <= 2 * m * esz.
Proof.
  intros H. apply N.le_trans with (2 * m * 1); [unfold V_MAX, two64 in *; lia|].
  apply N.mul_le_mono_l. lia.
Qed.

(** Growth fails only when the allocator refuses or the result could not be
    addressed; it never touches the contents. *)
Lemma vec_grow_ok rm jk v l req : vrep esz v l ->
  exists v' rc, vec_grow rm jk v req = (v', rc) /\ vrep esz v' l /\
    ((rc = 0 /\ req <= v_cap v' /\ v_cap v <= v_cap v') \/
     (refusal rc /\ v' = v /\ v_cap v < req /\
      ((exists n, rm n = false) \/ two64 <= 2 * N.max (N.max req (v_cap v)) 8 * esz))).
Proof.
  intros R. pose proof R as [E1 E2 E3 E4 E5 E6 [rest E7]]. unfold vec_grow.
  destruct (N.leb_spec req (v_cap v)) as [H|H].
  { exists v, 0. split; [reflexivity|]. split; [assumption|]. left. split; [reflexivity|lia]. }
  destruct (N.leb_spec V_MAX (v_cap v)) as [Hm|Hm].
  { exists v, ENOMEM. split; [reflexivity|]. split; [assumption|]. right. split; [now left|].
    split; [reflexivity|]. split; [assumption|]. right. apply big. lia. }
  set (c0 := if v_cap v =? 0 then V_INIT else add64 (v_cap v) (v_cap v / 2)).
  assert (Hdiv : v_cap v / 2 * 2 <= v_cap v) by (rewrite N.mul_comm; apply N.mul_div_le; lia).
  assert (C0 : v_cap v <= c0 /\ c0 <= 2 * N.max (v_cap v) 8).
  { unfold c0. destruct (N.eqb_spec (v_cap v) 0) as [->|]; [unfold V_INIT; lia|].
    unfold add64. revert Hdiv. generalize (v_cap v / 2). intros q Hdiv.
    rewrite N.mod_small by (unfold V_MAX, two64 in *; lia). lia. }
  destruct (N.ltb_spec (N.min (N.max c0 req) V_MAX) req) as [Hr|Hr].
  { exists v, ENOMEM. split; [reflexivity|]. split; [assumption|]. right. split; [now left|].
    split; [reflexivity|]. split; [assumption|]. right. apply big. lia. }
  destruct (vec_resize_ok rm jk v l (N.min (N.max c0 req) V_MAX) R ltac:(lia))
    as (v' & rc & E & R' & C).
  exists v', rc. split; [assumption|]. split; [assumption|].
  destruct C as [[-> C]|(C1 & C2 & C3)].
  - left. split; [reflexivity|]. rewrite C. lia.
  - right. split; [assumption|]. split; [assumption|]. split; [assumption|].
    destruct C3 as [C3|C3]; [left; eauto|right].
    eapply N.le_trans; [exact C3|]. apply N.mul_le_mono_r. lia.
Qed.

Lemma append_ok v l es : vrep esz v l -> sized esz es -> nlen l + nlen es <= v_cap v ->
  exists d, copy_in (v_data v) (mul64 (v_size v) esz) (concat es) = Ok d /\
    vrep esz (mkV d (v_size v + nlen es) (v_cap v) (v_esz v)) (l ++ es).
Proof.
  intros R S Hfit. pose proof R as [E1 E2 E3 E4 E5 E6 [rest E7]].
  pose proof (concat_len esz l E2) as L1. pose proof (concat_len esz es S) as L2.
  assert (Hr : nlen (concat es) <= nlen rest).
  { rewrite E7, nlen_app, L1 in E5. nia. }
  assert (Hsp : rest = firstn (length (concat es)) rest ++ skipn (length (concat es)) rest)
    by (symmetry; apply firstn_skipn).
  assert (Hfl : nlen (concat es) = nlen (firstn (length (concat es)) rest)).
  { unfold nlen in *. rewrite firstn_length. f_equal. lia. }
  exists (concat l ++ concat es ++ skipn (length (concat es)) rest). split.
  - rewrite E7. rewrite Hsp at 1. apply copy_in_mid; [|exact Hfl].
    rewrite L1, E3. apply mul64_small. nia.
  - constructor; cbn [v_data v_size v_cap v_esz].
    + first [assumption|reflexivity].
    + apply sized_app. auto.
    + rewrite nlen_app. lia.
    + lia.
    + rewrite <- E5, E7. rewrite Hsp at 2. rewrite !nlen_app, <- Hfl. reflexivity.
    + assumption.
    + exists (skipn (length (concat es)) rest). rewrite concat_app. now rewrite <- app_assoc.
Qed.

Definition no_room (rm : N -> bool) (req cap : N) : Prop :=
  (exists n, rm n = false) \/ two64 <= 2 * N.max (N.max req cap) 8 * esz.

Lemma vec_add_many_ok rm jk v l es : vrep esz v l -> sized esz es ->
  exists v' rc l', vec_add_many rm jk v (concat es) (nlen es) = Ok (v', rc) /\ vrep esz v' l' /\
   ((rc = 0 /\ l' = l ++ es) \/
    (refusal rc /\ es <> [] /\ l' = l /\ v' = v /\ no_room rm (nlen l + nlen es) (v_cap v))).
Proof.
  intros R S. pose proof R as [E1 E2 E3 E4 E5 E6 [rest E7]]. unfold vec_add_many.
  destruct (N.eqb_spec (nlen es) 0) as [H0|H0].
  { destruct es; [|discriminate H0]. exists v, 0, l. split; [reflexivity|]. split; [assumption|].
    left. now rewrite app_nil_r. }
  assert (Hne : es <> []) by (intros ->; now apply H0).
  rewrite E3. destruct (N.leb_spec two64 (nlen l + nlen es)) as [Ho|Ho].
  { exists v, ENOMEM, l. split; [reflexivity|]. split; [assumption|]. right.
    split; [now left|]. split; [assumption|]. split; [reflexivity|]. split; [reflexivity|].
    right. apply big. unfold V_MAX, two64 in *. lia. }
  destruct (vec_grow_ok rm jk v l (nlen l + nlen es) R) as (w & rc & E & R' & C).
  rewrite E. cbn [fst snd].
  destruct C as [(-> & C1 & C2)|(C1 & -> & C3 & C4)].
  - cbn [N.eqb]. pose proof R' as [F1 F2 F3 F4 F5 F6 F7].
    destruct (append_ok w l es R' S C1) as (d & Ed & Rd).
    rewrite F1 in *. rewrite (mul64_small (nlen es) esz) by nia.
    rewrite firstn_nlen by (now apply concat_len). rewrite Ed. cbn [bind].
    eexists _, 0, (l ++ es). split; [reflexivity|]. split; [exact Rd|]. now left.
  - assert (Hrc : (rc =? 0) = false) by (destruct C1 as [->| ->]; reflexivity). rewrite Hrc.
    exists v, rc, l. split; [reflexivity|]. split; [assumption|]. right. auto 6.
Qed.

Lemma vec_add_ok rm jk v l e : vrep esz v l -> nlen e = esz ->
  exists v' rc l', vec_add rm jk v e = Ok (v', rc) /\ vrep esz v' l' /\
   ((rc = 0 /\ l' = l ++ [e]) \/
    (refusal rc /\ l' = l /\ v' = v /\ no_room rm (nlen l + 1) (v_cap v))).
Proof.
  intros R He. pose proof R as [E1 E2 E3 E4 E5 E6 [rest E7]]. unfold vec_add.
  rewrite E3. destruct (N.leb_spec two64 (nlen l + 1)) as [Ho|Ho].
  { exists v, ENOMEM, l. split; [reflexivity|]. split; [assumption|]. right.
    split; [now left|]. split; [reflexivity|]. split; [reflexivity|].
    right. apply big. unfold V_MAX, two64 in *. lia. }
  destruct (vec_grow_ok rm jk v l (nlen l + 1) R) as (w & rc & E & R' & C).
  rewrite E. cbn [fst snd].
  destruct C as [(-> & C1 & C2)|(C1 & -> & C3 & C4)].
  - cbn [N.eqb]. pose proof R' as [F1 F2 F3 F4 F5 F6 F7].
    destruct (append_ok w l [e] R') as (d & Ed & Rd); [constructor; [assumption|constructor]|exact C1|].
    cbn [concat] in Ed. rewrite app_nil_r in Ed. rewrite F1 in *.
    rewrite firstn_nlen by assumption. rewrite Ed. cbn [bind].
    eexists _, 0, (l ++ [e]). split; [reflexivity|]. split; [exact Rd|]. now left.
  - assert (Hrc : (rc =? 0) = false) by (destruct C1 as [->| ->]; reflexivity). rewrite Hrc.
    exists v, rc, l. split; [reflexivity|]. split; [assumption|]. right. auto.
Qed.

Lemma vec_reserve_ok rm jk v l n : vrep esz v l ->
  exists v' rc, vec_reserve rm jk v n = (v', rc) /\ vrep esz v' l /\
   ((rc = 0 /\ n <= v_cap v') \/ (refusal rc /\ v' = v)).
Proof.
  intros R. unfold vec_reserve. destruct (N.leb_spec n (v_cap v)) as [H|H].
  { exists v, 0. split; [reflexivity|]. split; [assumption|]. left. split; [reflexivity|lia]. }
  destruct (N.ltb_spec V_MAX n).
  { exists v, ENOMEM. split; [reflexivity|]. split; [assumption|]. right. split; [now left|reflexivity]. }
  destruct (vec_resize_ok rm jk v l n R ltac:(lia)) as (v' & rc & E & R' & C).
  exists v', rc. split; [assumption|]. split; [assumption|].
  destruct C as [[-> C]|(C1 & C2 & _)]; [left; split; [reflexivity|lia]|right; auto].
Qed.

Lemma vec_walk_ok buf : forall l fuel pre rest stop, sized esz l -> (length l < fuel)%nat ->
  buf = pre ++ concat l ++ rest -> stop = nlen pre + nlen (concat l) ->
  vec_walk fuel buf esz (nlen pre) stop = Ok l.
Proof.
  induction l as [|e r IH]; intros fuel pre rest stop S Hf Hb Hs;
    (destruct fuel as [|k]; [cbn [length] in Hf; lia|]); cbn [vec_walk].
  - destruct (N.leb_spec stop (nlen pre)); [reflexivity|]. cbn in Hs. lia.
  - inversion S as [|? ? S1 S2]; subst x l. cbn [concat] in *. rewrite nlen_app in Hs.
    destruct (N.leb_spec stop (nlen pre)); [lia|].
    rewrite <- app_assoc in Hb. rewrite Hb at 1. rewrite copy_out_mid by auto. cbn [bind].
    replace (nlen pre + esz) with (nlen (pre ++ e)) by (rewrite nlen_app; congruence).
    rewrite (IH k (pre ++ e) rest stop); [reflexivity|assumption|cbn [length] in Hf; lia| |].
    + now rewrite <- app_assoc.
    + rewrite nlen_app. lia.
Qed.

Lemma vec_read_ok v l : vrep esz v l -> vec_read v = Ok l.
Proof.
  intros R. pose proof R as [E1 E2 E3 E4 E5 E6 [rest E7]]. unfold vec_read.
  destruct (v_data v) as [|b buf] eqn:Ed.
  - destruct l as [|e r]; [reflexivity|]. exfalso. inversion E2 as [|? ? S1 S2]; subst.
    destruct e; [cbn in S1; lia|discriminate E7].
  - rewrite E1. rewrite mul64_small by nia.
    apply (vec_walk_ok (b :: buf) l (S (N.to_nat (v_size v))) [] rest).
    + assumption.
    + rewrite E3. unfold nlen. lia.
    + exact E7.
    + rewrite E3, (concat_len esz l E2). cbn. reflexivity.
Qed.

Lemma vrep_nil v l : vrep esz v l -> vrep esz (mkV [] 0 0 (v_esz v)) [].
Proof.
  intros R. constructor; cbn [v_data v_size v_cap v_esz]; try reflexivity; try lia.
  - exact (vr_esz _ _ _ R).
  - constructor.
  - exists []. reflexivity.
Qed.

Lemma vec_call_ok v l o : vrep esz v l -> vvalid esz o ->
  exists v' a l', vec_call v o = Ok (v', a) /\ vrep esz v' l' /\ vstep esz l o a l'.
Proof.
  intros R V. destruct o; cbn [vec_call vvalid] in *.
  - destruct (vec_add_ok room junk v l e R V) as (v' & rc & l' & E & R' & C). rewrite E. cbn [bind fst snd].
    exists v', (VCode rc), l'. split; [reflexivity|]. split; [assumption|].
    destruct C as [[-> ->]|(C & -> & _)]; now constructor.
  - destruct (vec_add_many_ok room junk v l es R V) as (v' & rc & l' & E & R' & C).
    fold (nlen es). rewrite E. cbn [bind fst snd].
    exists v', (VCode rc), l'. split; [reflexivity|]. split; [assumption|].
    destruct C as [[-> ->]|(C & C2 & -> & _)]; now constructor.
  - destruct (vec_set_ok v l i e R V) as [S1 S2].
    destruct (N.lt_ge_cases i (nlen l)) as [H|H].
    + destruct (S2 H) as (v' & E & R'). rewrite E. cbn [bind fst snd].
      eexists _, _, _. split; [reflexivity|]. split; [exact R'|]. now constructor.
    + rewrite (S1 H). cbn [bind fst snd]. exists v, (VCode EINVAL), l. split; [reflexivity|].
      split; [assumption|]. now constructor.
  - destruct (vec_remove_ok v l i R) as [S1 S2].
    destruct (N.lt_ge_cases i (nlen l)) as [H|H].
    + destruct (S2 H) as (v' & E & R'). rewrite E. cbn [bind fst snd].
      eexists _, _, _. split; [reflexivity|]. split; [exact R'|]. now constructor.
    + rewrite (S1 H). cbn [bind fst snd]. exists v, (VCode EINVAL), l. split; [reflexivity|].
      split; [assumption|]. now constructor.
  - rewrite (vec_get_ok v l i R). cbn [bind]. eexists _, _, _. split; [reflexivity|].
    split; [exact R|]. constructor.
  - destruct (vec_reserve_ok room junk v l n R) as (v' & rc & E & R' & C). rewrite E. cbn [fst snd].
    exists v', (VCode rc), l. split; [reflexivity|]. split; [assumption|]. constructor. tauto.
  - rewrite (vr_size _ _ _ R). eexists _, _, _. split; [reflexivity|]. split; [exact R|]. constructor.
  - rewrite (vec_read_ok v l R). cbn [bind]. eexists _, _, _. split; [reflexivity|]. split; [exact R|]. constructor.
  - destruct (vr_data _ _ _ R) as [rest E]. cbn. rewrite E. eexists _, _, _. split; [reflexivity|].
    split; [exact (vrep_nil v l R)|]. constructor.
  - eexists _, _, _. split; [reflexivity|]. split; [exact (vrep_nil v l R)|]. constructor.
Qed.

Lemma vec_calls_ok : forall os v l, vrep esz v l -> Forall (vvalid esz) os ->
  exists v' ans l', vec_calls v os = Ok (v', ans) /\ vrep esz v' l' /\ vsteps esz l os ans l'.
Proof.
  induction os as [|o r IH]; intros v l R V; cbn [vec_calls].
  - exists v, [], l. split; [reflexivity|]. split; [assumption|constructor].
  - inversion V as [|? ? V1 V2]; subst.
    destruct (vec_call_ok v l o R V1) as (v1 & a & l1 & E1 & R1 & S1). rewrite E1. cbn [bind fst snd].
    destruct (IH v1 l1 R1 V2) as (v2 & ans & l2 & E2 & R2 & S2). rewrite E2. cbn [bind fst snd].
    exists v2, (a :: ans), l2. split; [reflexivity|]. split; [assumption|]. econstructor; eassumption.
Qed.
End Facts.
