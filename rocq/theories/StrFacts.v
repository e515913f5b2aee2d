(** helper.c string functions on memory. *)
From Coq Require Import NArith List Bool Arith Lia.
From Verif Require Import Bytes GenModel StrModel StrSpec.
Import ListNotations.
Local Open Scope N_scope.

Lemma skipn_skipn {A} x y (l : list A) : skipn x (skipn y l) = skipn (x + y) l.
Proof. revert l; induction y; intros [|a l]; rewrite ?Nat.add_0_r, <- ?plus_n_Sm; cbn; auto. now rewrite skipn_nil. Qed.

Lemma skipn_cons {A} (l : list A) i x r : skipn i l = x :: r ->
  nth_error l i = Some x /\ skipn (S i) l = r /\ (i < length l)%nat.
Proof.
  revert l; induction i; intros [|a l] H; cbn in *; try discriminate.
  - injection H as -> ->. repeat split; lia.
  - destruct (IHi l H) as (A1 & A2 & A3). repeat split; auto. lia.
Qed.

Lemma ld_skip m i x r : skipn i m = x :: r -> ld m i = Ok x.
Proof. intros H. unfold ld. now rewrite (proj1 (skipn_cons _ _ _ _ H)). Qed.

Lemma strlen_from_ok s : forall fuel m i junk, (forall c, In c s -> c <> 0) ->
  skipn i m = s ++ 0 :: junk -> (length s < fuel)%nat ->
  strlen_from fuel m i = Ok (length s).
Proof.
  induction s as [|c s IH]; intros [|fuel] m i junk Hnz Hs Hf; cbn [length] in *; try lia;
    cbn [strlen_from app] in *.
  - rewrite (ld_skip _ _ _ _ Hs). reflexivity.
  - rewrite (ld_skip _ _ _ _ Hs). cbn [bind].
    replace (c =? 0) with false by (symmetry; apply N.eqb_neq, Hnz; now left).
    rewrite (IH fuel m (S i) junk); cbn [bind]; auto; try lia.
    + intros; apply Hnz; now right.
    + now destruct (skipn_cons _ _ _ _ Hs) as (_ & -> & _).
Qed.

Lemma skipn_len {A} (l : list A) i a b : skipn i l = a ++ b -> (i + length a <= length l)%nat \/ a = [].
Proof.
  intros H. assert (length (skipn i l) = length (a ++ b)) as E by now rewrite H.
  rewrite skipn_length, app_length in E. destruct a; [now right|left; cbn in *; lia].
Qed.

Lemma strlen_ok m i s : holds m i s -> strlen m i = Ok (length s).
Proof.
  intros (Hnz & junk & Hs). unfold strlen. eapply strlen_from_ok; eauto.
  assert (length (skipn i m) = length (s ++ 0 :: junk)) as E by now rewrite Hs.
  rewrite skipn_length, app_length in E. cbn in E. lia.
Qed.

Lemma st_ok m i v : (i < length m)%nat -> st m i v = Ok (firstn i m ++ v :: skipn (S i) m).
Proof. intros H. unfold st. now apply Nat.ltb_lt in H as ->. Qed.

Lemma st_split a x b v i : i = length a -> st (a ++ x :: b) i v = Ok (a ++ v :: b).
Proof.
  intros ->. rewrite st_ok by (rewrite app_length; cbn; lia).
  rewrite firstn_app, Nat.sub_diag, firstn_all. cbn [firstn]. rewrite app_nil_r.
  replace (S (length a)) with (length a + 1)%nat by lia.
  rewrite skipn_app, skipn_all2 by lia.
  replace (length a + 1 - length a)%nat with 1%nat by lia. reflexivity.
Qed.

Lemma memcpy_ok n : forall pre old post src s t,
  length old = n -> (exists junk, skipn s src = t ++ junk) -> length t = n ->
  memcpy (pre ++ old ++ post) (length pre) src s n = Ok (pre ++ t ++ post).
Proof.
  induction n; intros pre old post src s t Ho (junk & Hs) Ht.
  - destruct old, t; try discriminate. reflexivity.
  - destruct old as [|o old], t as [|c t]; try discriminate. cbn [memcpy app].
    cbn [app] in Hs. rewrite (ld_skip _ _ _ _ Hs). cbn [bind].
    rewrite st_split by reflexivity. cbn [bind].
    specialize (IHn (pre ++ [c]) old post src (S s) t).
    rewrite app_length in IHn. cbn [length] in IHn.
    replace (length pre + 1)%nat with (S (length pre)) in IHn by lia.
    rewrite <- !app_assoc in IHn. cbn [app] in IHn. apply IHn; auto.
    exists junk. now destruct (skipn_cons _ _ _ _ Hs) as (_ & -> & _).
Qed.

Lemma split_list {A} n (l : list A) : (n <= length l)%nat -> exists a b, l = a ++ b /\ length a = n.
Proof. intros. exists (firstn n l), (skipn n l). rewrite firstn_skipn, firstn_length. split; auto. lia. Qed.

Lemma strncpy_ok dst len src s : (1 <= len <= length dst)%nat -> holds src 0 s ->
  let t := firstn (len - 1) s in
  strncpy dst len src =
    Ok (t ++ 0 :: skipn (S (length t)) dst, if (length s <? len)%nat then 0 else E2BIG).
Proof.
  intros Hl Hs t. unfold strncpy. replace (len =? 0)%nat with false by (symmetry; apply Nat.eqb_neq; lia).
  rewrite (strlen_ok _ _ _ Hs). cbn [bind].
  assert (length t = Nat.min (length s) (len - 1)) as Ht.
  { unfold t. rewrite firstn_length. lia. }
  rewrite <- Ht.
  destruct (split_list (length t) dst) as (old & post & -> & Ho); [lia|].
  destruct Hs as (Hnz & junk & Hs). cbn [skipn] in Hs.
  pose proof (memcpy_ok (length t) [] old post src 0 t Ho) as E. cbn [app length] in E.
  rewrite E; clear E; auto.
  2:{ exists (skipn (len - 1) s ++ 0 :: junk). cbn. rewrite Hs, app_assoc. unfold t. now rewrite firstn_skipn. }
  cbn [bind]. destruct post as [|x post]; [rewrite app_length in Hl; cbn in Hl; lia|].
  rewrite st_split by reflexivity. cbn [bind]. f_equal. f_equal.
  - f_equal. f_equal. replace (S (length t)) with (length (old ++ [x])) by (rewrite app_length; cbn; lia).
    rewrite (app_assoc old [x] post : old ++ x :: post = _), skipn_app, skipn_all2 by lia.
    rewrite Nat.sub_diag. reflexivity.
  - rewrite Ht. destruct (Nat.ltb_spec (length s) len); destruct (Nat.eqb_spec (Nat.min (length s) (len - 1)) (length s)); auto; lia.
Qed.

(** ** Trimming. *)
Lemma ltrim_from_ok a : forall fuel m i t, forallb isspace a = true ->
  (exists c r, t = c :: r /\ isspace c = false) -> skipn i m = a ++ t -> (length a < fuel)%nat ->
  ltrim_from fuel m i = Ok (i + length a)%nat.
Proof.
  induction a as [|c a IH]; intros [|fuel] m i t Hb (d & r & -> & Hd) Hs Hf; cbn [length] in *; try lia;
    cbn [ltrim_from app forallb] in *.
  - rewrite (ld_skip _ _ _ _ Hs). cbn [bind]. rewrite Hd. f_equal. lia.
  - apply andb_prop in Hb as (Hc & Hb). rewrite (ld_skip _ _ _ _ Hs). cbn [bind]. rewrite Hc.
    rewrite (IH fuel m (S i) (d :: r)); eauto; try lia.
    + f_equal. lia.
    + now destruct (skipn_cons _ _ _ _ Hs) as (_ & -> & _).
Qed.

Lemma zero_not_space : isspace 0 = false. Proof. reflexivity. Qed.

(** Every string splits into leading blanks, a core that neither starts nor ends
    with a blank, and trailing blanks. *)
Definition core (t : cstr) : Prop :=
  (forall c r, t = c :: r -> isspace c = false) /\ (forall r c, t = r ++ [c] -> isspace c = false).

Lemma split_lead s : exists a t, s = a ++ t /\ forallb isspace a = true /\
  (forall c r, t = c :: r -> isspace c = false).
Proof.
  induction s as [|c s (a & t & -> & Ha & Ht)].
  - exists [], []. repeat split; auto. discriminate.
  - destruct (isspace c) eqn:E.
    + exists (c :: a), t. cbn. rewrite E. auto.
    + exists [], (c :: a ++ t). repeat split; auto. intros ? ? H. injection H as <- <-. auto.
Qed.

Lemma split_trail s : exists t b, s = t ++ b /\ forallb isspace b = true /\
  (forall r c, t = r ++ [c] -> isspace c = false).
Proof.
  induction s as [|c s IH] using rev_ind.
  - exists [], []. repeat split; auto. intros [|? ?] ? H; discriminate.
  - destruct (isspace c) eqn:E.
    + destruct IH as (t & b & -> & Hb & Ht). exists t, (b ++ [c]). rewrite app_assoc.
      repeat split; auto. rewrite forallb_app. cbn. now rewrite Hb, E.
    + exists (s ++ [c]), []. rewrite app_nil_r. repeat split; auto.
      intros r d H. apply app_inj_tail in H as (_ & <-). auto.
Qed.

Lemma trim_split s : exists a t b, s = a ++ t ++ b /\ forallb isspace a = true /\
  forallb isspace b = true /\ core t.
Proof.
  destruct (split_lead s) as (a & u & -> & Ha & Hu).
  destruct (split_trail u) as (t & b & -> & Hb & Ht).
  exists a, t, b. repeat split; auto.
  intros c r ->. eapply Hu. reflexivity.
Qed.

(** [u] is the non-empty string at [str], without a leading blank (or empty). *)
Lemma rtrim_back_ok b : forall fuel m str t c junk, forallb isspace b = true -> isspace c = false ->
  skipn str m = (t ++ [c]) ++ b ++ junk -> (length b < fuel)%nat ->
  rtrim_back fuel m str (str + length (t ++ [c]) + length b) = Ok (str + length t)%nat.
Proof.
  induction b as [|d b IH] using rev_ind; intros [|fuel] m str t c junk Hb Hc Hs Hf; cbn [length] in *; try lia;
    cbn [rtrim_back]; rewrite !app_length in *; cbn [length] in *.
  - replace (str + (length t + 1) + 0 - 1)%nat with (str + length t)%nat by lia.
    destruct (Nat.ltb_spec str (str + length t)); [|reflexivity].
    assert (skipn (str + length t) m = c :: junk) as E.
    { rewrite Nat.add_comm, <- skipn_skipn, Hs, <- app_assoc, skipn_app, Nat.sub_diag, skipn_all. reflexivity. }
    rewrite (ld_skip _ _ _ _ E). cbn [bind]. now rewrite Hc.
  - rewrite forallb_app in Hb. cbn in Hb. apply andb_prop in Hb as (Hb & Hd). rewrite andb_true_r in Hd.
    replace (str + (length t + 1) + (length b + 1) - 1)%nat with (str + (length t + 1) + length b)%nat by lia.
    destruct (Nat.ltb_spec str (str + (length t + 1) + length b)); [|lia].
    assert (skipn (str + (length t + 1) + length b) m = d :: junk) as E.
    { replace (str + (length t + 1) + length b)%nat with (length ((t ++ [c]) ++ b) + str)%nat
        by (rewrite !app_length; cbn; lia).
      rewrite <- skipn_skipn, Hs.
      replace ((t ++ [c]) ++ (b ++ [d]) ++ junk) with (((t ++ [c]) ++ b) ++ d :: junk) by now rewrite <- !app_assoc.
      rewrite skipn_app, Nat.sub_diag, skipn_all. reflexivity. }
    rewrite (ld_skip _ _ _ _ E). cbn [bind]. rewrite Hd.
    specialize (IH fuel m str t c ([d] ++ junk) Hb Hc). rewrite app_length in IH. cbn [length] in IH.
    apply IH; [|lia]. rewrite Hs, <- !app_assoc. reflexivity.
Qed.

Lemma skipn_prefix {A} (l : list A) i r : skipn i l = r -> r <> [] ->
  exists p, l = p ++ r /\ length p = i.
Proof.
  intros <- H. exists (firstn i l). rewrite firstn_skipn. split; auto.
  rewrite firstn_length. destruct (le_lt_dec i (length l)); [lia|].
  rewrite skipn_all2 in H by lia. easy.
Qed.

Lemma skip_len {A} (p r : list A) : skipn (length p) (p ++ r) = r.
Proof. now rewrite skipn_app, Nat.sub_diag, skipn_all. Qed.

Lemma rtrim_ok' m i t b : forallb isspace b = true -> (forall r c, t = r ++ [c] -> isspace c = false) ->
  (t = [] -> b = []) -> holds m i (t ++ b) ->
  exists m', rtrim m i = Ok m' /\ length m' = length m /\ holds m' i t /\
    firstn i m' = firstn i m /\ skipn (i + S (length t)) m' = skipn (i + S (length t)) m.
Proof.
  intros Hb Ht Hnil Hh. pose proof Hh as (Hnz & junk & Hs). unfold rtrim.
  rewrite (strlen_ok _ _ _ Hh). cbn [bind].
  destruct t as [|x t0] using rev_ind.
  - rewrite (Hnil eq_refl) in *. cbn. exists m. repeat split; auto. exists junk. auto.
  - clear IHt0. rename t0 into t. specialize (Ht t x eq_refl).
    replace (length ((t ++ [x]) ++ b) =? 0)%nat with false
      by (symmetry; apply Nat.eqb_neq; rewrite !app_length; cbn; lia).
    replace (i + length ((t ++ [x]) ++ b))%nat with (i + length (t ++ [x]) + length b)%nat
      by (rewrite (app_length (t ++ [x])); lia).
    rewrite (rtrim_back_ok b (S (length m)) m i t x (0 :: junk)); auto.
    2:{ rewrite Hs. rewrite <- !app_assoc. reflexivity. }
    2:{ assert (length (skipn i m) = length (((t ++ [x]) ++ b) ++ 0 :: junk)) as E by now rewrite Hs.
        rewrite skipn_length, !app_length in E. lia. }
    cbn [bind].
    destruct (skipn_prefix _ _ _ Hs) as (p & -> & <-); [destruct t; discriminate|].
    assert (ld (p ++ ((t ++ [x]) ++ b) ++ 0 :: junk) (length p + length t) = Ok x) as ->.
    { eapply ld_skip with (r := b ++ 0 :: junk).
      replace (p ++ ((t ++ [x]) ++ b) ++ 0 :: junk) with ((p ++ t) ++ x :: b ++ 0 :: junk)
        by now rewrite <- !app_assoc.
      rewrite <- app_length. apply skip_len. }
    cbn [bind]. rewrite Ht, andb_false_r.
    assert (exists y rest, b ++ 0 :: junk = y :: rest) as (y & rest & Ey).
    { destruct b; cbn; eauto. }
    replace (p ++ ((t ++ [x]) ++ b) ++ 0 :: junk) with ((p ++ t ++ [x]) ++ y :: rest)
      by (rewrite <- Ey, <- !app_assoc; reflexivity).
    rewrite st_split by (rewrite !app_length; cbn; lia).
    eexists. split; [reflexivity|]. split; [rewrite !app_length; cbn; lia|]. split; [|split].
    + split.
      * intros c Hc. apply Hnz. apply in_or_app. now left.
      * exists rest. rewrite <- app_assoc, skip_len, <- app_assoc. reflexivity.
    + rewrite <- !app_assoc, !firstn_app, Nat.sub_diag, firstn_all. reflexivity.
    + replace (length p + S (length (t ++ [x])))%nat with (length ((p ++ t ++ [x]) ++ [0]))
        by (rewrite !app_length; cbn; lia).
      rewrite (app_assoc (p ++ t ++ [x]) [0] rest : (p ++ t ++ [x]) ++ 0 :: rest = _), skip_len.
      replace (length ((p ++ t ++ [x]) ++ [0])) with (length ((p ++ t ++ [x]) ++ [y])) by (rewrite !app_length; cbn; lia).
      rewrite (app_assoc (p ++ t ++ [x]) [y] rest : (p ++ t ++ [x]) ++ y :: rest = _), skip_len. reflexivity.
Qed.

Lemma rtrim_ok m i t b : forallb isspace b = true -> core t -> (t = [] -> b = []) ->
  holds m i (t ++ b) ->
  exists m', rtrim m i = Ok m' /\ length m' = length m /\ holds m' i t /\
    firstn i m' = firstn i m /\ skipn (i + S (length t)) m' = skipn (i + S (length t)) m.
Proof. intros Hb (_ & Ht). now apply rtrim_ok'. Qed.

Lemma trim_ok m i a t b : forallb isspace a = true -> forallb isspace b = true -> core t ->
  holds m i (a ++ t ++ b) -> (t = [] -> b = []) ->
  exists m', trim m i = Ok (m', i + length a)%nat /\ length m' = length m /\
    holds m' (i + length a) t /\ firstn (i + length a) m' = firstn (i + length a) m /\
    skipn (i + length a + S (length t)) m' = skipn (i + length a + S (length t)) m.
Proof.
  intros Ha Hb Hc (Hnz & junk & Hs) Hnil. unfold trim, ltrim.
  rewrite (ltrim_from_ok a (S (length m)) m i (t ++ b ++ 0 :: junk)); auto.
  - cbn [bind]. destruct (rtrim_ok m (i + length a) t b) as (m' & -> & R); auto.
    { split.
      - intros c H. apply Hnz. apply in_or_app. now right.
      - exists junk. rewrite Nat.add_comm, <- skipn_skipn, Hs, <- !app_assoc. apply skip_len. }
    cbn [bind]. eauto.
  - destruct t as [|c t].
    + rewrite (Hnil eq_refl). cbn. eauto.
    + exists c, (t ++ b ++ 0 :: junk). split; auto. eapply (proj1 Hc). reflexivity.
  - now rewrite Hs, <- !app_assoc.
  - assert (length (skipn i m) = length ((a ++ t ++ b) ++ 0 :: junk)) as E by now rewrite Hs.
    rewrite skipn_length, !app_length in E. cbn in E. lia.
Qed.

(** ** In the words of StrSpec. *)
Lemma isspace_blank c : isspace c = true <-> blank c.
Proof. unfold isspace, blank. rewrite orb_true_iff, andb_true_iff, N.eqb_eq, !N.leb_le. reflexivity. Qed.

Lemma isspace_not c : isspace c = false <-> ~ blank c.
Proof. rewrite <- isspace_blank, not_true_iff_false. reflexivity. Qed.

Lemma all_blank_iff s : forallb isspace s = true <-> all_blank s.
Proof. rewrite forallb_forall. split; intros H c Hc; apply isspace_blank, H, Hc. Qed.

Lemma rtrim_back_blank n : forall fuel m str, (0 < n)%nat -> (n <= fuel)%nat -> (str + n <= length m)%nat ->
  forallb isspace (firstn n (skipn str m)) = true -> rtrim_back fuel m str (str + n) = Ok str.
Proof.
  induction n as [|n IH]; intros [|fuel] m str Hn Hf Hl Hb; try lia. cbn [rtrim_back].
  replace (str + S n - 1)%nat with (str + n)%nat by lia.
  destruct (Nat.ltb_spec str (str + n)); [|f_equal; lia].
  destruct (nth_error m (str + n)) as [c|] eqn:E; [|apply nth_error_None in E; lia].
  unfold ld. rewrite E. cbn [bind].
  assert (nth_error (skipn str m) n = Some c) as E2 by (rewrite <- E; clear; revert m; induction str; intros [|y m]; cbn; auto; now destruct n).
  assert (firstn (S n) (skipn str m) = firstn n (skipn str m) ++ [c]) as E3.
  { clear - E2. revert E2. generalize (skipn str m). induction n; intros [|x l] H; cbn in *; try discriminate; try congruence.
    f_equal. now apply IHn. }
  rewrite E3, forallb_app in Hb. cbn in Hb. apply andb_prop in Hb as (Hb & Hc). rewrite andb_true_r in Hc. rewrite Hc.
  apply IH; auto; lia.
Qed.

Lemma rtrim_any m i s : holds m i s -> exists t b m', s = t ++ b /\ all_blank b /\ no_trailing_blank t /\
  rtrim m i = Ok m' /\ length m' = length m /\ holds m' i t /\
  firstn i m' = firstn i m /\ skipn (i + S (length t)) m' = skipn (i + S (length t)) m.
Proof.
  intros Hh. destruct (split_trail s) as (t & b & -> & Hb & Ht).
  destruct t as [|x t].
  - destruct b as [|c b].
    + exists [], [], m. cbn [app] in *. unfold rtrim. rewrite (strlen_ok _ _ _ Hh). cbn [bind length Nat.eqb].
      split; [reflexivity|]. split; [intros ? []|]. split; [intros [|? ?] ? H; discriminate|]. auto.
    + pose proof Hh as (Hnz & junk & Hs). exists [], (c :: b). cbn [app] in *.
      unfold rtrim. rewrite (strlen_ok _ _ _ Hh). cbn [bind length Nat.eqb].
      assert (Hlen : (i + S (length b) <= length m)%nat).
      { assert (length (skipn i m) = length ((c :: b) ++ 0 :: junk)) as E by now rewrite Hs.
        rewrite skipn_length, app_length in E. cbn [length] in E. lia. }
      rewrite (rtrim_back_blank (S (length b)) (S (length m))); try lia.
      2:{ rewrite Hs. cbn [firstn]. rewrite firstn_app, firstn_all, Nat.sub_diag. cbn [firstn].
          now rewrite app_nil_r. }
      cbn [bind]. rewrite (ld_skip _ _ _ _ Hs). cbn [bind]. rewrite Nat.eqb_refl.
      cbn [forallb] in Hb. apply andb_prop in Hb as (Hc & Hb). rewrite Hc. cbn [andb].
      destruct (skipn_prefix _ _ _ Hs) as (p & -> & <-); [discriminate|].
      cbn [app]. rewrite st_split by auto. eexists. split; [reflexivity|].
      split; [apply all_blank_iff; cbn; now rewrite Hc, Hb|]. split; [intros [|? ?] ? H; discriminate|].
      split; [reflexivity|]. split; [now rewrite !app_length|]. split; [|split].
      * split; [intros ? []|]. exists (b ++ 0 :: junk). cbn [app]. apply skip_len.
      * rewrite !firstn_app, Nat.sub_diag, firstn_all. reflexivity.
      * cbn [length]. replace (length p + 1)%nat with (length (p ++ [0])) by (rewrite app_length; reflexivity).
        rewrite (app_assoc p [0] _ : p ++ 0 :: b ++ 0 :: junk = _), skip_len.
        replace (length (p ++ [0])) with (length (p ++ [c])) by (rewrite !app_length; reflexivity).
        now rewrite (app_assoc p [c] _ : p ++ c :: b ++ 0 :: junk = _), skip_len.
  - (* rtrim_ok only looks at the trailing half of core *)
    destruct (rtrim_ok' m i (x :: t) b Hb Ht) as (m' & R1 & R); auto; [discriminate|].
    exists (x :: t), b, m'. split; [reflexivity|]. split; [now apply all_blank_iff|].
    split; [intros r c E; apply isspace_not; eapply Ht; eauto|]. auto.
Qed.

Lemma trim_any m i s : holds m i s -> exists a t b m', s = a ++ t ++ b /\ all_blank a /\ all_blank b /\
  no_leading_blank t /\ no_trailing_blank t /\ trim m i = Ok (m', i + length a)%nat /\
  length m' = length m /\ holds m' (i + length a) t /\ firstn (i + length a) m' = firstn (i + length a) m /\
    skipn (i + length a + S (length t)) m' = skipn (i + length a + S (length t)) m.
Proof.
  intros Hh. destruct (split_lead s) as (a & u & -> & Ha & Hu).
  destruct (split_trail u) as (t & b & -> & Hb & Ht).
  assert (Hl : forall c r, t = c :: r -> isspace c = false) by (intros c r ->; eapply Hu; reflexivity).
  assert (Hn : t = [] -> b = []).
  { intros ->. destruct b as [|c b]; auto. cbn in Hb. apply andb_prop in Hb as (Hb & _). specialize (Hu c b eq_refl). congruence. }
  destruct (trim_ok m i a t b Ha Hb (conj Hl Ht) Hh Hn) as (m' & R).
  exists a, t, b, m'. split; [reflexivity|]. split; [now apply all_blank_iff|]. split; [now apply all_blank_iff|].
  split; [intros c r E; apply isspace_not; eauto|]. split; [intros c r E; apply isspace_not; eauto|]. auto.
Qed.
