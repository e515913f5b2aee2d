From Coq Require Import NArith ZArith List Bool Arith Lia.
From Verif Require Import Bytes Types GenModel World PktSpec BytesFacts Wf StrModel EnumModel EnumFacts ParseModel ParseSpec.
Import ListNotations.
Local Open Scope N_scope.

Lemma isdigit_iff c : isdigit c = true <-> 48 <= c <= 57.
Proof. unfold isdigit. rewrite andb_true_iff, !N.leb_le. reflexivity. Qed.

Lemma digit_in_10 c : digit_in 10 c = if isdigit c then Some (c - 48) else None.
Proof.
  unfold digit_in, digit_val. destruct (isdigit c) eqn:E.
  - apply isdigit_iff in E. replace (c - 48 <? 10) with true; auto. symmetry. apply N.ltb_lt. lia.
  - unfold islower, isupper. destruct ((97 <=? c) && (c <=? 122)) eqn:E2.
    + apply andb_prop in E2 as (A & B). apply N.leb_le in A, B. replace (c - 87 <? 10) with false; auto. symmetry. apply N.ltb_ge. lia.
    + destruct ((65 <=? c) && (c <=? 90)) eqn:E3; auto.
      apply andb_prop in E3 as (A & B). apply N.leb_le in A, B. replace (c - 55 <? 10) with false; auto. symmetry. apply N.ltb_ge. lia.
Qed.

Definition nodigit_head (s : cstr) : Prop := match s with c :: _ => isdigit c = false | [] => True end.

Lemma digits_split s : forall acc, exists ds rest, s = ds ++ rest /\ (forall c, In c ds -> 48 <= c <= 57) /\ nodigit_head rest /\
  digits 10 acc s = (fold_left (fun a c => a * 10 + (c - 48)) ds acc, rest).
Proof.
  induction s as [|c s IH]; intros acc.
  - exists [], []. cbn. intuition auto.
  - cbn [digits]. rewrite digit_in_10. destruct (isdigit c) eqn:E.
    + destruct (IH (acc * 10 + (c - 48))) as (ds & rest & -> & Hd & Hr & ->).
      exists (c :: ds), rest. repeat split; auto; intros; cbn in H; destruct H as [<-|H]; apply isdigit_iff in E; try lia; now apply Hd.
    + exists [], (c :: s). cbn. intuition auto.
Qed.

Lemma digits_app ds rest acc : (forall c, In c ds -> 48 <= c <= 57) -> nodigit_head rest ->
  digits 10 acc (ds ++ rest) = (fold_left (fun a c => a * 10 + (c - 48)) ds acc, rest).
Proof.
  revert acc; induction ds as [|c ds IH]; intros acc Hd Hr; cbn [app fold_left].
  - destruct rest as [|c r]; cbn [digits]; auto. rewrite digit_in_10. cbn in Hr. now rewrite Hr.
  - cbn [digits]. rewrite digit_in_10. replace (isdigit c) with true; [|symmetry; apply isdigit_iff, Hd; now left].
    apply IH; auto. intros; apply Hd; now right.
Qed.

Lemma isspace_iff c : isspace c = true <-> (c = 32 \/ 9 <= c <= 13).
Proof. unfold isspace. rewrite orb_true_iff, andb_true_iff, N.eqb_eq, !N.leb_le. reflexivity. Qed.

Lemma skip_space_split s : exists b t, s = b ++ t /\ blanks b /\ skip_space s = t /\
  match t with c :: _ => isspace c = false | [] => True end.
Proof.
  induction s as [|c s (b & t & -> & Hb & Hs & Ht)].
  - exists [], []. repeat split; auto. intros ? [].
  - cbn [skip_space]. destruct (isspace c) eqn:E.
    + exists (c :: b), t. repeat split; auto. intros x [<-|H]; [now apply isspace_iff|now apply Hb].
    + exists [], (c :: b ++ t). repeat split; auto. intros ? [].
Qed.

Lemma skip_space_digit c s : 48 <= c <= 57 -> skip_space (c :: s) = c :: s.
Proof.
  intros H. cbn. replace (isspace c) with false; auto. symmetry. apply not_true_iff_false. rewrite isspace_iff. lia.
Qed.

Lemma sign_of_split t : exists sg r neg, sign_of t = (neg, r) /\ t = sg ++ r /\
  (sg = [] /\ neg = false \/ sg = [43] /\ neg = false \/ sg = [45] /\ neg = true).
Proof.
  unfold sign_of. destruct t as [|c r]; [exists [], [], false; auto|].
  destruct (N.eqb_spec c 45); [subst; exists [45], r, true; auto 6|].
  destruct (N.eqb_spec c 43); [subst; exists [43], r, false; auto 6|].
  exists [], (c :: r), false. auto.
Qed.

Lemma sign_of_digit c s : 48 <= c <= 57 -> sign_of (c :: s) = (false, c :: s).
Proof.
  intros H. destruct (sign_of_split (c :: s)) as (sg & r & neg & -> & E & [(-> & ->)|[(-> & ->)|(-> & ->)]]); cbn in E.
  - now subst.
  - injection E as -> _. lia.
  - injection E as -> _. lia.
Qed.

Lemma scan10_inv s neg v rest : scan 10 s = Some (neg, v, rest) ->
  exists t, s = t ++ rest /\ signed_decimal t neg v /\ nodigit_head rest.
Proof.
  unfold scan. destruct (skip_space_split s) as (b & t & -> & Hb & -> & _).
  destruct (sign_of_split t) as (sg & r & ng & -> & -> & Hsg). cbn [base_of N.eqb Pos.eqb].
  destruct (starts_digit 10 r) eqn:E; [|discriminate].
  destruct (digits_split r 0) as (ds & rs & -> & Hd & Hn & ->). intros H; injection H as <- <- <-.
  exists (b ++ sg ++ ds). split; [now rewrite <- !app_assoc|]. split; auto.
  exists b, sg, ds. split; [reflexivity|]. split; auto. split; auto. split; [|split; auto].
  intros ->. cbn in E. destruct rs as [|c rs]; cbn in *; [discriminate|]. rewrite digit_in_10, Hn in E. discriminate.
Qed.

Lemma scan10_decimal s v rest : decimal s v -> nodigit_head rest -> scan 10 (s ++ rest) = Some (false, v, rest).
Proof.
  intros (Hne & Hd & ->) Hr. unfold scan. destruct s as [|c s]; [congruence|].
  assert (48 <= c <= 57) as Hc by (apply Hd; now left).
  cbn [app]. rewrite skip_space_digit, sign_of_digit by auto. cbn [base_of N.eqb Pos.eqb].
  cbn [starts_digit]. rewrite digit_in_10. replace (isdigit c) with true by (symmetry; now apply isdigit_iff).
  rewrite (digits_app (c :: s) rest 0 Hd Hr : digits 10 0 (c :: s ++ rest) = _). reflexivity.
Qed.

Lemma strtoul_decimal s v rest : decimal s v -> nodigit_head rest ->
  strtoul 10 (s ++ rest) = if two64 <=? v then (two64 - 1, rest, true) else (v, rest, false).
Proof. intros H Hr. unfold strtoul. now rewrite (scan10_decimal _ _ _ H Hr). Qed.

Lemma strtoul_all s v : decimal s v ->
  strtoul 10 s = if two64 <=? v then (two64 - 1, [], true) else (v, [], false).
Proof. intros H. rewrite <- (app_nil_r s) at 1. now apply strtoul_decimal. Qed.

(** The value of a port accepted by strtoul, exactly. *)
Lemma strtoul_full_inv s v er : strtoul 10 s = (v, [], er) ->
  (s = [] /\ v = 0 /\ er = false) \/
  exists neg n, signed_decimal s neg n /\
    ((two64 <= n /\ v = two64 - 1 /\ er = true) \/
     (n < two64 /\ er = false /\ v = if neg then (two64 - n) mod two64 else n)).
Proof.
  unfold strtoul. destruct (scan 10 s) as [[[neg n] rest]|] eqn:E.
  - apply scan10_inv in E as (t & -> & Hs & _). destruct (N.leb_spec two64 n); intros H'.
    + injection H' as <- -> <-. right. exists neg, n. rewrite app_nil_r. auto.
    + destruct neg; injection H' as <- -> <-; right; eexists; exists n; rewrite app_nil_r; split; eauto.
  - intros H; injection H as <- -> <-. auto.
Qed.

(** ** Ports. *)
Lemma port_of_decimal s v : decimal s v -> port_of s = if v <=? 65535 then Ok v else Er EINVAL.
Proof.
  intros H. unfold port_of. rewrite (strtoul_all _ _ H). destruct (N.leb_spec two64 v); auto.
  replace (v <=? 65535) with false by (symmetry; apply N.leb_gt; unfold two64 in *; lia). reflexivity.
Qed.

Lemma div_small v : v <= 65535 -> (v / 256) mod 256 = v / 256.
Proof. intros. apply N.mod_small. apply N.div_lt_upper_bound; lia. Qed.

Lemma le_enc2_swap v : v <= 65535 -> le_enc 2 (swap16 v) = be16 v.
Proof.
  intros H. unfold be16, swap16. cbn [le_enc].
  pose proof (N.mod_lt v 256). assert (v / 256 < 256) by (apply N.div_lt_upper_bound; lia).
  rewrite (div_small v H).
  replace ((v mod 256 * 256 + v / 256) mod 256) with (v / 256).
  2:{ rewrite N.add_comm, N.mod_add by lia. now rewrite N.mod_small. }
  replace ((v mod 256 * 256 + v / 256) / 256) with (v mod 256).
  2:{ rewrite N.div_add_l by lia. rewrite (N.div_small (v / 256)) by lia. lia. }
  rewrite (N.mod_small (v mod 256)) by lia. reflexivity.
Qed.

Lemma le_enc2 v : v <= 65535 -> le_enc 2 v = le16 v.
Proof. intros H. unfold le16. cbn [le_enc]. now rewrite div_small. Qed.

Lemma parse_port_decimal old s v : decimal s v ->
  parse_l4_port old s = if v <=? 65535 then Ok (be16 v ++ skipn 2 old) else Er EINVAL.
Proof.
  intros H. unfold parse_l4_port. rewrite (strtoul_all _ _ H). destruct (N.leb_spec two64 v).
  - replace (v <=? 65535) with false by (symmetry; apply N.leb_gt; unfold two64 in *; lia). reflexivity.
  - destruct (N.leb_spec v 65535); auto. rewrite le_enc2_swap by auto. reflexivity.
Qed.

Lemma parse_port_inv old s p : parse_l4_port old s = Ok p ->
  exists v, p = be16 v ++ skipn 2 old /\ v <= 65535 /\
   (s = [] /\ v = 0 \/ exists neg n, signed_decimal s neg n /\ n < two64 /\ v = if neg then (two64 - n) mod two64 else n).
Proof.
  unfold parse_l4_port. destruct (strtoul 10 s) as [[v rest] er] eqn:E. destruct rest; [|discriminate].
  destruct (N.leb_spec v 65535); [|discriminate]. intros H'. assert (p = write old (le_enc 2 (swap16 v))) as -> by congruence. clear H'.
  rewrite le_enc2_swap by auto. exists v. repeat split; auto.
  apply strtoul_full_inv in E as [(-> & -> & _)|(neg & n & Hs & [(H1 & -> & _)|(H1 & _ & ->)])]; auto.
  - unfold two64 in *; lia.
  - right. exists neg, n. auto.
Qed.

Lemma be16_dec v : be_dec (be16 v) = v.
Proof. unfold be_dec, be16. cbn [be_acc]. rewrite (N.div_mod v 256) at 3 by lia. lia. Qed.
Lemma le16_dec v : le_dec (le16 v) = v.
Proof. unfold le16. cbn [le_dec]. rewrite (N.div_mod v 256) at 3 by lia. lia. Qed.

Lemma be16_inj a b : length a = 2%nat -> bytes a -> b <= 65535 -> (bytes_eqb a (be16 b) = true <-> be_dec a = b).
Proof.
  intros Hl Hb Hv. destruct a as [|x [|y [|]]]; try discriminate. inversion_clear Hb. inversion_clear H0.
  unfold byte in *. unfold be_dec, be16. cbn [be_acc bytes_eqb]. rewrite andb_true_r, andb_true_iff, !N.eqb_eq. split.
  - intros (-> & ->). rewrite (N.div_mod b 256) at 3 by lia. lia.
  - intros <-. rewrite N.mul_0_l, N.add_0_l. split.
    + rewrite N.div_add_l by lia. rewrite (N.div_small y) by lia. lia.
    + rewrite N.add_comm, N.mod_add by lia. now rewrite N.mod_small.
Qed.

(** ** Ranges. *)
Lemma split_at_app c a b : ~ In c a -> split_at c (a ++ c :: b) = Some (a, b).
Proof.
  induction a as [|x a IH]; intros H; cbn [app split_at].
  - now rewrite N.eqb_refl.
  - destruct (N.eqb_spec x c); [subst; elim H; now left|]. rewrite IH; auto. intros K; apply H; now right.
Qed.

Lemma split_at_inv c s a b : split_at c s = Some (a, b) -> s = a ++ c :: b /\ ~ In c a.
Proof.
  revert a b; induction s as [|x s IH]; intros a b; cbn [split_at]; [discriminate|].
  destruct (N.eqb_spec x c).
  - intros H; injection H as <- <-. subst. auto.
  - destruct (split_at c s) as [[a' b']|]; [|discriminate]. intros H; injection H as <- <-.
    destruct (IH a' b' eq_refl) as (-> & K). split; auto. intros [L|L]; auto.
Qed.

Lemma strtok_app c a b : a <> [] -> ~ In c a -> strtok c (a ++ c :: b) = Some (a, b).
Proof.
  intros Ha Hc. unfold strtok. assert (skip_char c (a ++ c :: b) = a ++ c :: b) as ->.
  { destruct a as [|x a]; [congruence|]. cbn. destruct (N.eqb_spec x c); auto. subst. elim Hc. now left. }
  destruct (a ++ c :: b) eqn:E; [destruct a; discriminate|]. rewrite <- E. now rewrite split_at_app.
Qed.

Lemma decimal_no c s v : decimal s v -> (c < 48 \/ 57 < c) -> ~ In c s.
Proof. intros (_ & H & _) Hc Hi. specialize (H _ Hi). lia. Qed.

Lemma decimal_first s v r : decimal s v -> isdigit (first_char (s ++ r)) = true.
Proof. intros (Hne & H & _). destruct s; [congruence|]. apply isdigit_iff, H. now left. Qed.

Lemma parse_port_range_decimal old sa a sb b : decimal sa a -> decimal sb b ->
  (length sa + length sb <= 14)%nat ->
  parse_l4_port_range old (sa ++ DASH :: sb) =
    if (a <=? b) && (b <=? 65535) then Ok (le16 a ++ le16 b ++ skipn 4 old) else Er EINVAL.
Proof.
  intros Ha Hb Hl. unfold parse_l4_port_range, truncated.
  rewrite firstn_all2 by (rewrite app_length; cbn; lia).
  rewrite (decimal_first _ _ _ Ha). cbn [negb].
  unfold DASH. rewrite strtok_app; [|apply Ha|eapply decimal_no; eauto; lia].
  destruct sb as [|c sb]; [destruct Hb; congruence|].
  rewrite (port_of_decimal _ _ Ha), (port_of_decimal _ _ Hb).
  destruct (N.leb_spec a 65535); cbn [bind].
  - destruct (N.leb_spec b 65535); cbn [bind].
    + rewrite andb_true_r. rewrite N.leb_antisym. destruct (b <? a); cbn [negb]; auto.
      rewrite !le_enc2 by auto. unfold write. rewrite <- app_assoc. reflexivity.
    + now rewrite andb_false_r.
  - destruct (N.leb_spec b 65535); cbn; rewrite ?andb_false_r, ?andb_true_r; auto.
    replace (a <=? b) with false; auto. symmetry. apply N.leb_gt. lia.
Qed.

(** ** Dotted addresses. *)
Lemma pton4_octet ds v rest acc : octet ds v -> nodigit_head rest -> (length acc < 4)%nat ->
  pton4 (ds ++ rest) acc None = pton4 rest acc (Some v).
Proof.
  intros ((Hne & Hd & ->) & Hv & Hz) Hr Hl. destruct ds as [|c ds]; [congruence|]. cbn [app pton4].
  assert (isdigit c = true) as Hc by (apply isdigit_iff, Hd; now left). rewrite Hc.
  apply Nat.ltb_lt in Hl as ->.
  unfold dec_value in *. cbn [fold_left] in *. rewrite N.mul_0_l, N.add_0_l in *.
  assert (Hd' : forall x, In x ds -> 48 <= x <= 57) by (intros; apply Hd; now right).
  assert (Hz' : c - 48 = 0 -> ds = []).
  { intros H. apply Hz. f_equal. apply isdigit_iff in Hc. lia. }
  clear Hd Hz Hne Hc. revert Hv Hz' Hd'. generalize (c - 48) as w.
  induction ds as [|x ds IH]; intros w Hv Hz Hd; cbn [app fold_left] in *; auto.
  cbn [pton4]. assert (isdigit x = true) as -> by (apply isdigit_iff, Hd; now left).
  destruct (N.eqb_spec w 0); [specialize (Hz e); discriminate|].
  assert (Hle : forall l z, z <= fold_left (fun a c => a * 10 + (c - 48)) l z).
  { induction l; intros z; cbn; [lia|]. etransitivity; [|apply IHl]. lia. }
  pose proof (Hle ds (w * 10 + (x - 48))).
  replace (255 <? w * 10 + (x - 48)) with false by (symmetry; apply N.ltb_ge; lia).
  apply IH; auto.
  - intros H0. lia.
  - intros; apply Hd; now right.
Qed.

Lemma pton4_inv s : forall acc cur a, pton4 s acc cur = Some a -> (length acc <= 3)%nat ->
  match cur with
  | None => exists ds v rest, s = ds ++ rest /\ octet ds v /\ pton4 rest acc (Some v) = Some a /\ nodigit_head rest
  | Some v => True
  end.
Proof.
  intros acc [v|] a H Hl; auto.
  destruct s as [|c s]; [discriminate|]. cbn [pton4] in H. destruct (isdigit c) eqn:Ec.
  2:{ destruct (c =? 46); discriminate. }
  replace (length acc <? 4)%nat with true in H by (symmetry; apply Nat.ltb_lt; lia).
  assert (Hgen : forall s w p, pton4 s acc (Some w) = Some a -> octet p w ->
     exists ds v rest, p ++ s = ds ++ rest /\ octet ds v /\ pton4 rest acc (Some v) = Some a /\ nodigit_head rest).
  { clear. induction s as [|x s IH]; intros w p H Hp.
    - exists p, w, []. cbn. auto.
    - destruct (isdigit x) eqn:Ex.
      + cbn [pton4] in H. rewrite Ex in H.
        destruct (N.eqb_spec w 0); [discriminate|]. destruct (N.ltb_spec 255 (w * 10 + (x - 48))); [discriminate|].
        destruct (IH _ (p ++ [x]) H) as (ds & v & rest & E & R).
        * destruct Hp as ((Hne & Hd & ->) & _ & Hz). split; [|split; auto].
          -- split; [destruct p; discriminate|]. split.
             ++ intros y Hy. apply in_app_or in Hy as [Hy|[<-|[]]]; [now apply Hd|now apply isdigit_iff].
             ++ unfold dec_value. rewrite fold_left_app. reflexivity.
          -- intros r E. destruct p as [|y p]; [congruence|]. injection E as -> <-.
             specialize (Hz p eq_refl). subst p. exfalso. apply n. reflexivity.
        * exists ds, v, rest. rewrite <- E, <- app_assoc. auto.
      + exists p, w, (x :: s). auto. }
  apply (Hgen _ _ [c] H). split; [|split].
  - split; [discriminate|]. split.
    + intros y [<-|[]]. now apply isdigit_iff.
    + reflexivity.
  - apply isdigit_iff in Ec. lia.
  - intros r E. now injection E as _ <-.
Qed.

Lemma pton4_dot rest acc v a : pton4 rest acc (Some v) = Some a -> nodigit_head rest ->
  (rest = [] /\ length acc = 3%nat /\ a = rev (v :: acc)) \/
  (exists r, rest = DOT :: r /\ length acc <> 3%nat /\ pton4 r (v :: acc) None = Some a).
Proof.
  intros H Hn. destruct rest as [|c r]; cbn [pton4] in H.
  - destruct (Nat.eqb_spec (length acc) 3); [|discriminate]. injection H as <-. auto.
  - cbn in Hn. rewrite Hn in H. destruct (N.eqb_spec c 46); [|discriminate].
    destruct (Nat.eqb_spec (length acc) 3); [discriminate|]. subst. right. eauto.
Qed.

Lemma inet_pton4_iff s a : inet_pton4 s = Some a <-> dotted s a.
Proof.
  unfold inet_pton4. split.
  - intros H. apply pton4_inv in H as (s1 & v1 & r1 & -> & O1 & H & N1); [|cbn; lia].
    apply pton4_dot in H as [(_ & H & _)|(r & -> & _ & H)]; auto; [discriminate|].
    apply pton4_inv in H as (s2 & v2 & r2 & -> & O2 & H & N2); [|cbn; lia].
    apply pton4_dot in H as [(_ & H & _)|(r3 & -> & _ & H)]; auto; [discriminate|].
    apply pton4_inv in H as (s3 & v3 & r4 & -> & O3 & H & N3); [|cbn; lia].
    apply pton4_dot in H as [(_ & H & _)|(r5 & -> & _ & H)]; auto; [discriminate|].
    apply pton4_inv in H as (s4 & v4 & r6 & -> & O4 & H & N4); [|cbn; lia].
    apply pton4_dot in H as [(-> & _ & ->)|(r7 & -> & H & _)]; auto; [|cbn in H; congruence].
    exists s1, s2, s3, s4, v1, v2, v3, v4. rewrite app_nil_r. split; [reflexivity|]. split; [reflexivity|]. auto.
  - intros (s1 & s2 & s3 & s4 & v1 & v2 & v3 & v4 & -> & -> & O1 & O2 & O3 & O4).
    rewrite (pton4_octet s1 v1) by (auto; cbn; auto; lia).
    cbn [pton4 DOT isdigit N.leb N.compare Pos.compare Pos.compare_cont andb]. change (isdigit DOT) with false. cbn [N.eqb Pos.eqb length Nat.eqb].
    rewrite (pton4_octet s2 v2) by (auto; cbn; auto; lia).
    cbn [pton4]. change (isdigit DOT) with false. cbn [DOT N.eqb Pos.eqb length Nat.eqb].
    rewrite (pton4_octet s3 v3) by (auto; cbn; auto; lia).
    cbn [pton4]. change (isdigit DOT) with false. cbn [DOT N.eqb Pos.eqb length Nat.eqb].
    rewrite <- (app_nil_r s4) at 1. rewrite (pton4_octet s4 v4) by (auto; cbn; auto; lia).
    reflexivity.
Qed.

(** ** Everything accepted as a port. *)
Lemma scan10_signed s neg n : signed_decimal s neg n -> scan 10 s = Some (neg, n, []).
Proof.
  intros (b & sg & ds & -> & Hb & Hd & Hsg). unfold scan.
  assert (Hskip : forall t, match t with c :: _ => isspace c = false | [] => True end -> skip_space (b ++ t) = t).
  { clear - Hb. intros t Ht. induction b as [|c b IH]; cbn [app skip_space].
    - destruct t; cbn; auto. now rewrite Ht.
    - replace (isspace c) with true; [|symmetry; apply isspace_iff, Hb; now left]. apply IH. intros x Hx; apply Hb; now right. }
  destruct Hd as (Hne & Hd & ->). destruct ds as [|c ds]; [congruence|].
  assert (48 <= c <= 57) as Hc by (apply Hd; now left).
  assert (isspace c = false) by (apply not_true_iff_false; rewrite isspace_iff; lia).
  rewrite Hskip.
  2:{ destruct Hsg as [(-> & _)|[(-> & _)|(-> & _)]]; cbn [app]; auto. }
  assert (sign_of (sg ++ c :: ds) = (neg, c :: ds)) as ->.
  { destruct Hsg as [(-> & ->)|[(-> & ->)|(-> & ->)]]; cbn [app]; auto. now apply sign_of_digit. }
  cbn [base_of N.eqb Pos.eqb]. cbn [starts_digit]. rewrite digit_in_10.
  replace (isdigit c) with true by (symmetry; now apply isdigit_iff).
  rewrite <- (app_nil_r (c :: ds)) at 1. rewrite (digits_app (c :: ds) [] 0 Hd Logic.I). reflexivity.
Qed.

Lemma parse_port_accepts old s neg n : signed_decimal s neg n -> n < two64 ->
  (if neg then (two64 - n) mod two64 else n) <= 65535 -> exists p, parse_l4_port old s = Ok p.
Proof.
  intros H Hn Hv. unfold parse_l4_port, strtoul. rewrite (scan10_signed _ _ _ H).
  replace (two64 <=? n) with false by (symmetry; now apply N.leb_gt).
  destruct neg; apply N.leb_le in Hv; rewrite Hv; eauto.
Qed.
