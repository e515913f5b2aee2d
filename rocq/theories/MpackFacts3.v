(** The writer of MpackModel writes the format of MpackSpec; consequences. *)
From Coq Require Import NArith ZArith List Bool Arith Lia.
From Verif Require Import Bytes BytesFacts GenModel PackModel NewFacts MpackModel MpackSpec MpackFacts MpackFacts2.
Import ListNotations.
Local Open Scope N_scope.
Local Open Scope list_scope.

Lemma be_dec_rev l : be_dec (rev l) = le_dec l.
Proof.
  induction l as [|x l IH]; [reflexivity|]. cbn [rev le_dec]. rewrite be_dec_app, IH.
  cbn [length]. change (256 ^ N.of_nat 1) with 256. unfold be_dec. cbn [be_acc]. lia.
Qed.
Lemma be_enc_len w v : length (be_enc w v) = w.
Proof. unfold be_enc. rewrite rev_length. apply le_enc_length. Qed.
Lemma be_enc_dec w v : v < 256 ^ N.of_nat w -> be_dec (be_enc w v) = v.
Proof. intros H. unfold be_enc. rewrite be_dec_rev, le_dec_enc. apply N.mod_small. exact H. Qed.
Lemma be_enc_bytes w v : bytes (be_enc w v).
Proof. unfold be_enc, bytes. apply Forall_rev. apply le_enc_bytes. Qed.

Ltac thr := repeat match goal with
  | |- context [?a <=? ?b] => let E := fresh "E" in destruct (a <=? b) eqn:E; [apply N.leb_le in E|apply N.leb_gt in E]
  end.

Lemma enc_uint_ok v : v < 2 ^ 64 -> msgpack (enc_uint v) (NUint v).
Proof.
  intros H. unfold enc_uint. thr.
  - constructor. lia.
  - rewrite <- (be_enc_dec 1 v) at 2 by (change (256 ^ N.of_nat 1) with 256; lia). apply P_uint with 1%nat; [cbn; tauto|apply be_enc_len].
  - rewrite <- (be_enc_dec 2 v) at 2 by (change (256 ^ N.of_nat 2) with 65536; lia). apply P_uint with 2%nat; [cbn; tauto|apply be_enc_len].
  - rewrite <- (be_enc_dec 4 v) at 2 by (change (256 ^ N.of_nat 4) with 4294967296; lia). apply P_uint with 4%nat; [cbn; tauto|apply be_enc_len].
  - rewrite <- (be_enc_dec 8 v) at 2 by exact H. apply P_uint with 8%nat; [cbn; tauto|apply be_enc_len].
Qed.

Lemma signed_wrap w z : (0 < w)%nat -> (- 2 ^ (8 * Z.of_nat w - 1) <= z < 0)%Z -> signed (be_enc w (wrap (8 * Z.of_nat w) z)) = z.
Proof.
  intros W H. unfold signed. rewrite be_enc_len. cbv zeta.
  set (R := (2 ^ (8 * Z.of_nat w))%Z).
  assert (RR : R = (2 * 2 ^ (8 * Z.of_nat w - 1))%Z) by (unfold R; rewrite <- Z.pow_succ_r by lia; f_equal; lia).
  assert (M : (z mod R = z + R)%Z) by (symmetry; apply Z.mod_unique_pos with (-1)%Z; lia).
  assert (V : Z.of_N (wrap (8 * Z.of_nat w) z) = (z + R)%Z) by (unfold wrap; fold R; rewrite M; lia).
  rewrite be_enc_dec.
  - rewrite V. rewrite (proj2 (Z.ltb_ge _ _)) by lia. lia.
  - assert (P : Z.of_N (256 ^ N.of_nat w) = R) by (rewrite N2Z.inj_pow, nat_N_Z; unfold R; change (Z.of_N 256) with (2 ^ 8)%Z; rewrite <- Z.pow_mul_r by lia; reflexivity).
    lia.
Qed.

Lemma enc_int_ok z : (- 2 ^ 63 <= z < 0)%Z -> msgpack (enc_int z) (NInt z).
Proof.
  intros H. unfold enc_int.
  destruct (-32 <=? z)%Z eqn:E1; [apply Z.leb_le in E1|apply Z.leb_gt in E1].
  { rewrite (proj2 (Z.leb_le z 127)) by lia.
    replace (NInt z) with (NInt (signed [wrap 8 z])).
    - assert (V : Z.of_N (wrap 8 z) = (z + 256)%Z).
      { unfold wrap. assert (z mod 2 ^ 8 = z + 256)%Z by (symmetry; apply Z.mod_unique_pos with (-1)%Z; lia). lia. }
      apply P_fixint; lia.
    - f_equal. replace [wrap 8 z] with (be_enc 1 (wrap 8 z)).
      + apply (signed_wrap 1 z); [lia|]. change (2 ^ (8 * Z.of_nat 1 - 1))%Z with 128%Z. lia.
      + unfold be_enc. cbn [le_enc rev app]. f_equal. apply N.mod_small. unfold wrap.
        pose proof (Z.mod_pos_bound z (2 ^ 8)). lia. }
  destruct (-128 <=? z)%Z eqn:E2; [apply Z.leb_le in E2|apply Z.leb_gt in E2].
  { rewrite <- (signed_wrap 1 z) at 2 by (try lia; change (2 ^ (8 * Z.of_nat 1 - 1))%Z with 128%Z; lia).
    apply P_int with 1%nat; [cbn; tauto|apply be_enc_len]. }
  destruct (-32768 <=? z)%Z eqn:E3; [apply Z.leb_le in E3|apply Z.leb_gt in E3].
  { rewrite <- (signed_wrap 2 z) at 2 by (try lia; change (2 ^ (8 * Z.of_nat 2 - 1))%Z with 32768%Z; lia).
    apply P_int with 2%nat; [cbn; tauto|apply be_enc_len]. }
  destruct (-2147483648 <=? z)%Z eqn:E4; [apply Z.leb_le in E4|apply Z.leb_gt in E4].
  { rewrite <- (signed_wrap 4 z) at 2 by (try lia; change (2 ^ (8 * Z.of_nat 4 - 1))%Z with 2147483648%Z; lia).
    apply P_int with 4%nat; [cbn; tauto|apply be_enc_len]. }
  rewrite <- (signed_wrap 8 z) at 2 by (try lia; change (2 ^ (8 * Z.of_nat 8 - 1))%Z with (2 ^ 63)%Z; lia).
  apply P_int with 8%nat; [cbn; tauto|apply be_enc_len].
Qed.

Lemma announce_long base room long t w n : In (t, w) long -> n < 256 ^ N.of_nat w -> announces base room long (t :: be_enc w n) n.
Proof. intros I H. right. exists t, w, (be_enc w n). split; [exact I|]. split; [apply be_enc_len|]. split; [reflexivity|]. symmetry. apply be_enc_dec. exact H. Qed.

Lemma pow1 : 256 ^ N.of_nat 1 = 256. Proof. reflexivity. Qed.
Lemma pow2 : 256 ^ N.of_nat 2 = 65536. Proof. reflexivity. Qed.
Lemma pow4 : 256 ^ N.of_nat 4 = 2 ^ 32. Proof. reflexivity. Qed.

Lemma enc_str_ok s : sized s -> msgpack (enc_str s) (NStr s).
Proof.
  unfold sized. intros H. unfold enc_str. cbv zeta. apply P_str. unfold str_head. thr.
  - left. split; [lia|reflexivity].
  - apply announce_long; [cbn; tauto|rewrite pow1; lia].
  - apply announce_long; [cbn; tauto|rewrite pow2; lia].
  - apply announce_long; [cbn; tauto|rewrite pow4; exact H].
Qed.

Lemma enc_bin_ok s : sized s -> msgpack (enc_bin s) (NBin s).
Proof.
  unfold sized. intros H. unfold enc_bin. cbv zeta. rewrite N.mod_small by exact H. rewrite Nnat.Nat2N.id, firstn_all.
  apply P_bin. unfold bin_head. thr.
  - apply announce_long; [cbn; tauto|rewrite pow1; lia].
  - apply announce_long; [cbn; tauto|rewrite pow2; lia].
  - apply announce_long; [cbn; tauto|rewrite pow4; exact H].
Qed.

Lemma enc_arr_ok n : N.of_nat n < 2 ^ 32 -> arr_head (enc_arr n) (N.of_nat n).
Proof.
  intros H. unfold enc_arr. cbv zeta. rewrite N.mod_small by exact H. unfold arr_head. thr.
  - left. split; [lia|reflexivity].
  - apply announce_long; [cbn; tauto|rewrite pow2; lia].
  - apply announce_long; [cbn; tauto|rewrite pow4; exact H].
Qed.
Lemma enc_map_ok n : N.of_nat n < 2 ^ 32 -> map_head (enc_map n) (N.of_nat n).
Proof.
  intros H. unfold enc_map. cbv zeta. rewrite N.mod_small by exact H. unfold map_head. thr.
  - left. split; [lia|reflexivity].
  - apply announce_long; [cbn; tauto|rewrite pow2; lia].
  - apply announce_long; [cbn; tauto|rewrite pow4; exact H].
Qed.

Lemma msgpacks_of l : Forall (fun n => msgpack (enc n) n) l -> msgpacks (concat (map enc l)) l.
Proof. induction 1; cbn; constructor; assumption. Qed.
Lemma msgpacks_of2 l : Forall (fun kv => msgpack (enc (fst kv)) (fst kv) /\ msgpack (enc (snd kv)) (snd kv)) l ->
  msgpacks (concat (map (fun kv => enc (fst kv) ++ enc (snd kv)) l)) (flat l).
Proof.
  induction 1 as [|[k v] l [A B] _ IH]; [constructor|]. cbn [map concat flat fst snd app]. rewrite <- app_assoc.
  constructor; [exact A|]. constructor; [exact B|exact IH].
Qed.

Lemma in_sum {A} (f : A -> nat) l x : In x l -> (f x <= list_sum (map f l))%nat.
Proof. induction l as [|y l IH]; [intros []|]. cbn [map list_sum fold_right]. intros [ -> | I]; [lia|]. specialize (IH I). unfold list_sum in IH. lia. Qed.

Theorem enc_ok n : carriable n -> msgpack (enc n) n.
Proof.
  assert (G : forall k n, (objects n <= k)%nat -> carriable n -> msgpack (enc n) n).
  { induction k as [|k IH]; intros m O C; [destruct m; cbn in O; lia|].
    destruct C as [|b|v V|z Z|s S|s S|l S F|l S F]; cbn [enc].
    - constructor.
    - destruct b; constructor.
    - apply enc_uint_ok. exact V.
    - apply enc_int_ok. exact Z.
    - apply enc_str_ok. exact S.
    - apply enc_bin_ok. exact S.
    - apply P_arr; [apply enc_arr_ok; exact S|]. apply msgpacks_of. rewrite Forall_forall in *. intros x I. apply IH; [|apply F; exact I].
      cbn [objects] in O. pose proof (in_sum objects l x I). lia.
    - apply P_map; [apply enc_map_ok; exact S|]. apply msgpacks_of2. rewrite Forall_forall in *. intros x I.
      cbn [objects] in O. pose proof (in_sum (fun kv => objects (fst kv) + objects (snd kv))%nat l x I) as Q. cbv beta in Q.
      destruct (F x I). split; apply IH; solve [assumption|lia]. }
  intros C. apply (G (objects n)); [lia|exact C].
Qed.

Lemma sized_short s : sized s -> (two32 <=? N.of_nat (@length N s)) = false.
Proof. intros H. apply N.leb_gt. exact H. Qed.

Theorem encode_ok n : carriable n -> encode n = Ok (enc n).
Proof.
  intros C. unfold encode.
  assert (G : forall k n, (objects n <= k)%nat -> carriable n -> too_long n = false).
  { induction k as [|k IH]; intros m O CC; [destruct m; cbn in O; lia|].
    destruct CC as [|b|v V|z Z|s S|s S|l S F|l S F]; cbn [too_long]; try reflexivity.
    - apply sized_short. exact S.
    - destruct (existsb too_long l) eqn:E; [|reflexivity]. apply existsb_exists in E. destruct E as [x [I T]].
      rewrite Forall_forall in F. cbn [objects] in O. pose proof (in_sum objects l x I).
      rewrite (IH x) in T; [discriminate T|lia|apply F; exact I].
    - match goal with |- ?e = false => destruct e eqn:E; [|reflexivity] end. apply existsb_exists in E. destruct E as [x [I T]].
      rewrite Forall_forall in F. cbn [objects] in O. destruct (F x I).
      pose proof (in_sum (fun kv => objects (fst kv) + objects (snd kv))%nat l x I) as Q. cbv beta in Q.
      rewrite (IH (fst x)), (IH (snd x)) in T by (assumption || lia). discriminate T. }
  rewrite (G (objects n)) by (lia || assumption). reflexivity.
Qed.

(** ** Consequences *)
Lemma objects_pos n : (1 <= objects n)%nat.
Proof. destruct n; cbn; lia. Qed.

Lemma objects_flat l : list_sum (map objects (flat l)) = list_sum (map (fun kv => objects (fst kv) + objects (snd kv))%nat l).
Proof. induction l as [|[a b] l IH]; [reflexivity|]. cbn [flat map concat app fst snd list_sum fold_right] in *. unfold flat, list_sum in *. rewrite IH. lia. Qed.

Lemma objects_bound : forall p n, msgpack p n -> (objects n <= length p)%nat.
Proof.
  apply (msgpack_mind (fun p n _ => objects n <= length p)%nat (fun p ns _ => list_sum (map objects ns) <= length p)%nat).
  1-8: intros; cbn [objects length]; lia.
  1-2: intros h s H; cbn [objects]; rewrite app_length; destruct H as [[_ ->]|(? & ? & ? & _ & _ & -> & _)]; cbn [length]; lia.
  - intros h b l H M IH. cbn [objects]. rewrite app_length. destruct H as [[_ ->]|(? & ? & ? & _ & _ & -> & _)]; cbn [length]; lia.
  - intros h b l H M IH. cbn [objects]. rewrite <- objects_flat, app_length. destruct H as [[_ ->]|(? & ? & ? & _ & _ & -> & _)]; cbn [length]; lia.
  - cbn. lia.
  - intros a b n l H IHa M IHb. cbn [map]. rewrite app_length. unfold list_sum in *. cbn [fold_right]. lia.
Qed.

Lemma parse_tree_iff data n sz : bytes data -> (parse_tree data = Ok (n, sz) <-> (sz <= length data)%nat /\ msgpack (firstn sz data) n).
Proof.
  intros B. split.
  - intros H. destruct (parse_sound data B) as [E|(n' & s' & E & L & M)]; rewrite E in H; [discriminate H|]. injection H as <- <-. split; assumption.
  - intros [L M]. rewrite <- (firstn_skipn sz data). rewrite (parse_complete _ _ _ M). rewrite firstn_length_le by exact L. reflexivity.
Qed.

Theorem decode_iff data n : bytes data -> (decode data = Ok n <-> exists p t, data = p ++ t /\ msgpack p n).
Proof.
  intros B. unfold decode. split.
  - destruct (parse_tree data) as [[m sz]|e] eqn:E; cbn [bind fst]; [|discriminate]. intros H. injection H as <-.
    apply parse_tree_iff in E; [|exact B]. destruct E as [L M]. exists (firstn sz data), (skipn sz data). split; [symmetry; apply firstn_skipn|exact M].
  - intros (p & t & -> & M). rewrite (parse_complete _ _ _ M). reflexivity.
Qed.

Theorem decode_total data : bytes data -> decode data = Er EINVAL \/ exists n, decode data = Ok n /\ (objects n <= length data)%nat.
Proof.
  intros B. unfold decode. destruct (parse_sound data B) as [E|(n & s & E & L & M)]; rewrite E; cbn [bind fst]; [left; reflexivity|].
  right. exists n. split; [reflexivity|]. apply objects_bound in M. rewrite firstn_length in M. lia.
Qed.

Theorem decode_prefix p n q t : bytes p -> msgpack p n -> p = q ++ t -> t <> [] -> decode q = Er EINVAL.
Proof.
  intros B M E T. assert (BQ : bytes q) by (subst p; unfold bytes in B; apply Forall_app in B; tauto).
  destruct (decode_total q BQ) as [D|(m & D & _)]; [exact D|]. exfalso.
  apply decode_iff in D; [|exact BQ]. destruct D as (p' & t' & -> & M').
  pose proof (parse_complete p n [] M) as A. rewrite app_nil_r in A.
  pose proof (parse_complete p' m (t' ++ t) M') as A'. subst p. rewrite <- app_assoc in A. rewrite A' in A. injection A as _ L.
  rewrite !app_length in L. destruct t; [congruence|]. cbn [length] in L. lia.
Qed.
