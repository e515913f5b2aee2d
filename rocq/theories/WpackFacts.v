From Coq Require Import NArith List Bool Arith Lia.
From Verif Require Import Bytes GenModel NewFacts WpackModel.
Import ListNotations.
Local Open Scope N_scope.
Local Open Scope res_scope.

Lemma round_up_ok need : need < 2 ^ 63 -> forall fuel j, (6 <= j <= 63)%nat -> (63 <= j + fuel)%nat ->
  exists m, (j <= m <= 63)%nat /\ round_up fuel (2 ^ N.of_nat j) need = Ok (2 ^ N.of_nat m) /\ need < 2 ^ N.of_nat m.
Proof.
  intros Hn. induction fuel as [|k IH]; intros j Hj Hf; cbn [round_up]; destruct (N.leb_spec (2 ^ N.of_nat j) need) as [H|H].
  - assert (j = 63)%nat by lia. subst j. change (N.of_nat 63) with 63 in H. lia.
  - exists j. split; [lia|auto].
  - assert (j < 63)%nat. { destruct (Nat.eq_dec j 63) as [-> |]; [|lia]. change (N.of_nat 63) with 63 in H. lia. }
    replace (2 ^ N.of_nat j * 2) with (2 ^ N.of_nat (S j)) by (rewrite Nat2N.inj_succ, N.pow_succ_r'; lia).
    rewrite N.mod_small.
    2:{ unfold two64. change 18446744073709551616 with (2 ^ 64). apply N.pow_lt_mono_r; lia. }
    destruct (IH (S j)) as (m & A & B & C); [lia|lia|]. exists m. split; [lia|auto].
  - exists j. split; [lia|auto].
Qed.

Record winv (p : wpack) (data : list N) : Prop := mkWI {
  wi_len : wp_len p = N.of_nat (length data);
  wi_pre : firstn (length data) (wp_mem p) = data;
  wi_cap : wp_cap p = N.of_nat (length (wp_mem p));
  wi_fit : (length data <= length (wp_mem p))%nat;
  wi_pow : wp_cap p = 0 \/ exists j, (6 <= j <= 63)%nat /\ wp_cap p = 2 ^ N.of_nat j;
  wi_err : wp_err p = false
}.

Lemma winv_new : winv wpack_new [].
Proof. constructor; cbn; auto. Qed.

Lemma firstn_prefix {A} (l : list A) data m : firstn (length data) l = data -> (length data <= m)%nat -> firstn (length data) (firstn m l) = data.
Proof. intros H L. rewrite firstn_firstn. now rewrite Nat.min_l by lia. Qed.

Lemma flush_ok grown p data chunk : winv p data -> (forall n, grown n <> None) -> N.of_nat (length data + length chunk) < 2 ^ 63 ->
  exists p', flush grown p chunk = Ok p' /\ winv p' (data ++ chunk).
Proof.
  intros [L P C F W E] G B. unfold flush. rewrite L. rewrite <- Nat2N.inj_add.
  rewrite N.mod_small by (unfold two64; lia).
  assert (exists q, (if wp_cap p <=? N.of_nat (length data + length chunk)
     then new_cap <- round_up 64 (if wp_cap p =? 0 then 64 else wp_cap p) (N.of_nat (length data + length chunk));
          match grown new_cap with
          | Some junk => Ok (mkW (firstn (N.to_nat new_cap) (wp_mem p) ++ map junk (seq (length (wp_mem p)) (N.to_nat new_cap - length (wp_mem p))))
                                 (N.of_nat (length data)) new_cap (wp_err p))
          | None => Ok (mkW (wp_mem p) (N.of_nat (length data)) new_cap true)
          end
     else Ok p) = Ok q /\ winv q data /\ (length data + length chunk < length (wp_mem q))%nat) as (q & -> & [L' P' C' F' W' E'] & Room).
  { destruct (N.leb_spec (wp_cap p) (N.of_nat (length data + length chunk))) as [H|H].
    2:{ exists p. split; [reflexivity|]. split; [constructor; auto|]. lia. }
    assert (exists j, (6 <= j <= 63)%nat /\ (if wp_cap p =? 0 then 64 else wp_cap p) = 2 ^ N.of_nat j) as (j & Hj & ->).
    { destruct (N.eqb_spec (wp_cap p) 0) as [Hz|Hz]; [exists 6%nat; split; [lia|reflexivity]|]. destruct W as [W|W]; [congruence|auto]. }
    destruct (round_up_ok _ B 64 j Hj ltac:(lia)) as (m & Hm & -> & Hneed). cbn [bind].
    destruct (grown (2 ^ N.of_nat m)) as [junk|] eqn:Eg; [|exfalso; eapply G; eauto].
    eexists. split; [reflexivity|].
    assert (Hlen : (length (firstn (N.to_nat (2 ^ N.of_nat m)) (wp_mem p) ++
               map junk (seq (length (wp_mem p)) (N.to_nat (2 ^ N.of_nat m) - length (wp_mem p)))) = N.to_nat (2 ^ N.of_nat m))%nat).
    { rewrite app_length, firstn_length, map_length, seq_length. lia. }
    split; [|cbn [wp_mem]; rewrite Hlen; lia].
    constructor; cbn [wp_len wp_mem wp_cap wp_err]; auto.
    - rewrite firstn_app. rewrite firstn_length.
      replace (length data - Nat.min (N.to_nat (2 ^ N.of_nat m)) (length (wp_mem p)))%nat with 0%nat by lia.
      rewrite firstn_O, app_nil_r. apply firstn_prefix; auto. lia.
    - rewrite Hlen. lia.
    - rewrite Hlen. lia.
    - right. exists m. split; [lia|reflexivity]. }
  cbn [bind]. unfold copy_in. rewrite L'. rewrite <- Nat2N.inj_add.
  destruct (N.ltb_spec (N.of_nat (length (wp_mem q))) (N.of_nat (length data + length chunk))); [lia|]. cbn [bind].
  eexists. split; [reflexivity|]. rewrite Nat2N.id, P'. rewrite N.mod_small by (unfold two64; lia).
  assert (Hl : length (data ++ chunk ++ skipn (length data + length chunk) (wp_mem q)) = length (wp_mem q)).
  { rewrite !app_length, skipn_length. lia. }
  constructor; cbn [wp_len wp_mem wp_cap wp_err]; auto.
  - now rewrite app_length.
  - rewrite app_length, app_assoc, <- app_length. rewrite firstn_app, Nat.sub_diag, firstn_O, app_nil_r. apply firstn_all.
  - now rewrite Hl.
  - rewrite Hl, app_length. lia.
Qed.

Lemma flush_all_ok grown chunks : (forall i n, grown i n <> None) -> forall i p data, winv p data ->
  N.of_nat (length data + length (concat chunks)) < 2 ^ 63 ->
  exists p', flush_all grown i p chunks = Ok p' /\ winv p' (data ++ concat chunks).
Proof.
  intros G. induction chunks as [|c cs IH]; intros i p data W B; cbn [flush_all concat] in *.
  - exists p. rewrite app_nil_r. auto.
  - rewrite app_length in B. destruct (flush_ok (grown i) p data c W (G i)) as (p1 & E1 & W1); [lia|]. rewrite E1. cbn [bind].
    destruct (IH (S i) p1 (data ++ c) W1) as (p2 & E2 & W2); [rewrite app_length; lia|]. exists p2. rewrite app_assoc. auto.
Qed.

Lemma winv_data p data : winv p data -> get_data p = Ok data.
Proof. intros [L P C F W E]. unfold get_data. rewrite E, L, Nat2N.id, P. reflexivity. Qed.
