(** One-instruction steps of the fragment semantics, and stack facts (proofs only). *)
From Coq Require Import NArith ZArith List Bool Lia Arith.
From Verif Require Import Bytes Types World BpfModel GenModel Frag BytesFacts.
Import ListNotations.
Local Open Scope N_scope.

(** ** Stack *)

Lemma zseq_length a n : length (zseq a n) = n.
Proof. revert a; induction n; intros; cbn; auto. Qed.

Lemma rd_stk_length k a n : length (rd_stk k a n) = n.
Proof. unfold rd_stk. rewrite map_length. apply zseq_length. Qed.

Lemma rd_stk_ext k k' a n :
  (forall z, (a <= z < a + Z.of_nat n)%Z -> k z = k' z) -> rd_stk k a n = rd_stk k' a n.
Proof.
  unfold rd_stk. revert a. induction n; intros a H; cbn [zseq map]; auto.
  f_equal; [apply H; lia | apply IHn; intros; apply H; lia].
Qed.

Lemma rd_stk_app k a n m : rd_stk k a (n + m) = rd_stk k a n ++ rd_stk k (a + Z.of_nat n) m.
Proof.
  unfold rd_stk. revert a. induction n; intros a.
  - cbn [Nat.add zseq map app]. rewrite Z.add_0_r. reflexivity.
  - cbn [Nat.add zseq map app]. f_equal. rewrite IHn. do 2 f_equal. f_equal. lia.
Qed.

Lemma rd_nth f l : forall a, (forall i, (i < length l)%nat -> f (a + Z.of_nat i)%Z = nth i l MU) ->
  rd_stk f a (length l) = l.
Proof.
  unfold rd_stk. induction l as [|x l IH]; intros a H; cbn [length zseq map]; auto. f_equal.
  - specialize (H 0%nat ltac:(cbn; lia)). rewrite Z.add_0_r in H. exact H.
  - apply IH. intros i Hi. specialize (H (S i) ltac:(cbn; lia)). cbn [nth] in H.
    rewrite <- H. f_equal. lia.
Qed.

Lemma rd_wr_same k a l : rd_stk (wr_stk k a l) a (length l) = l.
Proof.
  apply rd_nth. intros i Hi. unfold wr_stk.
  rewrite (proj2 (Z.leb_le _ _)), (proj2 (Z.ltb_lt _ _)) by lia. cbn [andb].
  f_equal. lia.
Qed.

Lemma wr_stk_out k a l z : (z < a \/ a + Z.of_nat (length l) <= z)%Z -> wr_stk k a l z = k z.
Proof.
  intros H. unfold wr_stk.
  destruct (Z.leb_spec a z), (Z.ltb_spec z (a + Z.of_nat (length l))); cbn [andb]; auto. lia.
Qed.

Lemma rd_wr_out k a l b n : (b + Z.of_nat n <= a \/ a + Z.of_nat (length l) <= b)%Z ->
  rd_stk (wr_stk k a l) b n = rd_stk k b n.
Proof. intros. apply rd_stk_ext. intros z Hz. apply wr_stk_out. lia. Qed.

Lemma all_num_map l : all_num (map MB l) = Some l.
Proof. induction l; cbn; auto. rewrite IHl. reflexivity. Qed.

Lemma stk_load_ext k k' a n :
  (forall z, (a <= z < a + Z.of_nat n)%Z -> k z = k' z) -> stk_load k a n = stk_load k' a n.
Proof. intros. unfold stk_load. rewrite (rd_stk_ext k k') by auto. reflexivity. Qed.

Lemma stk_load_num k a n l : rd_stk k a n = map MB l -> stk_load k a n = VN (le_dec l).
Proof. intros H. unfold stk_load. rewrite H, all_num_map. reflexivity. Qed.

Lemma val_bytes_length v n : length (val_bytes v n) = n.
Proof.
  destruct v; cbn [val_bytes]; rewrite ?repeat_length, ?map_length, ?le_enc_length; auto;
    destruct (Nat.eqb_spec n 8); subst; rewrite ?map_length, ?seq_length, ?repeat_length; auto.
Qed.

Lemma load_store_num k a n x : x < 256 ^ N.of_nat n ->
  stk_load (wr_stk k a (val_bytes (VN x) n)) a n = VN x.
Proof.
  intros H. rewrite (stk_load_num _ _ _ (le_enc n x)).
  - rewrite le_dec_enc, N.mod_small by auto. reflexivity.
  - rewrite <- (val_bytes_length (VN x) n) at 2. rewrite rd_wr_same. reflexivity.
Qed.

Lemma load_store_ptr k a v : is_ptr v = true ->
  stk_load (wr_stk k a (val_bytes v 8)) a 8 = v.
Proof.
  intros H. unfold stk_load.
  replace (rd_stk (wr_stk k a (val_bytes v 8)) a 8) with (map (MP v) (seq 0 8)).
  2:{ rewrite <- (val_bytes_length v 8) at 3. rewrite rd_wr_same.
      destruct v; try discriminate; reflexivity. }
  cbn [seq map all_num]. cbn [all_ptr].
  destruct (val_eq_dec v v); [|congruence]. reflexivity.
Qed.

Lemma load_store_other k a l b n : (b + Z.of_nat n <= a \/ a + Z.of_nat (length l) <= b)%Z ->
  stk_load (wr_stk k a l) b n = stk_load k b n.
Proof. intros. unfold stk_load. rewrite rd_wr_out by auto. reflexivity. Qed.

(** ** Steps *)

Section Steps.
  Variables (e : env) (l : code) (s : st).

  Lemma fr_mov64i d z : frun e (MOV64I d z :: l) 0 s = frun e l 0 (setr s d (VN (imm64 z))).
  Proof. reflexivity. Qed.

  Lemma fr_mov64r d q : frun e (MOV64R d q :: l) 0 s = frun e l 0 (setr s d (rg s q)).
  Proof. reflexivity. Qed.

  Lemma fr_mov32i d z : frun e (MOV32I d z :: l) 0 s = frun e l 0 (setr s d (VN (imm32 z mod two32))).
  Proof. cbn. destruct (rg s d); reflexivity. Qed.

  Lemma fr_add_stk d z o : rg s d = VStk o ->
    frun e (ADD64I d z :: l) 0 s = frun e l 0 (setr s d (VStk (o + z))).
  Proof. intros H. cbn. rewrite H. reflexivity. Qed.

  Lemma fr_add_st d z o : rg s d = VSt o ->
    frun e (ADD64I d z :: l) 0 s = frun e l 0 (setr s d (VSt (o + z))).
  Proof. intros H. cbn. rewrite H. reflexivity. Qed.

  Lemma fr_alu64 op d src a b : op <> AMov -> rg s d = VN a -> opval s true src = VN b ->
    frun e (I (Alu true op d src) :: l) 0 s = frun e l 0 (setr s d (VN (alu64 op a b))).
  Proof. intros Hop H1 H2. cbn [frun exec]. unfold do_alu. destruct op; try congruence; rewrite H1, H2; reflexivity. Qed.

  Lemma fr_alu32 op d src a b : op <> AMov -> rg s d = VN a -> opval s false src = VN b ->
    frun e (I (Alu false op d src) :: l) 0 s = frun e l 0 (setr s d (VN (alu32 op a b))).
  Proof. intros Hop H1 H2. cbn [frun exec]. unfold do_alu. destruct op; try congruence; rewrite H1, H2; reflexivity. Qed.

  Lemma fr_bswap d a : rg s d = VN a ->
    frun e (I (Bswap16 d) :: l) 0 s = frun e l 0 (setr s d (VN (swap16 a))).
  Proof. intros H. cbn [frun exec]. rewrite H. reflexivity. Qed.

  Lemma fr_ldx sz d q o v : mload e (stk s) (wd s) (rg s q) o (szn sz) = Some v ->
    frun e (I (Ldx sz d q o) :: l) 0 s = frun e l 0 (setr s d v).
  Proof. intros H. cbn [frun exec]. rewrite H. reflexivity. Qed.

  Lemma fr_stx sz d q o s' : mstore e s (rg s d) o (szn sz) (rg s q) = Some s' ->
    frun e (I (Stx sz d q o) :: l) 0 s = frun e l 0 s'.
  Proof. intros H. cbn [frun exec]. rewrite H. reflexivity. Qed.

  Lemma fr_st sz d o imm s' : mstore e s (rg s d) o (szn sz) (VN (imm64 imm)) = Some s' ->
    frun e (I (St sz d o imm) :: l) 0 s = frun e l 0 s'.
  Proof. intros H. cbn [frun exec]. rewrite H. reflexivity. Qed.

  Lemma fr_ldxk sz d q f k v : rg s q = VK k -> kload e (wd s) k f sz = Some v ->
    frun e (I (LdxK sz d q f) :: l) 0 s = frun e l 0 (setr s d v).
  Proof. intros H1 H2. cbn [frun exec]. rewrite H1, H2. reflexivity. Qed.

  Lemma fr_call c s' : do_call e c s = Some s' -> frun e (I (Call c) :: l) 0 s = frun e l 0 s'.
  Proof. intros H. cbn [frun exec]. rewrite H. reflexivity. Qed.

  Lemma fr_ldmap d m : frun e (I (LdMap d m) :: I Pad :: l) 0 s = frun e l 0 (setr s d (VMap m)).
  Proof. reflexivity. Qed.

  Lemma fr_ldimm d v : frun e (I (LdImm64 d v) :: I Pad :: l) 0 s = frun e l 0 (setr s d (VN (v mod two64))).
  Proof. reflexivity. Qed.

  Lemma fr_J w op d src o b : do_jmp s w op d src = Some b ->
    frun e (J (Jmp w op d src o) :: l) 0 s = if b then FRule s else frun e l 0 s.
  Proof. intros H. cbn [frun exec]. rewrite H. destruct b; reflexivity. Qed.

  Lemma fr_JA o : frun e (J (Ja o) :: l) 0 s = FRule s.
  Proof. reflexivity. Qed.

  Lemma fr_I w op d src n b : do_jmp s w op d src = Some b ->
    frun e (I (Jmp w op d src (Z.of_nat n)) :: l) 0 s = if b then frun e l n s else frun e l 0 s.
  Proof.
    intros H. cbn [frun exec]. rewrite H. destruct b; [|reflexivity].
    rewrite (proj2 (Z.leb_le _ _)) by lia. rewrite Nat2Z.id. reflexivity.
  Qed.

  Lemma fr_exit r : rg s R0 = VN r -> frun e (I Exit :: l) 0 s = FHalt r s.
  Proof. intros H. cbn [frun exec]. rewrite H. reflexivity. Qed.
End Steps.

Lemma do_jmp_num64 s op d src a b : rg s d = VN a -> opval s true src = VN b ->
  do_jmp s true op d src = Some (jtest op a b).
Proof. intros H1 H2. unfold do_jmp. rewrite H1, H2. reflexivity. Qed.

Lemma do_jmp_num32 s op d src a b : rg s d = VN a -> opval s false src = VN b ->
  do_jmp s false op d src = Some (jtest op (a mod two32) (b mod two32)).
Proof. intros H1 H2. unfold do_jmp. rewrite H1, H2. reflexivity. Qed.

Lemma do_jmp_ptr s op d v : rg s d = v -> is_ptr v = true -> (op = JEQ \/ op = JNE) ->
  do_jmp s true op d (Im 0) = Some (match op with JNE => true | _ => false end).
Proof.
  intros H1 H2 H3. unfold do_jmp. rewrite H1. cbn [opval].
  destruct v; try discriminate; cbn; destruct H3; subst; reflexivity.
Qed.

Lemma rg_same s r v : rg (setr s r v) r = v.
Proof. cbn. destruct r; reflexivity. Qed.

Lemma rg_other s r r' v : reg_eqb r' r = false -> rg (setr s r v) r' = rg s r'.
Proof. intros H. cbn. rewrite H. reflexivity. Qed.
