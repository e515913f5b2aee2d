(** The prologue: building blocks (proofs only). *)
From Coq Require Import NArith ZArith List Bool Lia Arith.
From Verif Require Import Bytes Types World BpfModel GenModel PktSpec ViewSpec Wf ViewModel Frag BytesFacts NetFacts
  StepFacts SwichFacts MatcherFacts MatcherFacts2 MatcherFacts4 RuleFacts2.
Import ListNotations.
Local Open Scope N_scope.

(** Slots of the runtime context during the prologue. *)
Record base (c : chain) (m : N) (k : stack) : Prop := mkBase {
  b_arg : stk_load k (ctx_off o_arg) 8 = VK KCtx;
  b_log : c_log c = true -> stk_load k (ctx_off o_logmap) 8 = VMap MLog;
  b_eh : c_nexthdr c = true -> exists bs, rd_stk k (ctx_off o_eh) 8 = map MB (m :: bs)
}.

Record metas (ifx len : N) (k : stack) : Prop := mkMetas {
  mt_if : rd_stk k (ctx_off o_ifindex) 4 = map MB (le_enc 4 ifx);
  mt_ln : stk_load k (ctx_off o_pktsize) 8 = VN len
}.

Definition dyn (k : stack) : Prop := k (ctx_off o_dynptr) = MP VDyn 0.

(** Agreement outside an interval. *)
Definition same_but (a : Z) (n : Z) (k k' : stack) : Prop :=
  forall z, (z < a \/ a + n <= z)%Z -> k' z = k z.

Lemma same_wr k a l : same_but a (Z.of_nat (length l)) k (wr_stk k a l).
Proof. intros z Hz. apply wr_stk_out. exact Hz. Qed.

Lemma same_val k a v n : same_but a (Z.of_nat n) k (wr_stk k a (val_bytes v n)).
Proof. rewrite <- (val_bytes_length v n) at 1. apply same_wr. Qed.

Lemma sb_rd a n k k' b m : same_but a n k k' -> (b + Z.of_nat m <= a \/ a + n <= b)%Z -> rd_stk k' b m = rd_stk k b m.
Proof. intros H Hb. apply rd_stk_ext. intros z Hz. apply H. lia. Qed.

Lemma sb_ld a n k k' b m : same_but a n k k' -> (b + Z.of_nat m <= a \/ a + n <= b)%Z -> stk_load k' b m = stk_load k b m.
Proof. intros H Hb. unfold stk_load. rewrite (sb_rd a n k k') by auto. reflexivity. Qed.

Definition clear (a n : Z) : Prop :=
  (a + n <= -248 \/ (-239 <= a /\ a + n <= -224) \/ (-216 <= a /\ a + n <= -208) \/
   (-192 <= a /\ a + n <= -176) \/ -172 <= a)%Z.

Lemma base_sb c m a n k k' : same_but a n k k' -> (0 <= n)%Z -> clear a n \/ (-240 <= a /\ a + n <= -224)%Z \/ (-208 <= a /\ a + n <= -200)%Z \/ (-176 <= a)%Z ->
  base c m k -> base c m k'.
Proof.
  unfold clear. intros H Hn Hc [B1 B2 B3]. constructor.
  - rewrite (sb_ld a n k k') by (auto; offs). exact B1.
  - intros L. rewrite (sb_ld a n k k') by (auto; offs). auto.
  - intros L. rewrite (sb_rd a n k k') by (auto; offs). auto.
Qed.

Lemma metas_sb ifx len a n k k' : same_but a n k k' -> (0 <= n)%Z -> clear a n \/ (a + n <= -208)%Z \/ (-200 <= a /\ a + n <= -176)%Z ->
  metas ifx len k -> metas ifx len k'.
Proof.
  unfold clear. intros H Hn Hc [B1 B2]. constructor.
  - rewrite (sb_rd a n k k') by (auto; offs). exact B1.
  - rewrite (sb_ld a n k k') by (auto; offs). auto.
Qed.

Lemma dyn_sb a n k k' : same_but a n k k' -> (0 <= n)%Z -> clear a n \/ (-200 <= a)%Z -> dyn k -> dyn k'.
Proof.
  unfold clear, dyn. intros H Hn Hc D. rewrite H; auto. offs.
Qed.

(** A byte stored among those that follow the extension header mask. *)
Lemma base_byte c m k a x : (a = -199 \/ a = -198 \/ a = -197)%Z -> base c m k ->
  base c m (wr_stk k a (val_bytes (VN x) 1)).
Proof.
  intros Ha [B1 B2 B3].
  assert (H : same_but a 1 k (wr_stk k a (val_bytes (VN x) 1))) by apply (same_val k a (VN x) 1).
  constructor.
  - rewrite (sb_ld _ _ _ _ _ _ H) by offs. exact B1.
  - intros L. rewrite (sb_ld _ _ _ _ _ _ H) by offs. auto.
  - intros L. destruct (B3 L) as [bs Hb].
    destruct bs as [|x1 [|x2 [|x3 [|x4 [|x5 [|x6 [|x7 [|]]]]]]]]; try discriminate Hb.
    unfold rd_stk in *. cbn [zseq map] in *.
    injection Hb as E0 E1 E2 E3 E4 E5 E6 E7.
    destruct Ha as [Ha|[Ha|Ha]]; subst a.
    + exists [x mod 256; x2; x3; x4; x5; x6; x7]. cbn [map]. repeat f_equal; try assumption.
    + exists [x1; x mod 256; x3; x4; x5; x6; x7]. cbn [map]. repeat f_equal; try assumption.
    + exists [x1; x2; x mod 256; x4; x5; x6; x7]. cbn [map]. repeat f_equal; try assumption.
Qed.

(** ** Fragments that run to their end, or that stop *)
Definition good (e : env) (a : code) (s : st) (P : st -> Prop) : Prop :=
  exists s', (forall l, frun e (a ++ l) 0 s = frun e l 0 s') /\ P s'.

Definition halts (e : env) (a : code) (s : st) (r : N) (w : world) : Prop :=
  exists s', (forall l, frun e (a ++ l) 0 s = FHalt r s') /\ wd s' = w.

Section G.
  Variable e : env.

  Lemma good_nil s (P : st -> Prop) : P s -> good e [] s P.
  Proof. intros H. exists s. split; auto. Qed.

  Lemma good_app a b s (P Q : st -> Prop) : good e a s P -> (forall s', P s' -> good e b s' Q) ->
    good e (a ++ b) s Q.
  Proof.
    intros (s' & R & H) Hb. destruct (Hb s' H) as (t & Rt & Ht). exists t. split; auto.
    intros l. rewrite <- app_assoc, R. apply Rt.
  Qed.

  Lemma good_halts a b s (P : st -> Prop) r w : good e a s P -> (forall s', P s' -> halts e b s' r w) ->
    halts e (a ++ b) s r w.
  Proof.
    intros (s' & R & H) Hb. destruct (Hb s' H) as (t & Rt & Ht). exists t. split; auto.
    intros l. rewrite <- app_assoc, R. apply Rt.
  Qed.

  Lemma halts_app a b s r w : halts e a s r w -> halts e (a ++ b) s r w.
  Proof. intros (s' & R & H). exists s'. split; auto. intros l. rewrite <- app_assoc. apply R. Qed.

  Lemma good_cons it l s s' P : (forall r, frun e (it :: r) 0 s = frun e r 0 s') -> good e l s' P -> good e (it :: l) s P.
  Proof. intros R (t & Rt & H). exists t. split; auto. intros r. cbn [app]. rewrite R. apply Rt. Qed.

  Lemma good_cons2 it it' l s s' P : (forall r, frun e (it :: it' :: r) 0 s = frun e r 0 s') -> good e l s' P -> good e (it :: it' :: l) s P.
  Proof. intros R (t & Rt & H). exists t. split; auto. intros r. cbn [app]. rewrite R. apply Rt. Qed.

  Lemma halts_cons it l s s' r w : (forall r, frun e (it :: r) 0 s = frun e r 0 s') -> halts e l s' r w -> halts e (it :: l) s r w.
  Proof. intros R (t & Rt & H). exists t. split; auto. intros q. cbn [app]. rewrite R. apply Rt. Qed.

  Lemma good_weaken a s (P Q : st -> Prop) : good e a s P -> (forall s', P s' -> Q s') -> good e a s Q.
  Proof. intros (s' & R & H) HQ. exists s'. auto. Qed.

  Lemma good_jover_yes w op d src body s (P : st -> Prop) : do_jmp s w op d src = Some true -> small body -> P s ->
    good e (jover (Jmp w op d src) body) s P.
  Proof. intros J Sm H. exists s. split; auto. intros l. rewrite frun_jover with (b := true) by auto. reflexivity. Qed.

  Lemma good_jover_no w op d src body s P : do_jmp s w op d src = Some false -> small body -> good e body s P ->
    good e (jover (Jmp w op d src) body) s P.
  Proof.
    intros J Sm (t & R & H). exists t. split; auto. intros l. rewrite frun_jover with (b := false) by auto. apply R.
  Qed.

  Lemma halts_jover_no w op d src body s r x : do_jmp s w op d src = Some false -> small body -> halts e body s r x ->
    halts e (jover (Jmp w op d src) body) s r x.
  Proof.
    intros J Sm (t & R & H). exists t. split; auto. intros l. rewrite frun_jover with (b := false) by auto. apply R.
  Qed.

  Lemma good_frun a s P : good e a s P -> exists s', frun e a 0 s = FNext s' /\ P s'.
  Proof. intros (s' & R & H). exists s'. split; auto. specialize (R []). rewrite app_nil_r in R. exact R. Qed.

  Lemma halts_frun a s r w : halts e a s r w -> exists s', frun e a 0 s = FHalt r s' /\ wd s' = w.
  Proof. intros (s' & R & H). exists s'. split; auto. specialize (R []). rewrite app_nil_r in R. exact R. Qed.

  Lemma good_swich r x opts d b s P : rg s r = VN x ->
    Forall (fun o => fst o < two31) opts -> small (swich r opts (Some d)) ->
    swich_pick x opts d = b -> good e (map I b) s P -> good e (swich r opts (Some d)) s P.
  Proof.
    intros Hx Ho Hs Hp (s' & R & H). exists s'. split; auto. intros l.
    assert (F : frun e (map I (swich_pick x opts d)) 0 s = FNext s').
    { rewrite Hp. specialize (R []). rewrite app_nil_r in R. exact R. }
    rewrite (frun_swich e r x opts d l s Hx Ho Hs); rewrite F; [reflexivity|discriminate].
  Qed.
End G.

(** The block that counts an error and accepts. *)
Lemma halts_fail e c k ifx len s : metas ifx len (stk s) -> rg s R10 = VStk 0 -> n_rules c < 268435456 ->
  e_ncnt e = n_rules c + 2 ->
  halts e (fail_block c k) s (imm64 k) (w_count (wd s) (n_rules c + 1) len).
Proof.
  intros M T Bn Ncnt. unfold fail_block, gen_count. set (idx := n_rules c + 1) in *.
  set (s1 := setr (setr (setr (setr s R1 (rg s R10)) R1 (VStk (ctx_off o_arg))) R2 (VMap MCnt)) R3 (VN (imm32 (i32 idx) mod two32))).
  assert (C : do_call e StubCounters s1 = Some (clobber (setw s1 (w_count (wd s1) idx len)) (VN 0))).
  { unfold do_call, stub_counters. change (rg s1 R1) with (VStk (ctx_off o_arg)).
    change (rg s1 R2) with (VMap MCnt). change (rg s1 R3) with (VN (imm32 (i32 idx) mod two32)).
    cbv iota beta zeta. rewrite imm32_i32, !N.mod_mod by discriminate. rewrite (N.mod_small idx) by (unfold idx, two32; lia).
    rewrite Ncnt. rewrite (proj2 (N.ltb_lt _ _)) by (unfold idx; lia).
    change (ctx_off o_arg + o_pktsize)%Z with (ctx_off o_pktsize).
    change (stk s1) with (stk s). rewrite (mt_ln _ _ _ M). reflexivity. }
  eexists. split.
  - intros l. cbn [app]. rewrite fr_mov64r.
    erewrite fr_add_stk by (rewrite rg_same; exact T). rewrite Z.add_0_l.
    rewrite fr_ldmap, fr_mov32i. fold s1. erewrite fr_call by exact C.
    rewrite fr_mov64i. rewrite (fr_exit e l _ (imm64 k)) by apply rg_same. reflexivity.
  - reflexivity.
Qed.

(** ** Slices *)
Definition holds (e : env) (k : stack) (b : Z) (p : val) (h : list N) : Prop :=
  (exists o, p = VPkt o (N.of_nat (length h)) /\ h = sub (e_pkt e) (N.to_nat o) (length h)) \/
  (p = VStk b /\ rd_stk k b (length h) = map MB h).

Lemma holds_sb e k k' b p h a n : same_but a n k k' -> (b + Z.of_nat (length h) <= a \/ a + n <= b)%Z ->
  holds e k b p h -> holds e k' b p h.
Proof.
  intros S Hb [H|[H1 H2]]; [left; exact H|]. right. split; auto. rewrite (sb_rd a n k k'); auto.
Qed.

Lemma holds_ptr e k b p h : holds e k b p h -> is_ptr p = true.
Proof. intros [(o & -> & _)|[-> _]]; reflexivity. Qed.

Lemma rd_stk_sub k : forall h b o n, rd_stk k b (length h) = map MB h -> (o + n <= length h)%nat ->
  rd_stk k (b + Z.of_nat o) n = map MB (sub h o n).
Proof.
  intros h b o n H Hl.
  assert (E : (length h = o + (n + (length h - o - n)))%nat) by lia.
  rewrite E, rd_stk_app, rd_stk_app in H.
  assert (D : h = sub h 0 o ++ sub h o n ++ skipn (o + n) h).
  { rewrite app_assoc. change (sub h o n) with (sub h (0 + o) n). rewrite <- (sub_app h 0 o n). unfold sub. cbn [skipn Nat.add]. symmetry. apply firstn_skipn. }
  rewrite D in H at 2. rewrite !map_app in H.

  assert (L1 : length (rd_stk k b o) = length (map MB (sub h 0 o))) by (rewrite rd_stk_length, map_length, sub_length; lia).
  assert (A : forall (X : Type) (a b c d : list X), length a = length c -> a ++ b = c ++ d -> a = c /\ b = d).
  { clear. intros X a. induction a as [|x a IH]; intros b [|y c] d L H; try discriminate; cbn in *; auto.
    injection H as -> H. injection L as L. destruct (IH b c d L H) as [-> ->]. auto. }
  apply A in H as [_ H]; auto. apply A in H as [H _]; auto.
  rewrite rd_stk_length, map_length, sub_length; lia.
Qed.

Lemma holds_reads e k0 b p h : holds e k0 b p h -> (-512 <= b)%Z -> (b + Z.of_nat (length h) <= -64)%Z -> reads e k0 p h.
Proof.
  intros H Hb1 Hb2 k w off n Hag Hl. destruct H as [(o & -> & E)|[-> E]]; cbn [mload].
  - rewrite (proj2 (Z.leb_le _ _)), (proj2 (Z.leb_le _ _)) by lia. cbn [andb]. do 2 f_equal.
    rewrite Nat2Z.id. rewrite E, sub_sub by exact Hl. reflexivity.
  - unfold stk_ok. rewrite (proj2 (Z.leb_le _ _)), (proj2 (Z.leb_le _ _)) by lia. cbn [andb]. f_equal.
    apply stk_load_num. rewrite (rd_stk_ext k k0) by (intros; apply Hag; lia).
    apply rd_stk_sub; auto.
Qed.

(** Reading through the pointer right after the slice. *)
Lemma holds_load e k w b p h off n : holds e k b p h -> (-512 <= b)%Z -> (b + Z.of_nat (length h) <= -64)%Z ->
  (off + n <= length h)%nat -> mload e k w p (Z.of_nat off) n = Some (VN (le_dec (sub h off n))).
Proof. intros H H1 H2 H3. apply (holds_reads e k b p h H H1 H2); auto. intros z Hz; reflexivity. Qed.

Lemma call_slice e s d off len b : rg s R1 = VStk d -> rg s R2 = VN off -> rg s R3 = VStk b -> rg s R4 = VN len ->
  stk s d = MP VDyn 0 -> off < two32 -> len < two32 -> stk_ok b (N.to_nat len) = true ->
  match slice (e_pkt e) off len with
  | Some h => exists k' p, do_call e KSlice s = Some (clobber (sets s k') p) /\ holds e k' b p h /\
              same_but b (Z.of_N len) (stk s) k' /\ length h = N.to_nat len
  | None => do_call e KSlice s = Some (clobber s (VN 0))
  end.
Proof.
  intros E1 E2 E3 E4 D Bo Bl Ok1. unfold slice.
  assert (C : do_call e KSlice s = match do_slice e s off len b with
              | Some (s', v) => Some (clobber s' v) | None => None end).
  { unfold do_call. rewrite E1, E2, E3, E4. rewrite D. rewrite !N.mod_small by assumption. reflexivity. }
  unfold do_slice in C. destruct (N.leb_spec (off + len) (N.of_nat (length (e_pkt e)))) as [L|L]; [|exact C].
  assert (LL : length (sub (e_pkt e) (N.to_nat off) (N.to_nat len)) = N.to_nat len) by (apply sub_length; lia).
  destruct (e_direct e off len).
  - exists (stk s), (VPkt off len). split; [rewrite C; destruct s; reflexivity|]. split; [|split; auto].
    + left. exists off. rewrite LL, N2Nat.id. auto.
    + intros z Hz; reflexivity.
  - rewrite Ok1 in C. eexists _, _. split; [exact C|]. split; [|split; auto].
    + right. split; auto. set (h := sub (e_pkt e) (N.to_nat off) (N.to_nat len)). rewrite <- (map_length MB h). apply rd_wr_same.
    + intros z Hz. apply wr_stk_out. rewrite map_length, LL. lia.
Qed.
