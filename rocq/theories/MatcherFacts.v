(** Each matcher's code decides what PktSpec says (proofs only). *)
From Coq Require Import NArith ZArith List Bool Lia Arith.
From Verif Require Import Bytes Types World BpfModel GenModel PktSpec ViewSpec Wf ViewModel Frag BytesFacts NetFacts StepFacts.
Import ListNotations.
Local Open Scope N_scope.

(** The runtime context lies below the scratch area. *)
Definition agree (k k0 : stack) : Prop := forall z, (z < -64)%Z -> k z = k0 z.

Definition reads (e : env) (k0 : stack) (p : val) (h : list N) : Prop :=
  forall k w off n, agree k k0 -> (off + n <= length h)%nat ->
    mload e k w p (Z.of_nat off) n = Some (VN (le_dec (sub h off n))).

(** Packets: what the prologue leaves on the stack. *)
Record ready (e : env) (c : chain) (v : view) (k0 : stack) : Prop := mkReady {
  rd_arg : stk_load k0 (ctx_off o_arg) 8 = VK KCtx;
  rd_if : rd_stk k0 (ctx_off o_ifindex) 4 = map MB (le_enc 4 (v_if v));
  rd_len : stk_load k0 (ctx_off o_pktsize) 8 = VN (v_len v);
  rd_log : c_log c = true -> stk_load k0 (ctx_off o_logmap) 8 = VMap MLog;
  rd_state : c_ratelimit c = true -> stk_load k0 (ctx_off o_statemap) 8 = VSt 0;
  rd_eh : c_nexthdr c = true -> v_l3 v = ETH_P_IPV6 ->
          exists m, stk_load k0 (ctx_off o_eh) 8 = VN m /\
          forall p, is_ext_header p = true -> v_eh v p = negb (N.land m (eh_bit p) =? 0);
  rd_h3 : v_l3 v <> 0 -> reads e k0 (stk_load k0 (ctx_off o_l3hdr) 8) (v_h3 v);
  rd_h4 : v_l4 v <> 0 -> reads e k0 (stk_load k0 (ctx_off o_l4hdr) 8) (v_h4 v);
  rd_b3 : bytes (v_h3 v);
  rd_b4 : bytes (v_h4 v);
  rd_n3 : v_l3 v = ETH_P_IP -> (length (v_h3 v) = 20)%nat;
  rd_n6 : v_l3 v = ETH_P_IPV6 -> (length (v_h3 v) = 40)%nat;
  rd_nt : v_l4 v = IPPROTO_TCP -> (length (v_h4 v) = 20)%nat;
  rd_nu : v_l4 v = IPPROTO_UDP \/ v_l4 v = IPPROTO_ICMP \/ v_l4 v = IPPROTO_ICMPV6 ->
          (length (v_h4 v) = 8)%nat;
  rd_l3 : v_l3 v < 65536;
  rd_l4 : v_l4 v < 256;
  rd_ifb : v_if v < two32;
  rd_lenb : v_len v < two64;
  rd_hash : e_hash e = v_hash v;
  rd_hashb : v_hash v < two32;
  rd_fhash : present v M_FLOW_PROBABILITY = true ->
             v_fhash v = flow_hash (swap16 (v_l3 v)) (v_l4 v) (v_h3 v) (v_h4 v);
  rd_flavor : e_flavor e = hook_flavor (c_hook c);
  rd_sets : forall g, e_sets e g = set_maps c g;
  rd_ncnt : e_ncnt e = n_rules c + 2;
  rd_nstate : e_nstate e = n_rules c;
  rd_rand : forall n, o_rand (e_or e) n < two32;
  rd_nosock : v_sock v = None;
  rd_nsa : hook_flavor (c_hook c) <> F_SOCK_ADDR
}.

(** Socket operations: r6 points to the context. *)
Record sready (e : env) (c : chain) (v : view) (k0 : stack) : Prop := mkSReady {
  sd_len : stk_load k0 (ctx_off o_pktsize) 8 = VN 0;
  sd_log : c_log c = true -> stk_load k0 (ctx_off o_logmap) 8 = VMap MLog;
  sd_state : c_ratelimit c = true -> stk_load k0 (ctx_off o_statemap) 8 = VSt 0;
  sd_view : v = sock_view (c_hook c) (e_pkt e);
  sd_ctx : sock_ctx (e_pkt e);
  sd_bytes : bytes (e_pkt e);
  sd_hook : e_hook e = c_hook c;
  sd_flavor : e_flavor e = F_SOCK_ADDR;
  sd_chain : hook_flavor (c_hook c) = F_SOCK_ADDR;
  sd_sets : forall g, e_sets e g = set_maps c g;
  sd_ncnt : e_ncnt e = n_rules c + 2;
  sd_nstate : e_nstate e = n_rules c;
  sd_rand : forall n, o_rand (e_or e) n < two32
}.

Inductive rdy (e : env) (c : chain) (v : view) (k0 : stack) : Prop :=
| Rdy_pkt (H : ready e c v k0)
| Rdy_sock (H : sready e c v k0).

Lemma rdy_len e c v k0 : rdy e c v k0 -> stk_load k0 (ctx_off o_pktsize) 8 = VN (v_len v).
Proof. intros [H|H]; [apply H|]. rewrite (sd_view _ _ _ _ H). apply H. Qed.
Lemma rdy_log e c v k0 : rdy e c v k0 -> c_log c = true -> stk_load k0 (ctx_off o_logmap) 8 = VMap MLog.
Proof. intros [H|H]; apply H. Qed.
Lemma rdy_state e c v k0 : rdy e c v k0 -> c_ratelimit c = true -> stk_load k0 (ctx_off o_statemap) 8 = VSt 0.
Proof. intros [H|H]; apply H. Qed.
Lemma rdy_l3 e c v k0 : rdy e c v k0 -> v_l3 v < 65536.
Proof.
  intros [H|H]; [apply H|]. rewrite (sd_view _ _ _ _ H). unfold sock_view. cbn [v_l3].
  destruct (_ =? 2); [reflexivity|]. destruct (_ =? 10); reflexivity.
Qed.
Lemma rdy_l4 e c v k0 : rdy e c v k0 -> v_l4 v < 256.
Proof. intros [H|H]; [apply H|]. rewrite (sd_view _ _ _ _ H). apply (sd_ctx _ _ _ _ H). Qed.
Lemma rdy_lenb e c v k0 : rdy e c v k0 -> v_len v < two64.
Proof. intros [H|H]; [apply H|]. rewrite (sd_view _ _ _ _ H). reflexivity. Qed.
Lemma rdy_flavor e c v k0 : rdy e c v k0 -> e_flavor e = hook_flavor (c_hook c).
Proof. intros [H|H]; [apply H|]. rewrite (sd_chain _ _ _ _ H). apply H. Qed.
Lemma rdy_sets e c v k0 : rdy e c v k0 -> forall g, e_sets e g = set_maps c g.
Proof. intros [H|H]; apply H. Qed.
Lemma rdy_ncnt e c v k0 : rdy e c v k0 -> e_ncnt e = n_rules c + 2.
Proof. intros [H|H]; apply H. Qed.
Lemma rdy_nstate e c v k0 : rdy e c v k0 -> e_nstate e = n_rules c.
Proof. intros [H|H]; apply H. Qed.
Lemma rdy_rand e c v k0 : rdy e c v k0 -> forall n, o_rand (e_or e) n < two32.
Proof. intros [H|H]; apply H. Qed.

Record inv (v : view) (k0 : stack) (s : st) : Prop := mkInv {
  i_r10 : rg s R10 = VStk 0;
  i_r7 : rg s R7 = VN (swap16 (v_l3 v));
  i_r8 : rg s R8 = VN (v_l4 v);
  i_stk : agree (stk s) k0;
  i_r6 : v_sock v <> None -> rg s R6 = VK KCtx
}.

Definition free_reg (r : reg) : bool :=
  match r with R6 | R7 | R8 | R10 => false | _ => true end.

Lemma inv_setr v k0 s r x : free_reg r = true -> inv v k0 s -> inv v k0 (setr s r x).
Proof.
  intros H [H1 H2 H3 H4 H5]. constructor; auto; destruct r; try discriminate; cbn; auto.
Qed.

Lemma inv_setr6 v k0 s x : v_sock v = None -> inv v k0 s -> inv v k0 (setr s R6 x).
Proof. intros H [H1 H2 H3 H4 H5]. constructor; auto. congruence. Qed.

Lemma inv_setw v k0 s w : inv v k0 s -> inv v k0 (setw s w).
Proof. intros [H1 H2 H3 H4 H5]. constructor; auto. Qed.

Lemma inv_clobber v k0 s x : inv v k0 s -> inv v k0 (clobber s x).
Proof. intros H. unfold clobber. repeat (apply inv_setr; [reflexivity|]). auto. Qed.

Lemma inv_scratch v k0 s a l : (-64 <= a)%Z -> inv v k0 s -> inv v k0 (sets s (wr_stk (stk s) a l)).
Proof.
  intros Ha [H1 H2 H3 H4 H5]. constructor; auto. intros z Hz. cbn.
  rewrite wr_stk_out by lia. auto.
Qed.

Ltac invs := repeat first [ assumption | apply inv_clobber | apply inv_setw
                          | apply inv_setr; [reflexivity|]
                          | apply inv_setr6; [eapply rd_nosock; eassumption|] ].

(** Loading a slot of the runtime context. *)
Lemma ld_ctx e v k0 s a n x : inv v k0 s -> (-512 <= a)%Z -> (a + Z.of_nat n <= -64)%Z ->
  stk_load k0 a n = x -> mload e (stk s) (wd s) (rg s R10) a n = Some x.
Proof.
  intros H Ha Hb Hx. rewrite (i_r10 _ _ _ H). cbn [mload]. rewrite Z.add_0_l.
  unfold stk_ok. rewrite (proj2 (Z.leb_le _ _)), (proj2 (Z.leb_le _ _)) by lia. cbn [andb].
  rewrite (stk_load_ext (stk s) k0); [congruence|]. intros z Hz. apply (i_stk _ _ _ H). lia.
Qed.

(** Outcome of a matcher's code. *)
Definition yields (e : env) (v : view) (k0 : stack) (l : code) (s : st) (b : bool) (w' : world) : Prop :=
  exists s', frun e l 0 s = (if b then FNext s' else FRule s') /\ inv v k0 s' /\ wd s' = w'.

Lemma yields_eq e v k0 l s b b' w' : yields e v k0 l s b w' -> b = b' -> yields e v k0 l s b' w'.
Proof. intros H <-. exact H. Qed.

Definition keeps (e : env) (v : view) (k0 : stack) (a : code) (s s' : st) : Prop :=
  forall l, frun e (a ++ l) 0 s = frun e l 0 s'.

Lemma keeps_yields e v k0 a b s s' x w' : keeps e v k0 a s s' ->
  yields e v k0 b s' x w' -> yields e v k0 (a ++ b) s x w'.
Proof. intros H (t & Ht & Hi). exists t. rewrite H. auto. Qed.

Lemma keeps_app e v k0 a b s s' s'' : keeps e v k0 a s s' -> keeps e v k0 b s' s'' ->
  keeps e v k0 (a ++ b) s s''.
Proof. intros H1 H2 l. rewrite <- app_assoc, H1. apply H2. Qed.

Ltac fin := eexists; split; [reflexivity | split; [invs | reflexivity]].

(** A single conditional jump to the next rule. *)
Lemma yields_J e v k0 s w64 op d src b : inv v k0 s -> do_jmp s w64 op d src = Some b ->
  yields e v k0 [J (Jmp w64 op d src 0)] s (negb b) (wd s).
Proof.
  intros Hi H. unfold yields. erewrite fr_J by eassumption. destruct b; cbn [negb]; fin.
Qed.

Lemma yields_J' e v k0 s w64 op d src b w : do_jmp s w64 op d src = Some b -> inv v k0 s -> wd s = w ->
  yields e v k0 [J (Jmp w64 op d src 0)] s (negb b) w.
Proof. intros H Hi <-. apply yields_J; auto. Qed.

Lemma yields_JA e v k0 s : inv v k0 s -> yields e v k0 [J (Ja 0)] s false (wd s).
Proof. intros Hi. unfold yields. rewrite fr_JA. fin. Qed.

Lemma jmp_ins_eq m jop : m_op m = OP_EQ -> cmp_jmp_ins m = Ok jop ->
  jop = if m_neg m then JEQ else JNE.
Proof. intros H. unfold cmp_jmp_ins. rewrite H. destruct (m_neg m); cbn; congruence. Qed.

Lemma jtest_neg (n : bool) a b :
  negb (jtest (if n then JEQ else JNE) a b) = xorb n (a =? b).
Proof. destruct n; cbn; destruct (a =? b); reflexivity. Qed.

(** build_imm64 *)
Lemma keeps_imm64 e v k0 d sc data s : data < two64 -> reg_eqb d sc = false -> reg_eqb sc d = false ->
  exists s', keeps e v k0 (build_imm64 d sc data) s s' /\ rg s' d = VN data /\
    (forall r, reg_eqb r d = false -> reg_eqb r sc = false -> rg s' r = rg s r) /\
    stk s' = stk s /\ wd s' = wd s.
Proof.
  intros Hd H1 H2. eexists. split; [|split; [|split; [|split]]].
  - intros l. unfold build_imm64. cbn [app].
    rewrite fr_mov32i.
    unfold LSH64I. erewrite fr_alu64; [|discriminate|apply rg_same|reflexivity].
    rewrite fr_mov32i.
    erewrite fr_alu64; [reflexivity|discriminate| |].
    + rewrite rg_other by auto. apply rg_same.
    + cbn [opval]. apply rg_same.
  - rewrite rg_same. f_equal. cbn [alu64]. rewrite !imm32_i32, !N.mod_mod by discriminate.
    change (imm64 32 mod 64) with 32.
    assert (data / two32 < two32).
    { apply N.div_lt_upper_bound; [discriminate|]. unfold two64, two32 in *. lia. }
    rewrite (N.mod_small (data / two32)) by auto.
    apply imm64_halves. auto.
  - intros r Hr1 Hr2. repeat rewrite rg_other by auto. reflexivity.
  - reflexivity.
  - reflexivity.
Qed.

Lemma inv_of_regs v k0 s s' : inv v k0 s -> rg s' R7 = rg s R7 -> rg s' R8 = rg s R8 ->
  rg s' R10 = rg s R10 -> rg s' R6 = rg s R6 -> stk s' = stk s -> inv v k0 s'.
Proof.
  intros [H1 H2 H3 H4 H5] E7 E8 E10 E6 Es. constructor; try congruence. rewrite Es; exact H4.
  intros H. rewrite E6. auto.
Qed.

Lemma yields_cons e v k0 it l s s' b w' : (forall r, frun e (it :: r) 0 s = frun e r 0 s') ->
  yields e v k0 l s' b w' -> yields e v k0 (it :: l) s b w'.
Proof. intros H (t & Ht & Hi). exists t. rewrite H. auto. Qed.

Lemma yields_jover_taken e v k0 w op d src body rest s b' w' : do_jmp s w op d src = Some true -> small body ->
  yields e v k0 rest s b' w' ->
  yields e v k0 (jover (Jmp w op d src) body ++ rest) s b' w'.
Proof.
  intros Hj Hs (t & Ht & Hi). exists t. rewrite frun_jover with (b := true) by auto. auto.
Qed.

Lemma yields_jover_not e v k0 w op d src body rest s b' w' : do_jmp s w op d src = Some false -> small body ->
  yields e v k0 (body ++ rest) s b' w' ->
  yields e v k0 (jover (Jmp w op d src) body ++ rest) s b' w'.
Proof.
  intros Hj Hs (t & Ht & Hi). exists t. rewrite frun_jover with (b := false) by auto. auto.
Qed.

Lemma yields_nil e v k0 s : inv v k0 s -> yields e v k0 [] s true (wd s).
Proof. intros. exists s. auto. Qed.

Lemma yields_seq e v k0 a b s b1 w1 b2 w2 :
  yields e v k0 a s b1 w1 ->
  (forall s1, inv v k0 s1 -> wd s1 = w1 -> b1 = true -> yields e v k0 b s1 b2 w2) ->
  yields e v k0 (a ++ b) s (if b1 then b2 else false) (if b1 then w2 else w1).
Proof.
  intros (s1 & H1 & Hi1 & Hw1) H2. unfold yields.
  assert (Hne : frun e a 0 s <> FErr) by (rewrite H1; destruct b1; discriminate).
  rewrite frun_app by auto. rewrite H1. destruct b1; cbn [fbind].
  - destruct (H2 s1 Hi1 Hw1 eq_refl) as (s2 & H3 & Hi2 & Hw2). exists s2. auto.
  - exists s1. auto.
Qed.

(** The 128-bit comparison. *)
Lemma yields_halves e v k0 s (neg : bool) x y lo hi :
  inv v k0 s -> rg s R1 = VN x -> rg s R2 = VN y -> lo < two64 -> hi < two64 ->
  yields e v k0 (cmp_halves (if neg then JEQ else JNE) R1 lo hi) s
    (xorb neg ((x =? lo) && (y =? hi))) (wd s).
Proof.
  intros Hi H1 H2 Hlo Hhi. unfold cmp_halves. cbn [reg_succ].
  destruct (keeps_imm64 e v k0 R3 R4 lo s Hlo eq_refl eq_refl) as (s1 & K1 & E1 & O1 & S1 & W1).
  eapply keeps_yields; [exact K1|].
  assert (I1 : inv v k0 s1) by (eapply inv_of_regs; eauto; apply O1; reflexivity).
  assert (R11 : rg s1 R1 = VN x) by (rewrite O1; auto).
  assert (R12 : rg s1 R2 = VN y) by (rewrite O1; auto).
  destruct (keeps_imm64 e v k0 R3 R4 hi s1 Hhi eq_refl eq_refl) as (s2 & K2 & E2 & O2 & S2 & W2).
  assert (I2 : inv v k0 s2) by (eapply inv_of_regs; eauto; apply O2; reflexivity).
  assert (R22 : rg s2 R2 = VN y) by (rewrite O2; auto).
  rewrite <- W1.
  assert (J1 : do_jmp s1 true JNE R1 (Rg R3) = Some (negb (x =? lo)))
    by (erewrite do_jmp_num64; [reflexivity|eauto|exact E1]).
  assert (J2 : do_jmp s2 true JNE R2 (Rg R3) = Some (negb (y =? hi)))
    by (erewrite do_jmp_num64; [reflexivity|eauto|exact E2]).
  destruct neg; cbn [xorb].
  - destruct (N.eqb_spec x lo); cbn [negb andb] in *.
    + rewrite <- (app_nil_r (jover _ _)). eapply yields_jover_not; [exact J1|reflexivity|].
      rewrite app_nil_r. eapply keeps_yields; [exact K2|].
      rewrite <- (app_nil_r (jover _ _)).
      destruct (N.eqb_spec y hi); cbn [negb] in *.
      * eapply yields_jover_not; [exact J2|reflexivity|]. cbn [app]. rewrite <- W2. apply yields_JA; auto.
      * eapply yields_jover_taken; [exact J2|reflexivity|]. rewrite <- W2. apply yields_nil; auto.
    + rewrite <- (app_nil_r (jover _ _)). eapply yields_jover_taken; [exact J1|reflexivity|].
      apply yields_nil; auto.
  - pose proof (yields_J e v k0 s1 _ _ _ _ _ I1 J1) as Y1. rewrite negb_involutive in Y1.
    pose proof (yields_J e v k0 s2 _ _ _ _ _ I2 J2) as Y2. rewrite negb_involutive in Y2.
    destruct Y1 as (t1 & Ht1 & It1 & Wt1). cbn [app].
    unfold yields. erewrite fr_J by exact J1. destruct (N.eqb_spec x lo); cbn [negb andb].
    + rewrite K2. destruct Y2 as (t2 & Ht2 & It2 & Wt2). exists t2. rewrite Ht2.
      rewrite Wt2, W2. destruct (y =? hi); auto.
    + exists s1. auto.
Qed.

(** bf_cmp_value *)
Lemma yields_cmp_value e v k0 s m ref size r x l :
  cmp_value m ref size r = Ok l -> m_op m = OP_EQ -> inv v k0 s ->
  (size = 1 \/ size = 2 \/ size = 4)%nat -> reg_eqb r R2 = false ->
  rg s r = VN x -> bytes ref -> (size <= length ref)%nat ->
  yields e v k0 l s (xorb (m_neg m) (x =? le_dec (firstn size ref))) (wd s).
Proof.
  intros H Hop Hi Hsz Hr2 Hx Hb Hl.
  unfold cmp_value in H. rewrite Hop in H.
  destruct (cmp_jmp_ins m) as [jop|] eqn:Hj; [|discriminate]. cbn [bind] in H.
  pose proof (jmp_ins_eq m jop Hop Hj) as Ej.
  assert (Hbf : bytes (firstn size ref)) by (apply bytes_firstn; auto).
  assert (Hlf : length (firstn size ref) = size) by (rewrite firstn_length; lia).
  pose proof (le_dec_bound_n _ size Hbf Hlf) as Bd.
  destruct Hsz as [-> | [-> | ->]].
  - injection H as <-. rewrite <- jtest_neg. subst jop. apply yields_J; auto.
    apply do_jmp_num64; auto. cbn [opval]. rewrite imm64_i32; auto.
    eapply N.lt_trans; [exact Bd|reflexivity].
  - injection H as <-. rewrite <- jtest_neg. subst jop. apply yields_J; auto.
    apply do_jmp_num64; auto. cbn [opval]. rewrite imm64_i32; auto.
    eapply N.lt_trans; [exact Bd|reflexivity].
  - injection H as <-. eapply yields_cons; [intros; apply fr_mov32i|].
    rewrite imm32_i32, N.mod_mod, N.mod_small by (try discriminate; exact Bd).
    rewrite <- jtest_neg. subst jop. eapply yields_J'; [|invs|reflexivity].
    apply do_jmp_num64; [|apply rg_same]. rewrite rg_other; auto.
Qed.

Lemma yields_cmp_value16 e v k0 s m ref x y l :
  cmp_value m ref 16 R1 = Ok l -> m_op m = OP_EQ -> inv v k0 s ->
  rg s R1 = VN x -> rg s R2 = VN y -> bytes ref -> (length ref = 16)%nat ->
  yields e v k0 l s (xorb (m_neg m) ((x =? le_dec (sub ref 0 8)) && (y =? le_dec (sub ref 8 8)))) (wd s).
Proof.
  intros H Hop Hi Hx Hy Hb Hl.
  unfold cmp_value in H. rewrite Hop in H.
  destruct (cmp_jmp_ins m) as [jop|] eqn:Hj; [|discriminate]. cbn [bind] in H.
  pose proof (jmp_ins_eq m jop Hop Hj) as Ej. injection H as <-. subst jop.
  apply yields_halves; auto;
    apply (le_dec_bound_n _ 8); try (apply bytes_sub; auto); apply sub_length; lia.
Qed.

(** ** Field loads *)

Lemma keeps_ctx e v k0 s d o x : inv v k0 s -> (-512 <= ctx_off o)%Z -> (ctx_off o + 8 <= -64)%Z ->
  stk_load k0 (ctx_off o) 8 = x ->
  forall r, frun e (I (Ldx SDW d R10 (ctx_off o)) :: r) 0 s = frun e r 0 (setr s d x).
Proof.
  intros Hi H1 H2 Hx r. erewrite fr_ldx; [reflexivity|]. eapply ld_ctx; eauto.
Qed.

Definition hdr_of (v : view) (l : layer) : list N :=
  match l with L_3 => v_h3 v | L_4 => v_h4 v | L_NONE => [] end.

Definition slot_of (l : layer) : Z :=
  match l with L_3 => ctx_off o_l3hdr | _ => ctx_off o_l4hdr end.

Definition there (v : view) (t : mtype) : Prop :=
  match mt_layer (meta_of t) with
  | L_3 => v_l3 v = mt_hdr (meta_of t)
  | L_4 => v_l4 v = mt_hdr (meta_of t)
  | L_NONE => True
  end.

Lemma present_there v t : late t = false -> present v t = true -> there v t.
Proof.
  destruct t; cbn; try discriminate; auto;
    unfold has_ip4, has_ip6, has_tcp, has_udp, has_icmp, has_icmp6; intros _ H; apply N.eqb_eq in H; exact H.
Qed.

Lemma there_present v t : late t = false -> t <> M_SET -> there v t -> present v t = true.
Proof.
  destruct t; cbn; try discriminate; auto; intros _ _ H;
    unfold has_ip4, has_ip6, has_tcp, has_udp, has_icmp, has_icmp6; rewrite H; reflexivity.
Qed.

Lemma field_len e c v k0 t : ready e c v k0 -> there v t -> mt_layer (meta_of t) <> L_NONE ->
  (mt_off (meta_of t) + mt_size (meta_of t) <= length (hdr_of v (mt_layer (meta_of t))))%nat.
Proof.
  intros Hr Ht Hn. destruct t; cbn in *; try congruence;
    first [ rewrite (rd_n3 _ _ _ _ Hr) by auto | rewrite (rd_n6 _ _ _ _ Hr) by auto
          | rewrite (rd_nt _ _ _ _ Hr) by auto | rewrite (rd_nu _ _ _ _ Hr) by auto ]; lia.
Qed.

Lemma hdr_bytes e c v k0 l : ready e c v k0 -> bytes (hdr_of v l).
Proof. intros Hr. destruct l; cbn; [constructor | apply (rd_b3 _ _ _ _ Hr) | apply (rd_b4 _ _ _ _ Hr)]. Qed.

Lemma hdr_reads e c v k0 t : ready e c v k0 -> there v t -> mt_layer (meta_of t) <> L_NONE ->
  reads e k0 (stk_load k0 (slot_of (mt_layer (meta_of t))) 8) (hdr_of v (mt_layer (meta_of t))).
Proof.
  intros Hr Ht Hn. destruct t; cbn in *; try congruence;
    first [ apply (rd_h3 _ _ _ _ Hr) | apply (rd_h4 _ _ _ _ Hr) ]; rewrite Ht; discriminate.
Qed.

(** After the header load, r6 points to the header. *)
Lemma keeps_header e c v k0 s t a : ready e c v k0 -> inv v k0 s -> there v t ->
  mt_layer (meta_of t) <> L_NONE ->
  load_header (meta_of t) R6 = Ok a ->
  let s' := setr s R6 (stk_load k0 (slot_of (mt_layer (meta_of t))) 8) in
  keeps e v k0 a s s' /\ inv v k0 s'.
Proof.
  intros Hr Hi Ht Hn Ha s'. split; [|subst s'; invs].
  intros l. destruct (mt_layer (meta_of t)) eqn:El; [congruence| |];
    unfold load_header in Ha; rewrite El in Ha; injection Ha as <-; cbn [app];
    [ apply (keeps_ctx e v k0 s R6 o_l3hdr) | apply (keeps_ctx e v k0 s R6 o_l4hdr) ];
    auto; unfold ctx_off, RT_SIZE, o_l3hdr, o_l4hdr; lia.
Qed.

Definition fieldb (v : view) (t : mtype) : list N :=
  sub (hdr_of v (mt_layer (meta_of t))) (mt_off (meta_of t)) (mt_size (meta_of t)).

Lemma keeps_load e c v k0 s t a : ready e c v k0 -> inv v k0 s -> there v t ->
  mt_layer (meta_of t) <> L_NONE -> pkt_load (meta_of t) R1 = Ok a ->
  exists s', keeps e v k0 a s s' /\ inv v k0 s' /\ wd s' = wd s /\
   (mt_size (meta_of t) <> 16%nat -> rg s' R1 = VN (le_dec (fieldb v t))) /\
   (mt_size (meta_of t) = 16%nat ->
      rg s' R1 = VN (le_dec (sub (fieldb v t) 0 8)) /\ rg s' R2 = VN (le_dec (sub (fieldb v t) 8 8))).
Proof.
  intros Hr Hi Ht Hn Ha. unfold pkt_load in Ha.
  destruct (load_header (meta_of t) R6) as [h|] eqn:Hh; [|discriminate]. cbn [bind] in Ha.
  destruct (load_field (meta_of t) R1) as [f|] eqn:Hf; [|discriminate]. cbn [bind] in Ha.
  injection Ha as <-.
  destruct (keeps_header e c v k0 s t h Hr Hi Ht Hn Hh) as [K1 I1].
  pose proof (hdr_reads e c v k0 t Hr Ht Hn) as RD.
  pose proof (field_len e c v k0 t Hr Ht Hn) as FL.
  set (s1 := setr s R6 _) in *.
  assert (R16 : rg s1 R6 = stk_load k0 (slot_of (mt_layer (meta_of t))) 8) by reflexivity.
  unfold load_field in Hf.
  set (o := mt_off (meta_of t)) in *. set (n := mt_size (meta_of t)) in *.
  unfold fieldb. fold o n.
  assert (L : forall d u s2 r off, inv v k0 s2 -> rg s2 R6 = rg s1 R6 -> (off + szn u <= length (hdr_of v (mt_layer (meta_of t))))%nat ->
     frun e (I (Ldx u d R6 (Z.of_nat off)) :: r) 0 s2 =
     frun e r 0 (setr s2 d (VN (le_dec (sub (hdr_of v (mt_layer (meta_of t))) off (szn u)))))).
  { intros d u s2 r off I2 E2 Hb. erewrite fr_ldx; [reflexivity|]. rewrite E2, R16. apply RD; auto.
    apply (i_stk _ _ _ I2). }
  assert (Hsz : (n = 1 \/ n = 2 \/ n = 4 \/ n = 8 \/ n = 16)%nat).
  { destruct n as [|[|[|[|[|[|[|[|[|[|[|[|[|[|[|[|[|]]]]]]]]]]]]]]]]]; try discriminate; auto. }
  destruct Hsz as [En|[En|[En|[En|En]]]]; rewrite En in Hf; injection Hf as <-; rewrite En in *.
  1-4: (eexists; split; [|split; [|split; [|split]]];
    [ eapply keeps_app; [exact K1|]; intros r; cbn [app]; apply L; auto; cbn [szn]; lia
    | invs | reflexivity
    | intros _; rewrite rg_same; reflexivity | intros Hbad; discriminate Hbad ]).
  eexists; split; [|split; [|split; [|split]]].
  - eapply keeps_app; [exact K1|]. intros r; cbn [app]. rewrite L; auto; [|cbn [szn]; lia].
    replace (Z.of_nat o + 8)%Z with (Z.of_nat (o + 8)) by lia.
    rewrite L; [reflexivity|invs|reflexivity|cbn [szn]; lia].
  - invs.
  - reflexivity.
  - intros Hbad. exfalso. apply Hbad. reflexivity.
  - intros _. split.
    + rewrite rg_other by reflexivity. rewrite rg_same. f_equal. cbn [szn].
      rewrite sub_sub by lia. rewrite Nat.add_0_r. reflexivity.
    + cbn [reg_succ]. rewrite rg_same. f_equal. cbn [szn]. rewrite sub_sub by lia. reflexivity.
Qed.

Lemma fieldb_fld v t : mt_layer (meta_of t) <> L_NONE -> t <> M_IP4_DSCP -> t <> M_IP6_DSCP ->
  fieldb v t = fld v t.
Proof. destruct t; cbn; intros; try congruence; reflexivity. Qed.

Lemma fieldb_bytes e c v k0 t : ready e c v k0 -> bytes (fieldb v t).
Proof. intros. apply bytes_sub. eapply hdr_bytes; eauto. Qed.

Lemma fieldb_length e c v k0 t : ready e c v k0 -> there v t -> mt_layer (meta_of t) <> L_NONE ->
  length (fieldb v t) = mt_size (meta_of t).
Proof. intros. apply sub_length. eapply field_len; eauto. Qed.

(** ** The packet matchers *)

(** Exact comparison of a field with the payload. *)
Lemma yields_load_cmp e c v k0 s m t l : ready e c v k0 -> inv v k0 s -> there v t ->
  mt_layer (meta_of t) <> L_NONE -> m_op m = OP_EQ ->
  (l' <- pkt_load (meta_of t) R1 ; b <- cmp_value m (m_pay m) (mt_size (meta_of t)) R1 ; Ok (l' ++ b))%res = Ok l ->
  bytes (m_pay m) -> length (m_pay m) = mt_size (meta_of t) ->
  (mt_size (meta_of t) <> 8)%nat ->
  yields e v k0 l s (xorb (m_neg m) (bytes_eqb (fieldb v t) (m_pay m))) (wd s).
Proof.
  intros Hr Hi Ht Hn Hop Hl Hb Hlen H8.
  destruct (pkt_load (meta_of t) R1) as [a|] eqn:Ha; [|discriminate]. cbn [bind] in Hl.
  destruct (cmp_value m (m_pay m) (mt_size (meta_of t)) R1) as [b|] eqn:Hcmp; [|discriminate].
  cbn [bind] in Hl. injection Hl as <-.
  destruct (keeps_load e c v k0 s t a Hr Hi Ht Hn Ha) as (s1 & K1 & I1 & W1 & V1 & V2).
  eapply keeps_yields; [exact K1|]. rewrite <- W1.
  pose proof (fieldb_bytes e c v k0 t Hr) as FB.
  pose proof (fieldb_length e c v k0 t Hr Ht Hn) as FL.
  destruct (Nat.eq_dec (mt_size (meta_of t)) 16) as [E16|N16].
  - rewrite E16 in *. destruct (V2 eq_refl) as [Ex Ey].
    eapply yields_eq; [eapply yields_cmp_value16; eauto|].
    f_equal. rewrite !le_dec_eqb by (try apply bytes_sub; auto; rewrite !sub_length; lia).
    apply eq_true_iff_eq. rewrite andb_true_iff, !bytes_eqb_eq. split.
    + intros [E1 E2]. rewrite <- (sub_all (fieldb v t)), <- (sub_all (m_pay m)).
      rewrite FL, Hlen. change 16%nat with (8 + 8)%nat. rewrite !sub_app. cbn [Nat.add]. congruence.
    + intros ->. auto.
  - eapply yields_eq; [eapply yields_cmp_value; eauto|].
    + unfold cmp_value in Hcmp. rewrite Hop in Hcmp.
      destruct (cmp_jmp_ins m); [|discriminate]. cbn [bind] in Hcmp. clear - Hcmp N16 H8.
      destruct (mt_size (meta_of t)) as [|[|[|[|[|[|[|[|[|[|[|[|[|[|[|[|[|]]]]]]]]]]]]]]]]]; try discriminate; auto; congruence.
    + rewrite Hlen. auto.
    + f_equal. rewrite <- Hlen, firstn_all. apply le_dec_eqb; auto. congruence.
Qed.

(** Range comparison (32-bit). *)
Lemma yields_range e v k0 s m mn mx r x : inv v k0 s -> rg s r = VN x -> x < two32 ->
  mn < two32 -> mx < two32 ->
  yields e v k0 (cmp_range m mn mx r) s (xorb (m_neg m) (in_range x mn mx)) (wd s).
Proof.
  intros Hi Hx Bx Bmn Bmx. unfold cmp_range, in_range.
  assert (J1 : do_jmp s false JLT r (Im (i32 mn)) = Some (x <? mn)).
  { erewrite do_jmp_num32; eauto; [|reflexivity]. cbn [jtest]. rewrite imm32_i32, N.mod_mod by discriminate.
    rewrite !N.mod_small by auto. reflexivity. }
  assert (J2 : do_jmp s false JGT r (Im (i32 mx)) = Some (mx <? x)).
  { erewrite do_jmp_num32; eauto; [|reflexivity]. cbn [jtest]. rewrite imm32_i32, N.mod_mod by discriminate.
    rewrite !N.mod_small by auto. reflexivity. }
  rewrite !N.leb_antisym.
  destruct (m_neg m); cbn [xorb].
  - rewrite <- (app_nil_r (jover _ _)). destruct (x <? mn); cbn [negb andb].
    + eapply yields_jover_taken; [exact J1|reflexivity|]. apply yields_nil; auto.
    + eapply yields_jover_not; [exact J1|reflexivity|]. rewrite app_nil_r.
      rewrite <- (app_nil_r (jover _ _)). destruct (mx <? x); cbn [negb].
      * eapply yields_jover_taken; [exact J2|reflexivity|]. apply yields_nil; auto.
      * eapply yields_jover_not; [exact J2|reflexivity|]. apply yields_JA; auto.
  - unfold yields. erewrite fr_J by exact J1. destruct (x <? mn); cbn [negb andb].
    + exists s. auto.
    + erewrite fr_J by exact J2. destruct (mx <? x); cbn [negb]; exists s; auto.
Qed.
