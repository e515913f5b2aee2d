(** A rule whose code does not fit in 16-bit jump offsets (finding F7; proofs only). *)
From Coq Require Import NArith ZArith List Bool Lia Arith.
From Verif Require Import Bytes Types World BpfModel GenModel PktSpec Wf Frag StepFacts MatcherFacts2 WfDec JumpSpec Fixtures.
Import ListNotations.
Local Open Scope nat_scope.

Definition long_m : matcher := mkM M_IP4_SADDR OP_EQ false [10;0;0;1]%N.
Definition long_chain (n : nat) : chain :=
  mkC H_XDP V_ACCEPT [] [ex_rule 0 (repeat long_m (S n)) V_DROP] false false false.

Lemma long_code c : c_hook c = H_XDP -> exists l, gen_matcher c long_m = Ok l /\ length l = 4.
Proof. intros H. unfold gen_matcher. rewrite H. eexists. split; reflexivity. Qed.

Lemma long_matchers c : c_hook c = H_XDP -> forall n, exists l, gen_matchers c (repeat long_m n) = Ok l /\ length l = 4 * n.
Proof.
  intros H. destruct (long_code c H) as (x & E & L). induction n as [|n (l & IH & IL)]; [exists []; auto|].
  exists (x ++ l). cbn [repeat gen_matchers]. rewrite E, IH. cbn [bind]. rewrite app_length. split; auto. lia.
Qed.

Lemma long_guards c n : gen_guards c (repeat long_m n) (true, false) = Ok [].
Proof. induction n; auto. cbn [repeat gen_guards]. cbn [matcher_types long_m m_type]. cbn. rewrite IHn. reflexivity. Qed.

Lemma long_guards0 c n : gen_guards c (repeat long_m (S n)) (false, false) = Ok [J (Jmp true JNE R7 (Im (i32 (swap16 ETH_P_IP))) 0)].
Proof. cbn [repeat gen_guards]. cbn [matcher_types long_m m_type]. cbn [bind check_protos check_proto]. cbn. rewrite long_guards. reflexivity. Qed.

Lemma long_rule c n : c_hook c = H_XDP -> exists l, gen_rule c (ex_rule 0 (repeat long_m (S n)) V_DROP) = Ok (J (Jmp true JNE R7 (Im (i32 (swap16 ETH_P_IP))) 0) :: l) /\
  length l = 4 * S n + 8.
Proof.
  intros H. destruct (long_matchers c H (S n)) as (l & E & L).
  unfold gen_rule. cbn [r_disabled ex_rule r_matchers]. rewrite long_guards0, E. cbn [bind]. rewrite H. cbn.
  eexists. split; [reflexivity|]. rewrite !app_length. cbn [length]. lia.
Qed.

Lemma long_program n : exists prog k, gen_program (long_chain n) = Ok prog /\
  nth_error prog k = Some (Jmp true JNE R7 (Im (i32 (swap16 ETH_P_IP))) (i16 (Z.of_nat (4 * S n + 8)))).
Proof.
  destruct (long_rule (long_chain n) n eq_refl) as (l & E & L).
  unfold gen_program. destruct (gen_head (long_chain n)) as [h|x] eqn:Eh; [|exfalso; lazy in Eh; discriminate].
  cbn [bind]. cbn [c_rules long_chain gen_rules]. fold (long_chain n). rewrite E. cbn [bind resolve gen_tail get_verdict long_chain c_hook c_policy hook_flavor].
  eexists. exists (length h). split; [reflexivity|]. rewrite nth_error_app2 by (rewrite resolve_length; lia).
  rewrite resolve_length, Nat.sub_diag. rewrite L. reflexivity.
Qed.

Lemma long_wf n : (0 < n) -> wf_chain (long_chain n).
Proof.
  intros _. constructor; cbn [c_sets c_rules long_chain]; [constructor|cbn; lia|reflexivity|]. constructor; [|constructor].
  assert (M : forall m, In m (repeat long_m (S n)) -> m = long_m) by (intros m; apply repeat_spec).
  constructor; cbn [ex_rule r_matchers r_index r_log r_log_rate r_mark r_rd_ifindex r_disabled]; try reflexivity; try congruence.
  - apply Forall_forall. intros m Hm. rewrite (M m Hm). apply wf_matcherb_ok. reflexivity.
  - intros _ t t' Ht Ht' _ _. apply in_flat_map in Ht as (m & Hm & Ht). apply in_flat_map in Ht' as (m' & Hm' & Ht').
    rewrite (M m Hm) in Ht. rewrite (M m' Hm') in Ht'. cbn in Ht, Ht'. destruct Ht as [<-|[]], Ht' as [<-|[]]. reflexivity.
  - intros _ m Hm. rewrite (M m Hm). discriminate.
  - intros _ H. discriminate H.
Qed.

Lemma long_jump : exists c prog, wf_chain c /\ gen_program c = Ok prog /\ ~ jumps_inside prog.
Proof.
  set (n := Z.to_nat 9000). exists (long_chain n). destruct (long_program n) as (prog & k & G & K).
  exists prog. split; [apply long_wf; unfold n; lia|]. split; [exact G|]. intros J.
  destruct (J k _ _ K eq_refl) as [P _].
  assert (Z.of_nat (4 * S n + 8) = 36012)%Z as Q by (unfold n; lia). rewrite Q in P. vm_compute in P. congruence.
Qed.
