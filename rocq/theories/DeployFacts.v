(** Deployed programs: consequences of the main theorem (proofs only). *)
From Coq Require Import NArith ZArith List Bool Lia Arith.
From Verif Require Import Bytes Types World BpfModel GenModel PktSpec ViewSpec Wf ViewModel HeadFacts5 ProgFacts ProgThm
  FitsFacts EvalSpec EvalFacts Deploy.
Import ListNotations.
Local Open Scope N_scope.

Section D.
  Variables (c : chain) (prog : list insn) (e : env).
  Hypothesis Dp : deployed c prog e.
  Notation fl := (hook_flavor (c_hook c)).

  Lemma deployed_run w : exists k w3, exec e prog w = Done k w3 /\
    match view_of e c with
    | Some v =>
        let '(d, w') := eval_chain Generated prob_threshold (e_or e) (c_sets c) v (c_policy c) (c_rules c) w in
        finish fl (e_or e) d w' = Some (k, w3)
    | None => kernel_code fl V_ACCEPT = Some k /\ w3 = w_count w (n_rules c + 1) (p_len (packet_of e (c_hook c)))
    end.
  Proof.
    destruct Dp as [H1 H2 H3 H4 H5]. apply (run_program e c H5 prog w H1); auto.
    apply fits_100; auto. apply (wc_sets _ H1).
  Qed.

  Lemma view_len v : view_of e c = Some v -> v_len v = p_len (packet_of e (c_hook c)).
  Proof.
    unfold view_of, seen. destruct (is_sock_addr (c_hook c)) eqn:EI.
    { intros H. injection H as <-. unfold packet_of. cbn [p_len v_len sock_view]. rewrite EI.
      unfold is_sock_addr in EI. destruct (hook_flavor (c_hook c)); try discriminate. reflexivity. }
    destruct (e_dynptr e =? 0); [|discriminate]. intros H.
    apply (vo_len _ _ (parse_ok _ _ _ _ (we_bytes _ _ (dp_env _ _ _ Dp) : bytes (p_data (packet_of e (c_hook c)))) H)).
  Qed.

  Lemma finish_cnt d w k w3 : finish fl (e_or e) d w = Some (k, w3) -> w_cnt w3 = w_cnt w /\ w_log w3 = w_log w /\ w_ts w3 = w_ts w /\ w_mark w3 = w_mark w.
  Proof.
    unfold finish. destruct d as [vd|i dir].
    - destruct (kernel_code fl vd); [|discriminate]. intros H. injection H as <- <-. auto.
    - intros H. injection H as <- <-. auto.
  Qed.

  (** First-match verdict of steady chains. *)
  Lemma first_match v w : view_of e c = Some v -> (forall r, In r (c_rules c) -> steady r) ->
    exists k w3, exec e prog w = Done k w3 /\
    match decider Generated prob_threshold (c_sets c) v (c_rules c) with
    | Some r => match r_verdict r with
                | V_REDIRECT =>
                    let fl := match fl, r_rd_dir r with F_TC, D_INGRESS => 1 | _, _ => 0 end in
                    k = o_redir (e_or e) (r_rd_ifindex r) fl /\ w_redir w3 = Some (r_rd_ifindex r, fl)
                | vd => kernel_code fl vd = Some k
                end
    | None => kernel_code fl (c_policy c) = Some k
    end.
  Proof.
    intros Hv S. destruct (deployed_run w) as (k & w3 & E & M). exists k, w3. split; [exact E|]. rewrite Hv in M.
    unfold eval_chain in M. rewrite (steady_rules Generated prob_threshold (e_or e) (c_sets c) v (wc_sets _ (dp_chain _ _ _ Dp))) in M by exact S.
    destruct (decider Generated prob_threshold (c_sets c) v (c_rules c)) as [r|] eqn:Ed.
    - unfold decider in Ed. apply find_some in Ed as [_ Ed]. apply andb_true_iff in Ed as [_ Et].
      unfold decision_of in M. unfold terminal in Et. destruct (r_verdict r); try discriminate Et; cbn [finish] in M;
        try (destruct (kernel_code fl _) as [q|]; [|discriminate M]; injection M as <- <-; reflexivity).
      injection M as <- <-. split; reflexivity.
    - cbn [finish] in M. destruct (kernel_code fl (c_policy c)) as [q|]; [|discriminate M]. injection M as <- <-. reflexivity.
  Qed.

  Lemma counters_packet w : indexed (c_rules c) -> (forall r, In r (c_rules c) -> steady r) ->
    exists k w3, exec e prog w = Done k w3 /\ forall i,
      w_cnt w3 i = if hit c e i then bumped (w_cnt w i) (p_len (packet_of e (c_hook c))) else w_cnt w i.
  Proof.
    intros Hi S. destruct (deployed_run w) as (k & w3 & E & M). exists k, w3. split; [exact E|]. intros i. unfold hit.
    destruct (view_of e c) as [v|] eqn:Hv.
    - destruct (eval_chain _ _ _ _ _ _ _ _) as [d w'] eqn:Ee. destruct (finish_cnt _ _ _ _ M) as [-> _].
      pose proof (moved Generated prob_threshold (e_or e) (c_sets c) v (wc_sets _ (dp_chain _ _ _ Dp)) (c_rules c) (c_policy c) w i Hi S) as X.
      rewrite Ee in X. cbn [snd] in X. rewrite X, (view_len v Hv). reflexivity.
    - destruct M as [_ ->]. apply cnt_count.
  Qed.
End D.

(** ** Histories of packets *)
Lemma counters_history c prog ps : indexed (c_rules c) -> (forall r, In r (c_rules c) -> steady r) ->
  (forall e mk, In (e, mk) ps -> deployed c prog e) ->
  forall w, exists w3, play prog ps w = Some w3 /\ forall i,
    fst (w_cnt w3 i) mod two64 = (fst (w_cnt w i) + npkts c ps i) mod two64 /\
    snd (w_cnt w3 i) mod two64 = (snd (w_cnt w i) + nbytes c ps i) mod two64.
Proof.
  intros Hi S. induction ps as [|[e mk] ps IH]; intros Hd w.
  - exists w. split; [reflexivity|]. intros i. unfold npkts, nbytes. cbn. rewrite !N.add_0_r. auto.
  - assert (De : deployed c prog e) by (apply (Hd e mk); left; auto).
    destruct (counters_packet c prog e De (with_mark w mk) Hi S) as (k & w1 & E & C).
    destruct (IH (fun e0 mk0 H => Hd e0 mk0 (or_intror H)) w1) as (w3 & P & C3).
    exists w3. cbn [play]. rewrite E. split; [exact P|]. intros i. destruct (C3 i) as [C4 C5]. rewrite C4, C5.
    specialize (C i). change (w_cnt (with_mark w mk)) with (w_cnt w) in C.
    unfold npkts, nbytes in *. cbn [filter fst]. destruct (hit c e i).
    + rewrite C. unfold bumped. cbn [fst snd map fold_right length]. split.
      * rewrite N.add_mod_idemp_l by discriminate. f_equal. lia.
      * rewrite N.add_mod_idemp_l by discriminate. f_equal. lia.
    + rewrite C. auto.
Qed.
