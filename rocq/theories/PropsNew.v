(** C20, C21, C49: construction of chains. *)
From Coq Require Import NArith ZArith List Bool Lia.
From Verif Require Import Bytes Types World BpfModel GenModel PktSpec ViewSpec Wf WfDec ViewModel EvalSpec Deploy ChainSpec
  ChainModel NewSpec NewFacts NewFacts2 Fixtures.
Import ListNotations.
Local Open Scope N_scope.

(** *** C21: which chains are accepted, and what they become *)
Theorem C21_accepted_iff : forall hook_id policy_id sets rules,
  (exists c, chain_new hook_id policy_id sets rules = Ok c) <->
  exists h, hook_of_id hook_id = Some h /\ In policy_id [0; 1; 4] /\ Forall (rule_ok h sets) rules.
Proof. exact chain_new_iff. Qed.
Print Assumptions C21_accepted_iff.

Theorem C21_hooks : forall n, (exists h, hook_of_id n = Some h) <-> n < 14.
Proof. exact hook_iff. Qed.
Print Assumptions C21_hooks.

Theorem C21_result : forall hook_id policy_id sets rules c,
  chain_new hook_id policy_id sets rules = Ok c ->
  hook_of_id hook_id = Some (c_hook c) /\ verdict_of_id policy_id = Some (c_policy c) /\ c_sets c = sets /\
  length (c_rules c) = length rules /\
  (forall k r, nth_error rules k = Some r -> exists r', nth_error (c_rules c) k = Some r' /\ same_options r r' /\
     r_index r' = N.of_nat k /\ (r_disabled r' = true <-> uses_empty_set sets r \/ mixes_protocols sets r)).
Proof. exact chain_new_result. Qed.
Print Assumptions C21_result.

(** Appending a rule to a chain accepts the same rules. *)
Theorem C21_add_rule : forall c r,
  ((exists c', chain_add_rule c r = Ok c') <-> rule_ok (c_hook c) (c_sets c) r) /\
  (forall c', chain_add_rule c r = Ok c' ->
    c_hook c' = c_hook c /\ c_policy c' = c_policy c /\ c_sets c' = c_sets c /\
    exists r', c_rules c' = c_rules c ++ [r'] /\ same_options r r' /\ r_index r' = N.of_nat (length (c_rules c)) /\
      (r_disabled r' = true <-> uses_empty_set (c_sets c) r \/ mixes_protocols (c_sets c) r)).
Proof. exact add_rule_result. Qed.
Print Assumptions C21_add_rule.

Definition ex_rules21 : list rule :=
  [ex_rule 9 [mkM M_IP4_SADDR OP_EQ false [10;0;0;1]; mkM M_TCP_DPORT OP_EQ false [0;80]] V_DROP;
   ex_rule 9 [mkM M_IP4_SADDR OP_EQ false [10;0;0;1]; mkM M_IP6_NEXTHDR OP_EQ false [6]] V_DROP;
   ex_rule 9 [mkM M_SET OP_IN false [1;0;0;0]] V_DROP;
   ex_rule 9 [mkM M_SET OP_IN false [0;0;0;0]; mkM M_UDP_DPORT OP_EQ false [0;80]] V_DROP;
   ex_rule 9 [mkM M_SET OP_IN false [0;0;0;0]] V_DROP].
Definition ex_sets21 : list bset :=
  [mkS [M_IP4_SADDR; M_TCP_DPORT] 6 false [[10;0;0;1;1;187]]; mkS [M_IP4_SADDR] 4 false []].
Example C21_case :
  match chain_new 0 1 ex_sets21 ex_rules21 with
  | Ok c => map r_disabled (c_rules c) = [false; true; true; true; false] /\ map r_index (c_rules c) = [0;1;2;3;4]
  | Er _ => False
  end /\
  chain_new 10 0 ex_sets21 [ex_rule 0 [mkM M_TCP_FLAGS OP_EQ false [2]] V_DROP] = Er ENOTSUP /\
  chain_new 10 0 ex_sets21 [ex_rule 0 [mkM M_SET OP_IN false [2;0;0;0]] V_DROP] = Er EINVAL /\
  chain_new 0 2 [] [] = Er EINVAL /\ chain_new 14 0 [] [] = Er EINVAL.
Proof. vm_compute. auto. Qed.

(** *** C20: disabled rules could not have matched *)
(** For every packet, every random draw and every reading of the matchers.  Missing:
    rules that negate a reference to an empty set, for which the property fails. *)
Theorem C20_disabled_never_match_partial : forall hook_id policy_id sets rules c r,
  chain_new hook_id policy_id sets rules = Ok c -> In r (c_rules c) -> r_disabled r = true -> ~ negates_empty_set sets r ->
  forall D thr or v w, fst (rule_matches D thr or sets v (enable r) w) = false.
Proof. exact disabled_never. Qed.
Print Assumptions C20_disabled_never_match_partial.

(** The loaded program does what the chain with all its rules enabled says: same
    return code, same counters, logs and marks. *)
Theorem C20_same_result_partial : forall hook_id policy_id sets rules c prog e v,
  chain_new hook_id policy_id sets rules = Ok c -> deployed c prog e ->
  (forall r, In r (c_rules c) -> steady r) -> (forall r, In r (c_rules c) -> ~ negates_empty_set sets r) ->
  view_of e c = Some v ->
  forall w, exists k w3, exec e prog w = Done k w3 /\
    let '(d, w') := eval_chain Generated prob_threshold (e_or e) (c_sets c) v (c_policy c) (map enable (c_rules c)) w in
    finish (hook_flavor (c_hook c)) (e_or e) d w' = Some (k, w3).
Proof. exact same_result. Qed.
Print Assumptions C20_same_result_partial.

Definition ex_c20 : chain := match chain_new 0 0 ex_sets21 ex_rules21 with Ok c => c | Er _ => ex_chain end.
Definition ex_p20 : list insn := match gen_program ex_c20 with Ok p => p | Er _ => [] end.
Example C20_case : chain_new 0 0 ex_sets21 ex_rules21 = Ok ex_c20 /\ deployed ex_c20 ex_p20 (ex_env ex_c20 ex_pkt 3 0) /\
  (forall r, In r (c_rules ex_c20) -> steady r) /\ (forall r, In r (c_rules ex_c20) -> ~ negates_empty_set ex_sets21 r) /\
  existsb r_disabled (c_rules ex_c20) = true /\ view_of (ex_env ex_c20 ex_pkt 3 0) ex_c20 <> None /\
  code_of (exec (ex_env ex_c20 ex_pkt 3 0) ex_p20 w_nil) = Some 1.
Proof.
  split; [vm_compute; reflexivity|]. split; [apply ex_deployed; vm_compute; reflexivity|].
  assert (E : c_rules ex_c20 = [nth 0 (c_rules ex_c20) (ex_rule 0 [] V_DROP); nth 1 (c_rules ex_c20) (ex_rule 0 [] V_DROP);
    nth 2 (c_rules ex_c20) (ex_rule 0 [] V_DROP); nth 3 (c_rules ex_c20) (ex_rule 0 [] V_DROP); nth 4 (c_rules ex_c20) (ex_rule 0 [] V_DROP)])
    by (vm_compute; reflexivity).
  split; [|split; [|split; [vm_compute; reflexivity|split; vm_compute; [discriminate|reflexivity]]]]; rewrite E.
  - intros r H. cbn [In] in H. destruct H as [<-|[<-|[<-|[<-|[<-|[]]]]]]; intros m Hm; vm_compute in Hm;
      repeat (destruct Hm as [<-|Hm]; [split; discriminate|]); destruct Hm.
  - intros r H. cbn [In] in H. destruct H as [<-|[<-|[<-|[<-|[<-|[]]]]]]; intros (m & s & Hm & A & B & C & K); vm_compute in Hm;
      repeat (destruct Hm as [<-|Hm]; [cbn in K; discriminate K|]); destruct Hm.
Qed.

(** Finding F30: "not in an empty set" holds for every packet of the protocol, but the
    rule is disabled: the packet it should drop goes through. *)
Definition ex_rule30 : rule := ex_rule 0 [mkM M_SET OP_IN true [0;0;0;0]] V_DROP.
Definition ex_sets30 : list bset := [mkS [M_IP4_SADDR] 4 false []].
Definition ex_c30 : chain := match chain_new 0 0 ex_sets30 [ex_rule30] with Ok c => c | Er _ => ex_chain end.
Definition ex_p30 : list insn := match gen_program ex_c30 with Ok p => p | Er _ => [] end.
Theorem C20_negated_empty_set_refuted : exists hook_id policy_id sets rules c prog e v,
  chain_new hook_id policy_id sets rules = Ok c /\ deployed c prog e /\ (forall r, In r (c_rules c) -> steady r) /\
  view_of e c = Some v /\
  fst (eval_chain Documented prob_threshold (e_or e) (c_sets c) v (c_policy c) (map enable (c_rules c)) w_nil) = DVerdict V_DROP /\
  returns c e prog w_nil V_ACCEPT.
Proof.
  exists 0, 0, ex_sets30, [ex_rule30], ex_c30, ex_p30, (ex_env ex_c30 ex_pkt 3 0).
  destruct (view_of (ex_env ex_c30 ex_pkt 3 0) ex_c30) as [v|] eqn:E; [|vm_compute in E; discriminate].
  exists v. split; [vm_compute; reflexivity|]. split; [apply ex_deployed; vm_compute; reflexivity|]. split.
  { intros r H. vm_compute in H. destruct H as [<-|[]]. intros m [<-|[]]. split; discriminate. }
  split; [reflexivity|]. split; [vm_compute in E; injection E as <-; vm_compute; reflexivity|].
  eexists. eexists. split; [vm_compute; reflexivity|reflexivity].
Qed.
Print Assumptions C20_negated_empty_set_refuted.

(** *** C49: what is accepted can be loaded *)
(** Every accepted chain compiles, except redirections the hook can
    not do (XDP: to the ingress side; Netfilter, cgroup). *)
Theorem C49_accepted_chains_compile : forall hook_id policy_id sets rules c,
  chain_new hook_id policy_id sets rules = Ok c ->
  Forall wf_set sets -> Forall rule_range rules ->
  (forall r m, In r rules -> In m (r_matchers r) -> has_threshold m) -> (forall r, In r rules -> can_redirect (c_hook c) r) ->
  exists prog, gen_program c = Ok prog.
Proof. exact accepted_generates. Qed.
Print Assumptions C49_accepted_chains_compile.

(** The hypotheses of the packet theorems (C01-C19, C36-C42) are met by every chain
    accepted by bf_chain_new, up to the sizes said there. *)
Theorem C49_accepted_chains_deploy : forall hook_id policy_id sets rules c e,
  chain_new hook_id policy_id sets rules = Ok c ->
  Forall wf_set sets -> (Z.of_nat (length sets) < 262144)%Z -> N.of_nat (length rules) < 268435456 -> Forall rule_range rules ->
  (forall r m, In r rules -> In m (r_matchers r) -> has_threshold m) -> (forall r, In r rules -> can_redirect (c_hook c) r) ->
  (forall r, In r rules -> (length (r_matchers r) <= 100)%nat) ->
  (forall r m, In r rules -> In m (r_matchers r) -> key_fits c m) -> wf_env c e ->
  exists prog, deployed c prog e.
Proof. exact accepted_deploys. Qed.
Print Assumptions C49_accepted_chains_deploy.

Example C49_case : forallb wf_setb ex_sets21 = true /\ Forall rule_range ex_rules21 /\
  (forall r m, In r ex_rules21 -> In m (r_matchers r) -> has_threshold m) /\ (forall r, In r ex_rules21 -> can_redirect H_XDP r).
Proof.
  split; [vm_compute; reflexivity|]. split; [|split].
  - apply Forall_forall. intros r H. cbn [In ex_rules21] in H.
    assert (W : forallb wf_matcherb (r_matchers r) = true) by (destruct H as [<-|[<-|[<-|[<-|[<-|[]]]]]]; vm_compute; reflexivity).
    constructor; [|destruct H as [<-|[<-|[<-|[<-|[<-|[]]]]]]; reflexivity ..].
    apply Forall_forall. intros m Hm. rewrite forallb_forall in W. apply wf_matcherb_ok. auto.
  - intros r m H Hm [E|E]; cbn [In ex_rules21] in H; destruct H as [<-|[<-|[<-|[<-|[<-|[]]]]]]; cbn in Hm;
      repeat (destruct Hm as [<-|Hm]; [discriminate E|]); destruct Hm.
  - intros r H E. cbn [In ex_rules21] in H. destruct H as [<-|[<-|[<-|[<-|[<-|[]]]]]]; discriminate E.
Qed.

(** A redirection that is accepted by bf_chain_new and refused when the chain is
    loaded. *)
Example C49_redirect_refused_late : exists c,
  chain_new 2 0 [] [mkR 0 [] 0 0 0 false false V_REDIRECT 3 D_EGRESS] = Ok c /\ gen_program c = Er ENOTSUP.
Proof. exists (mkC H_NF_PRE_ROUTING V_ACCEPT [] [mkR 0 [] 0 0 0 false false V_REDIRECT 3 D_EGRESS] false false false). split; vm_compute; reflexivity. Qed.
