(** C01-C05, C17, C18: what a deployed chain does with packets.

    [deployed c prog e]: [prog] is the program generated for the well-formed chain
    [c], and [e] (packet bytes, kernel answers) is any environment it runs in.
    [view_of e c = Some v]: the headers of the packet can be read, and give [v]. *)
From Coq Require Import NArith ZArith List Bool Lia.
From Verif Require Import Bytes Types World BpfModel GenModel PktSpec ViewSpec Wf ViewModel ProgThm EvalSpec Deploy ChainSpec LogSpec
  DeployFacts ChainFacts ChainFacts2 LogFacts Fixtures.
Import ListNotations.
Local Open Scope N_scope.

(** *** C01 *)
(** Rules that only look at the packet; the documented meaning of the matchers. *)
Theorem C01_first_match : forall c prog e v,
  deployed c prog e -> view_of e c = Some v ->
  (forall r, In r (c_rules c) -> steady r) ->
  (forall r m, In r (c_rules c) -> In m (r_matchers r) -> quirk_free v m) ->
  forall w, exists k w3, exec e prog w = Done k w3 /\
    code_for c e (decider Documented prob_threshold (c_sets c) v (c_rules c)) k.
Proof. exact first_match_doc. Qed.
Print Assumptions C01_first_match.

(** The same without restriction on the packet, for the matchers as generated (they
    differ from the documentation on the inputs of findings F2, F3 and F8). *)
Theorem C01_first_match_as_generated : forall c prog e v,
  deployed c prog e -> view_of e c = Some v -> (forall r, In r (c_rules c) -> steady r) ->
  forall w, exists k w3, exec e prog w = Done k w3 /\
    code_for c e (decider Generated prob_threshold (c_sets c) v (c_rules c)) k.
Proof. exact first_match_gen. Qed.
Print Assumptions C01_first_match_as_generated.

(** Every chain, including random draws and matchers on a mark that earlier rules
    change: return code and every side effect are those of the reference evaluation. *)
Theorem C01_all_chains : forall c prog e v, deployed c prog e -> view_of e c = Some v ->
  (forall r m, In r (c_rules c) -> In m (r_matchers r) -> quirk_free v m) ->
  forall w, exists k w3, exec e prog w = Done k w3 /\
    let '(d, w') := eval_chain Documented prob_threshold (e_or e) (c_sets c) v (c_policy c) (c_rules c) w in
    finish (hook_flavor (c_hook c)) (e_or e) d w' = Some (k, w3).
Proof. exact general_doc. Qed.
Print Assumptions C01_all_chains.

Theorem C01_all_chains_as_generated : forall c prog e v, deployed c prog e -> view_of e c = Some v ->
  forall w, exists k w3, exec e prog w = Done k w3 /\
    let '(d, w') := eval_chain Generated prob_threshold (e_or e) (c_sets c) v (c_policy c) (c_rules c) w in
    finish (hook_flavor (c_hook c)) (e_or e) d w' = Some (k, w3).
Proof. exact general_gen. Qed.
Print Assumptions C01_all_chains_as_generated.

Lemma ex_steady : forall r, In r (c_rules ex_chain) -> steady r.
Proof.
  intros r Hr m Hm. cbn in Hr. repeat (destruct Hr as [<-|Hr]; [cbn in Hm; repeat (destruct Hm as [<-|Hm]; [split; discriminate|]); destruct Hm|]). destruct Hr.
Qed.
Lemma ex_quirk_free v : forall r m, In r (c_rules ex_chain) -> In m (r_matchers r) -> quirk_free v m.
Proof.
  intros r m Hr Hm. cbn in Hr. repeat (destruct Hr as [<-|Hr]; [cbn in Hm; repeat (destruct Hm as [<-|Hm]; [exact Logic.I|]); destruct Hm|]). destruct Hr.
Qed.

Example C01_case : deployed ex_chain ex_prog (ex_env ex_chain ex_pkt 3 0) /\
  view_of (ex_env ex_chain ex_pkt 3 0) ex_chain <> None /\
  (forall r, In r (c_rules ex_chain) -> steady r) /\
  (forall v r m, In r (c_rules ex_chain) -> In m (r_matchers r) -> quirk_free v m) /\
  code_of (exec (ex_env ex_chain ex_pkt 3 0) ex_prog w_nil) = Some 1 /\
  code_of (exec (ex_env ex_chain ex_pkt2 3 0) ex_prog w_nil) = Some 2.
Proof.
  split; [exact ex_is_deployed|]. split; [vm_compute; discriminate|]. split; [exact ex_steady|]. split; [exact ex_quirk_free|].
  split; vm_compute; reflexivity.
Qed.

(** *** C02: a CONTINUE rule only has side effects *)
Theorem C02_continue : forall c prog prog' e v rs1 r rs2,
  c_rules c = rs1 ++ r :: rs2 -> r_verdict r = V_CONTINUE ->
  deployed c prog e -> deployed (with_rules c (rs1 ++ disable r :: rs2)) prog' e ->
  (forall q, In q (c_rules c) -> steady q) -> indexed (c_rules c) -> view_of e c = Some v ->
  decider Generated prob_threshold (c_sets c) v rs1 = None -> matches Generated prob_threshold (c_sets c) v r = true ->
  forall w, exists k w3 w3', exec e prog w = Done k w3 /\ exec e prog' w = Done k w3' /\
    forall i, w_cnt w3 i = if r_counters r && (i =? r_index r)
                           then bumped (w_cnt w i) (p_len (packet_of e (c_hook c))) else w_cnt w3' i.
Proof. exact continue_transparent. Qed.
Print Assumptions C02_continue.

Definition ex_chain_off : chain :=
  with_rules ex_chain ([] ++ disable (ex_rule 0 [mkM M_IP4_SADDR OP_EQ false [10;0;0;1]] V_CONTINUE) :: tl (c_rules ex_chain)).
Definition ex_prog_off : list insn := match gen_program ex_chain_off with Ok p => p | Er _ => [] end.
Example C02_case : deployed ex_chain_off ex_prog_off (ex_env ex_chain_off ex_pkt 3 0) /\ indexed (c_rules ex_chain) /\
  code_of (exec (ex_env ex_chain_off ex_pkt 3 0) ex_prog_off w_nil) = Some 1.
Proof.
  split; [apply ex_deployed; vm_compute; reflexivity|]. split; [|vm_compute; reflexivity].
  intros i r H. do 3 (destruct i as [|i]; [cbn in H; injection H as <-; reflexivity|]). destruct i; discriminate.
Qed.

(** *** C03: counters *)
Theorem C03_counters_of_a_packet : forall c prog e, deployed c prog e -> forall w,
  indexed (c_rules c) -> (forall r, In r (c_rules c) -> steady r) ->
  exists k w3, exec e prog w = Done k w3 /\ forall i,
    w_cnt w3 i = if hit c e i then bumped (w_cnt w i) (p_len (packet_of e (c_hook c))) else w_cnt w i.
Proof. exact counters_packet. Qed.
Print Assumptions C03_counters_of_a_packet.

Theorem C03_counters_of_a_history : forall c prog ps,
  indexed (c_rules c) -> (forall r, In r (c_rules c) -> steady r) ->
  (forall e mk, In (e, mk) ps -> deployed c prog e) ->
  forall w, exists w3, play prog ps w = Some w3 /\ forall i,
    fst (w_cnt w3 i) mod two64 = (fst (w_cnt w i) + npkts c ps i) mod two64 /\
    snd (w_cnt w3 i) mod two64 = (snd (w_cnt w i) + nbytes c ps i) mod two64.
Proof. exact counters_history. Qed.
Print Assumptions C03_counters_of_a_history.

Example C03_case :
  let ps := [(ex_env ex_chain ex_pkt 3 0, 0); (ex_env ex_chain ex_pkt2 3 0, 0); (ex_env ex_chain [1;2] 3 0, 0)] in
  (forall e mk, In (e, mk) ps -> deployed ex_chain ex_prog e) /\
  map (fun i => (npkts ex_chain ps i, nbytes ex_chain ps i)) [0;1;2;3;4] = [(1,54); (1,54); (0,0); (1,54); (1,2)].
Proof.
  cbv zeta. split; [|vm_compute; reflexivity]. intros e mk H. cbn [In] in H.
  destruct H as [H|[H|[H|[]]]]; injection H as <- <-; apply ex_deployed; vm_compute; reflexivity.
Qed.

(** *** C04: fail open, counted, nothing else *)
Theorem C04_fail_open : forall c prog e, deployed c prog e -> view_of e c = None -> forall w,
  exists k, exec e prog w = Done k (w_count w (n_rules c + 1) (p_len (packet_of e (c_hook c)))) /\
    kernel_code (hook_flavor (c_hook c)) V_ACCEPT = Some k.
Proof. exact fail_open. Qed.
Print Assumptions C04_fail_open.

Example C04_case : deployed ex_chain ex_prog (ex_env ex_chain (firstn 40 ex_pkt) 3 0) /\
  view_of (ex_env ex_chain (firstn 40 ex_pkt) 3 0) ex_chain = None.
Proof. split; [apply ex_deployed; vm_compute; reflexivity|vm_compute; reflexivity]. Qed.

(** *** C05: a rule about an absent protocol is as good as disabled, negated or not *)
Theorem C05_absent_protocol : forall c prog prog' e v rs1 r rs2 m t,
  c_rules c = rs1 ++ r :: rs2 ->
  deployed c prog e -> deployed (with_rules c (rs1 ++ disable r :: rs2)) prog' e ->
  view_of e c = Some v -> In m (r_matchers r) -> In t (types_of (c_sets c) m) -> present v t = false ->
  late t = false \/ steady r /\ is_sock_addr (c_hook c) = false -> forall w, exec e prog w = exec e prog' w.
Proof. exact absent_protocol. Qed.
Print Assumptions C05_absent_protocol.

Example C05_case : present (mkV 0x86DD 17 [] [] (fun _ => false) 0 0 0 0 None) M_IP4_SADDR = false /\
  view_of (ex_env ex_chain (ex_udp6 0 (ex_a6 1) (ex_a6 2) [0;1] [0;2]) 3 0) ex_chain <> None /\
  deployed ex_chain ex_prog (ex_env ex_chain (ex_udp6 0 (ex_a6 1) (ex_a6 2) [0;1] [0;2]) 3 0).
Proof. split; [reflexivity|]. split; [vm_compute; discriminate|]. apply ex_deployed; vm_compute; reflexivity. Qed.

(** *** C18: marks *)
Theorem C18_mark : forall c prog e v,
  deployed c prog e -> (forall r, In r (c_rules c) -> steady r) -> view_of e c = Some v -> forall w,
  exists k w3, exec e prog w = Done k w3 /\
    w_mark w3 = mark_after (acting Generated prob_threshold (c_sets c) v (c_rules c)) (w_mark w).
Proof. exact mark_packet. Qed.
Print Assumptions C18_mark.

Theorem C18_mark_untouched : forall c prog e, deployed c prog e -> view_of e c = None -> forall w,
  exists k w3, exec e prog w = Done k w3 /\ w_mark w3 = w_mark w.
Proof. exact mark_packet_none. Qed.
Print Assumptions C18_mark_untouched.

Theorem C18_mark_refused_elsewhere : forall c prog r,
  gen_program c = Ok prog -> In r (c_rules c) -> r_disabled r = false -> mark_is_set r = true ->
  hook_flavor (c_hook c) = F_TC \/ hook_flavor (c_hook c) = F_CGROUP_SKB.
Proof. exact mark_hooks. Qed.
Print Assumptions C18_mark_refused_elsewhere.

Definition ex_mark_chain : chain :=
  mkC H_TC_INGRESS V_ACCEPT []
    [mkR 0 [mkM M_IP4_SADDR OP_EQ false [10;0;0;1]] 0 0 (4294967296 + 7) true false V_CONTINUE 0 D_EGRESS;
     mkR 1 [mkM M_IP4_SADDR OP_EQ false [10;0;0;2]] 0 0 (4294967296 + 8) true false V_CONTINUE 0 D_EGRESS] false false false.
Definition ex_mark_prog : list insn := match gen_program ex_mark_chain with Ok p => p | Er _ => [] end.
Example C18_case : deployed ex_mark_chain ex_mark_prog (ex_env ex_mark_chain ex_pkt 3 0) /\
  match exec (ex_env ex_mark_chain ex_pkt 3 0) ex_mark_prog w_nil with Done _ w => w_mark w = 7 | _ => False end.
Proof. split; [apply ex_deployed; vm_compute; reflexivity|vm_compute; reflexivity]. Qed.

(** *** C17: log rate limit, over any history of packets.  [evs]: one event per packet
    on which the rule acted, stamped with successive readings of the clock. *)
Theorem C17_rate_limit : forall c prog or ps r,
  (forall r, In r (c_rules c) -> steady r) -> indexed (c_rules c) ->
  In r (c_rules c) -> r_log r <> 0 -> r_log_rate r <> 0 -> (forall n, o_ring or n = true) ->
  (forall e mk, In (e, mk) ps -> deployed c prog e /\ e_or e = or) ->
  forall w, exists w3 evs, play prog ps w = Some w3 /\
    length evs = length (filter (fun p => acts c (fst p) r) ps) /\
    limited (r_log_rate r) (w_ts w (r_index r)) evs /\
    w_ts w3 (r_index r) = last_through (w_ts w (r_index r)) evs /\
    length (entries (r_index r) w3) = (through evs + length (entries (r_index r) w))%nat /\
    exists ns, map fst evs = map (o_clock or) ns /\
      (forall i j a b, nth_error ns i = Some a -> nth_error ns j = Some b -> (i < j)%nat -> (a < b)%nat) /\
      (forall a, In a ns -> (w_clks w <= a < w_clks w3)%nat) /\ (w_clks w <= w_clks w3)%nat.
Proof. exact history_log. Qed.
Print Assumptions C17_rate_limit.

(** With a clock that does not go backwards, two packets that were logged are at least
    [rate] apart. *)
Theorem C17_spacing : forall rate evs last,
  (forall p, In p evs -> last <= fst p) ->
  (forall i j p q, nth_error evs i = Some p -> nth_error evs j = Some q -> (i < j)%nat -> fst p <= fst q) ->
  last < two64 -> (forall p, In p evs -> fst p < two64) -> limited rate last evs ->
  forall i j p q, nth_error evs i = Some p -> nth_error evs j = Some q -> (i < j)%nat -> snd p = true -> snd q = true ->
  fst p + rate <= fst q.
Proof. exact limited_spacing. Qed.
Print Assumptions C17_spacing.

Definition ex_log_rule : rule := mkR 0 [mkM M_IP4_SADDR OP_EQ false [10;0;0;1]] 5 2500 0 true false V_CONTINUE 0 D_EGRESS.
Definition ex_log_chain : chain := mkC H_XDP V_ACCEPT [] [ex_log_rule] true false true.
Definition ex_log_prog : list insn := match gen_program ex_log_chain with Ok p => p | Er _ => [] end.
Example C17_case :
  let e := ex_env ex_log_chain ex_pkt 3 0 in
  deployed ex_log_chain ex_log_prog e /\ acts ex_log_chain e ex_log_rule = true /\
  match play ex_log_prog (repeat (e, 0) 12) w_nil with Some w => length (entries 0 w) = 5%nat | None => False end /\
  limited 2500 0 [(1000, false); (3000, true); (5000, false); (5500, true)].
Proof.
  cbv zeta. split; [apply ex_deployed; vm_compute; reflexivity|]. split; [vm_compute; reflexivity|].
  split; [vm_compute; reflexivity|]. repeat split.
Qed.
