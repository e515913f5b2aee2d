(** Concrete chains and packets, used by the examples beside the theorems. *)
From Coq Require Import NArith ZArith List Bool Lia.
From Verif Require Import Bytes Types World BpfModel GenModel PktSpec ViewSpec Wf ViewModel WfDec Deploy EvalSpec ChainSpec BytesFacts.
Import ListNotations.
Local Open Scope N_scope.

Definition ex_oracle : oracle := mkO (fun n => 3000000000) (fun n => 1000 * N.of_nat n) (fun _ => true) (fun i f => 4).

(** An environment for the program of [c] and a packet. *)
Definition ex_env (c : chain) (pkt : list N) (ifx fam : N) : env :=
  mkE (c_hook c) (hook_flavor (c_hook c)) pkt (N.of_nat (length pkt)) ifx ifx fam 7 0 (fun _ _ => false) (set_maps c)
      (n_rules c + 2) (n_rules c) ex_oracle.

Definition checks (c : chain) : bool :=
  wf_chainb c && forallb (fun r => (length (r_matchers r) <=? 100)%nat && forallb (key_fitsb c) (r_matchers r)) (c_rules c).

Definition sock_ctxb (d : list N) : bool :=
  (length d =? 72)%nat && bytes_eqb (sub d 26 2) [0; 0] && (sock_proto d <? 256).

Lemma ex_deployed c prog pkt ifx fam : checks c = true -> gen_program c = Ok prog ->
  forallb byteb pkt && (N.of_nat (length pkt) <? two32) && (ifx <? two32) && (fam <? two31) &&
    (negb (is_sock_addr (c_hook c)) || sock_ctxb pkt) = true ->
  deployed c prog (ex_env c pkt ifx fam).
Proof.
  unfold checks. rewrite !andb_true_iff. intros [H1 H2] G [[[[B L] I] F] S].
  rewrite forallb_forall in H2. constructor.
  - apply wf_chainb_ok. exact H1.
  - intros r Hr. apply H2 in Hr. apply andb_true_iff in Hr as [A _]. apply Nat.leb_le. exact A.
  - intros r m Hr Hm. apply H2 in Hr. apply andb_true_iff in Hr as [_ A]. rewrite forallb_forall in A. apply key_fitsb_ok. auto.
  - exact G.
  - constructor; cbn [ex_env e_flavor e_pkt e_len e_ifindex e_ifindex_out e_family e_hash e_dynptr e_sets e_ncnt e_nstate e_or];
      try reflexivity; try (apply N.ltb_lt; assumption).
    + apply bytesb_ok. exact B.
    + intros SA. rewrite SA in S. cbn [negb orb] in S. unfold sock_ctxb in S. rewrite !andb_true_iff in S. destruct S as [[S1 S2] S3].
      split; [apply Nat.eqb_eq; exact S1|]. split; [apply bytes_eqb_eq; exact S2|apply N.ltb_lt; exact S3].
Qed.

(** A TCP segment over IPv4 over Ethernet, 54 bytes. *)
Definition ex_eth (et : list N) : list N := [2;0;0;0;0;1; 2;0;0;0;0;2] ++ et.
Definition ex_ip4 (tos proto : N) (src dst : list N) : list N :=
  [69;tos;0;40; 0;1;0;0; 64;proto;0;0] ++ src ++ dst.
Definition ex_tcp (sport dport : list N) (flags : N) : list N :=
  sport ++ dport ++ [0;0;0;1; 0;0;0;0; 80;flags;1;0; 0;0;0;0].
Definition ex_tcp4 (src dst sport dport : list N) (flags : N) : list N :=
  ex_eth [8;0] ++ ex_ip4 8 6 src dst ++ ex_tcp sport dport flags.

(** A rule with counters. *)
Definition ex_rule (i : N) (ms : list matcher) (v : verdict) : rule :=
  mkR i ms 0 0 0 true false v 0 D_EGRESS.

(** An XDP chain: a CONTINUE rule, a rule on a set of (source address, destination
    port), a negated network, policy ACCEPT. *)
Definition ex_chain : chain :=
  mkC H_XDP V_ACCEPT
    [mkS [M_IP4_SADDR; M_TCP_DPORT] 6 false [[10;0;0;1;1;187]; [10;0;0;2;0;80]];
     mkS [M_IP4_SADDR; M_TCP_DPORT] 6 false [[10;0;0;9;0;80]]]
    [ex_rule 0 [mkM M_IP4_SADDR OP_EQ false [10;0;0;1]] V_CONTINUE;
     ex_rule 1 [mkM M_SET OP_IN false [0;0;0;0]] V_DROP;
     ex_rule 2 [mkM M_IP4_DNET OP_EQ true [16;0;0;0;192;168;0;0]; mkM M_TCP_FLAGS OP_ANY false [2]] V_DROP]
    false false false.

Definition ex_prog : list insn := match gen_program ex_chain with Ok p => p | Er _ => [] end.

Definition ex_pkt : list N := ex_tcp4 [10;0;0;1] [192;168;7;7] [4;0] [1;187] 2.
Definition ex_pkt2 : list N := ex_tcp4 [10;0;0;3] [192;168;7;7] [4;0] [1;187] 2.

Lemma ex_is_deployed : deployed ex_chain ex_prog (ex_env ex_chain ex_pkt 3 0).
Proof. apply ex_deployed; vm_compute; reflexivity. Qed.

Lemma ex_is_deployed2 : deployed ex_chain ex_prog (ex_env ex_chain ex_pkt2 3 0).
Proof. apply ex_deployed; vm_compute; reflexivity. Qed.

Definition code_of (o : outcome) : option N := match o with Done k _ => Some k | _ => None end.
Definition cnt_of (o : outcome) (i : N) : option (N * N) := match o with Done _ w => Some (w_cnt w i) | _ => None end.

Lemma ex_runs : code_of (exec (ex_env ex_chain ex_pkt 3 0) ex_prog w_nil) = Some 1 /\
  map (cnt_of (exec (ex_env ex_chain ex_pkt 3 0) ex_prog w_nil)) [0;1;2;3;4] =
  [Some (1, 54); Some (1, 54); Some (0, 0); Some (0, 0); Some (0, 0)].
Proof. vm_compute. auto. Qed.

(** ** Chains that test one matcher *)
Definition ex_one (h : hook) (sets : list bset) (m : matcher) : chain :=
  mkC h V_ACCEPT sets [ex_rule 0 [m] V_DROP] false true false.

(** The case "matcher [m] on packet [pkt]" meets the hypotheses of the one-matcher
    theorems, and the program returns [code]. *)
Definition one_case (h : hook) (sets : list bset) (m : matcher) (pkt : list N) (ifx fam : N) (code : N) : Prop :=
  exists prog, deployed (ex_one h sets m) prog (ex_env (ex_one h sets m) pkt ifx fam) /\
    tests (ex_one h sets m) m /\ view_of (ex_env (ex_one h sets m) pkt ifx fam) (ex_one h sets m) <> None /\
    code_of (exec (ex_env (ex_one h sets m) pkt ifx fam) prog w_nil) = Some code.

Definition one_caseb (h : hook) (sets : list bset) (m : matcher) (pkt : list N) (ifx fam : N) (code : N) : bool :=
  let c := ex_one h sets m in
  match gen_program c with
  | Ok prog => checks c && (forallb byteb pkt && (N.of_nat (length pkt) <? two32) && (ifx <? two32) && (fam <? two31) &&
      (negb (is_sock_addr h) || sock_ctxb pkt)) &&
      is_some (view_of (ex_env c pkt ifx fam) c) &&
      match code_of (exec (ex_env c pkt ifx fam) prog w_nil) with Some k => k =? code | None => false end
  | Er _ => false
  end.

Lemma one_case_ok h sets m pkt ifx fam code : one_caseb h sets m pkt ifx fam code = true -> one_case h sets m pkt ifx fam code.
Proof.
  unfold one_caseb, one_case. destruct (gen_program (ex_one h sets m)) as [prog|] eqn:G; [|discriminate].
  rewrite !andb_true_iff. intros [[[H1 H2] H3] H4]. exists prog. split; [|split; [|split]].
  - apply ex_deployed; auto. rewrite !andb_true_iff. exact H2.
  - constructor; [reflexivity|]. exists (ex_rule 0 [m] V_DROP). repeat split.
  - destruct (view_of _ _); [discriminate|discriminate H3].
  - destruct (code_of _) as [k|]; [|discriminate]. apply N.eqb_eq in H4. subst. reflexivity.
Qed.

(** An IPv6 UDP datagram over Ethernet. *)
Definition ex_ip6 (tc nh : N) (src dst : list N) : list N :=
  [96 + tc / 16; (tc mod 16) * 16; 0;0; 0;8; nh; 64] ++ src ++ dst.
Definition ex_udp (sport dport : list N) : list N := sport ++ dport ++ [0;8;0;0].
Definition ex_a6 (x : N) : list N := [32;1;13;184; 0;0;0;0; 0;0;0;0; 0;0;0;x].
Definition ex_udp6 (tc : N) (src dst sport dport : list N) : list N :=
  ex_eth [134;221] ++ ex_ip6 tc 17 src dst ++ ex_udp sport dport.

Ltac one_cases := repeat match goal with |- _ /\ _ => split end; apply one_case_ok; vm_compute; reflexivity.
Ltac conj_only := repeat match goal with |- _ /\ _ => split end.
