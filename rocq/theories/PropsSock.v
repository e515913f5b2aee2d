(** C57: the cgroup socket hooks (connect4, connect6, sendmsg4, sendmsg6). *)
From Coq Require Import NArith ZArith List Bool Lia.
From Verif Require Import Bytes Types World BpfModel GenModel PktSpec ViewSpec Wf WfDec ViewModel ProgThm EvalSpec Deploy ChainSpec
  OneFacts SockSpec SockFacts2 Fixtures.
Import ListNotations.
Local Open Scope N_scope.

(** Every operation gets a verdict: the call is allowed (1) or refused (0).  Nothing
    fails; only packet counts of rules and policy change, byte counts do not; log
    entries describe the operation. *)
Theorem C57_every_operation : forall c prog e o,
  deployed c prog e -> is_sock_addr (c_hook c) = true -> laid_out (c_hook c) (e_pkt e) o ->
  forall w, exists k w', exec e prog w = Done k w' /\ (k = 0 \/ k = 1) /\ sock_run (n_rules c) (op_logged c o) w w'.
Proof. exact sock_runs. Qed.
Print Assumptions C57_every_operation.

(** Addresses, protocol and ports, exactly. *)
Theorem C57_exact_value : forall c prog e o,
  deployed c prog e -> is_sock_addr (c_hook c) = true -> laid_out (c_hook c) (e_pkt e) o ->
  forall m, tests c m ->
  In (m_type m) [M_IP4_SADDR; M_IP4_DADDR; M_IP4_PROTO; M_IP6_SADDR; M_IP6_DADDR; M_TCP_DPORT; M_UDP_DPORT] -> m_op m = OP_EQ ->
  forall w, drops_when c e prog w (op_has o (m_type m) && xorb (m_neg m) (bytes_eqb (op_field o (m_type m)) (m_pay m))).
Proof. exact op_exact. Qed.
Print Assumptions C57_exact_value.

Theorem C57_port_range : forall c prog e o,
  deployed c prog e -> is_sock_addr (c_hook c) = true -> laid_out (c_hook c) (e_pkt e) o ->
  forall m, tests c m -> In (m_type m) [M_TCP_DPORT; M_UDP_DPORT] -> m_op m = OP_RANGE ->
  forall w, drops_when c e prog w (op_has o (m_type m) && xorb (m_neg m)
    ((le_dec (sub (m_pay m) 0 2) <=? be_dec (so_port o)) && (be_dec (so_port o) <=? le_dec (sub (m_pay m) 2 2)))).
Proof. exact op_range. Qed.
Print Assumptions C57_port_range.

Theorem C57_network_prefix : forall c prog e o,
  deployed c prog e -> is_sock_addr (c_hook c) = true -> laid_out (c_hook c) (e_pkt e) o ->
  forall m, tests c m -> In (m_type m) [M_IP4_SNET; M_IP4_DNET; M_IP6_SNET; M_IP6_DNET] -> m_op m = OP_EQ ->
  exists b, (forall w, drops_when c e prog w (op_has o (m_type m) && xorb (m_neg m) b)) /\
    (op_has o (m_type m) = true ->
      (b = true <-> same_prefix (net_plen (m_pay m)) (net_addr (addr_len (m_type m)) (m_pay m)) (op_field o (m_type m)))).
Proof. exact op_net. Qed.
Print Assumptions C57_network_prefix.

Theorem C57_protocol : forall c prog e o,
  deployed c prog e -> is_sock_addr (c_hook c) = true -> laid_out (c_hook c) (e_pkt e) o ->
  forall m, tests c m -> In (m_type m) [M_L3_PROTO; M_L4_PROTO] -> m_op m = OP_EQ ->
  forall w, drops_when c e prog w (xorb (m_neg m)
    (if mtype_eq_dec (m_type m) M_L3_PROTO then op_l3 o =? le_dec (m_pay m) else so_proto o =? byte_at (m_pay m) 0)).
Proof. exact op_proto. Qed.
Print Assumptions C57_protocol.

(** Sets of tuples and sets of networks. *)
Theorem C57_set : forall c prog e o,
  deployed c prog e -> is_sock_addr (c_hook c) = true -> laid_out (c_hook c) (e_pkt e) o ->
  forall m, tests c m -> forall s, m_type m = M_SET -> set_of (c_sets c) m = Some s -> s_trie s = false ->
  (forall t, In t (s_key s) -> In t [M_IP4_SADDR; M_IP4_DADDR; M_IP4_PROTO; M_IP6_SADDR; M_IP6_DADDR; M_TCP_DPORT; M_UDP_DPORT]) ->
  exists b, (forall w, drops_when c e prog w (forallb (op_has o) (s_key s) && xorb (m_neg m) b)) /\
    (b = true <-> In (concat (map (op_field o) (s_key s))) (s_elems s)).
Proof. exact op_set. Qed.
Print Assumptions C57_set.

Theorem C57_network_set : forall c prog e o,
  deployed c prog e -> is_sock_addr (c_hook c) = true -> laid_out (c_hook c) (e_pkt e) o ->
  forall m, tests c m -> forall s t, m_type m = M_SET -> set_of (c_sets c) m = Some s -> s_trie s = true -> s_key s = [t] ->
  In t [M_IP4_SNET; M_IP4_DNET; M_IP6_SNET; M_IP6_DNET] ->
  exists b, (forall w, drops_when c e prog w (op_has o t && xorb (m_neg m) b)) /\
    (op_has o t = true -> (b = true <-> exists x, In x (s_elems s) /\ same_prefix (net_plen x) (net_addr (addr_len t) x) (op_field o t))).
Proof. exact op_net_set. Qed.
Print Assumptions C57_network_set.

(** meta.dport, where it makes sense.  Missing, because the code evaluates it there
    (C57_meta_port_refuted): protocols without ports. *)
Theorem C57_meta_port_partial : forall c prog e o,
  deployed c prog e -> is_sock_addr (c_hook c) = true -> laid_out (c_hook c) (e_pkt e) o ->
  forall m, tests c m -> m_type m = M_DPORT -> op_has o M_DPORT = true ->
  forall w, drops_when c e prog w (xorb (m_neg m)
    (match m_op m with
     | OP_RANGE => (le_dec (sub (m_pay m) 0 2) <=? be_dec (so_port o)) && (be_dec (so_port o) <=? le_dec (sub (m_pay m) 2 2))
     | _ => bytes_eqb (so_port o) (m_pay m)
     end)).
Proof. intros c prog e o D S L m T M _. apply (op_meta_port c prog e o D S L m T M). Qed.
Print Assumptions C57_meta_port_partial.

(** ** Concrete operations *)
Definition ex_sock (fam proto : N) (dst4 dst6 port src4 src6 : list N) : list N :=
  [fam;0;0;0] ++ dst4 ++ dst6 ++ port ++ [0;0] ++ [fam;0;0;0] ++ [1;0;0;0] ++ [proto mod 256; proto / 256; 0; 0] ++ src4 ++ src6 ++ repeat 0 12.
Definition ex_z4 : list N := [0;0;0;0].
Definition ex_z6 : list N := repeat 0 16.
(** connect() of a TCP socket to 192.0.2.1 port 443 *)
Definition ex_conn4 : list N := ex_sock 2 6 [192;0;2;1] ex_z6 [1;187] ex_z4 ex_z6.
(** sendmsg() of a UDP socket from 2001:db8::5 to 2001:db8::6 port 53 *)
Definition ex_send6 : list N := ex_sock 10 17 ex_z4 (ex_a6 6) [0;53] ex_z4 (ex_a6 5).

Example ex_conn4_op : laid_out H_CONNECT4 ex_conn4 (mkOp 2 6 [192;0;2;1] [1;187] None).
Proof. constructor; reflexivity. Qed.
Example ex_send6_op : laid_out H_SENDMSG6 ex_send6 (mkOp 10 17 (ex_a6 6) [0;53] (Some (ex_a6 5))).
Proof. constructor; reflexivity. Qed.

Example C57_case :
  one_case H_CONNECT4 [] (mkM M_IP4_DADDR OP_EQ false [192;0;2;1]) ex_conn4 0 0 0 /\
  one_case H_CONNECT4 [] (mkM M_IP4_DADDR OP_EQ false [192;0;2;2]) ex_conn4 0 0 1 /\
  one_case H_CONNECT4 [] (mkM M_IP4_DNET OP_EQ true [22;0;0;0;192;0;3;0]) ex_conn4 0 0 1 /\
  one_case H_CONNECT4 [] (mkM M_IP4_PROTO OP_EQ false [6]) ex_conn4 0 0 0 /\
  one_case H_CONNECT4 [] (mkM M_TCP_DPORT OP_RANGE false [187;1;188;1]) ex_conn4 0 0 0 /\
  one_case H_CONNECT4 [] (mkM M_UDP_DPORT OP_EQ true [0;53]) ex_conn4 0 0 1 /\
  one_case H_CONNECT4 [mkS [M_IP4_DADDR; M_TCP_DPORT] 6 false [[192;0;2;1;1;187]]] (mkM M_SET OP_IN false [0;0;0;0]) ex_conn4 0 0 0 /\
  one_case H_SENDMSG6 [] (mkM M_IP6_SADDR OP_EQ false (ex_a6 5)) ex_send6 0 0 0 /\
  one_case H_SENDMSG6 [] (mkM M_IP6_DNET OP_EQ false ([32;0;0;0] ++ [32;1;13;184;0;0;0;0;0;0;0;0;0;0;0;0] ++ ex_z4)) ex_send6 0 0 0 /\
  one_case H_SENDMSG6 [] (mkM M_L3_PROTO OP_EQ false [221;134]) ex_send6 0 0 0 /\
  one_case H_SENDMSG6 [] (mkM M_L4_PROTO OP_EQ false [6;0]) ex_send6 0 0 1 /\
  one_case H_SENDMSG6 [] (mkM M_DPORT OP_RANGE false [50;0;60;0]) ex_send6 0 0 0.
Proof. one_cases. Qed.

(** A rule that logs and counts, then the policy. *)
Definition ex_sock_chain : chain :=
  mkC H_SENDMSG6 V_DROP [] [mkR 0 [mkM M_UDP_DPORT OP_EQ false [0;53]] 2 0 0 true false V_CONTINUE 0 D_EGRESS] true false false.
Definition ex_sock_prog : list insn := match gen_program ex_sock_chain with Ok p => p | Er _ => [] end.
Example C57_log_case : deployed ex_sock_chain ex_sock_prog (ex_env ex_sock_chain ex_send6 0 0) /\
  match exec (ex_env ex_sock_chain ex_send6 0 0) ex_sock_prog w_nil with
  | Done k w => k = 0 /\ map (w_cnt w) [0; 1; 2] = [(1, 0); (1, 0); (0, 0)] /\
                w_log w = [mkLog 0 0 2 0x86DD 17 0 0 (Some (mkSk (Some (ex_a6 5)) (ex_a6 6) 53))]
  | _ => False
  end.
Proof. split; [apply ex_deployed; vm_compute; reflexivity|vm_compute; repeat split]. Qed.

(** ** What does not hold *)

(** Finding F45 (cgroup_sock_addr.c:317-346): meta.dport, documented as the TCP or UDP
    destination port, is compared whatever the protocol. *)
Theorem C57_meta_port_refuted : exists c prog e o m, deployed c prog e /\ is_sock_addr (c_hook c) = true /\
  laid_out (c_hook c) (e_pkt e) o /\ tests c m /\ m_type m = M_DPORT /\ op_has o M_DPORT = false /\ returns c e prog w_nil V_DROP.
Proof.
  exists (ex_one H_CONNECT4 [] (mkM M_DPORT OP_EQ false [1;187])),
    (match gen_program (ex_one H_CONNECT4 [] (mkM M_DPORT OP_EQ false [1;187])) with Ok p => p | Er _ => [] end),
    (ex_env (ex_one H_CONNECT4 [] (mkM M_DPORT OP_EQ false [1;187])) (ex_sock 2 132 [192;0;2;1] ex_z6 [1;187] ex_z4 ex_z6) 0 0),
    (mkOp 2 132 [192;0;2;1] [1;187] None), (mkM M_DPORT OP_EQ false [1;187]).
  split; [apply ex_deployed; vm_compute; reflexivity|]. split; [reflexivity|]. split; [constructor; reflexivity|].
  split; [constructor; [reflexivity|eexists; repeat split]|]. split; [reflexivity|]. split; [reflexivity|].
  eexists. eexists. split; [vm_compute; reflexivity|reflexivity].
Qed.
Print Assumptions C57_meta_port_refuted.

(** Finding F44: a sendmsg() of an AF_INET6 socket to an IPv4-mapped address reaches the
    sendmsg4 hook with its IPv4 destination, but with the family of the socket, AF_INET6:
    no ip4.* matcher ever matches it. *)
Theorem C57_mapped_address_refuted : exists c prog e o m, deployed c prog e /\ c_hook c = H_SENDMSG4 /\
  laid_out (c_hook c) (e_pkt e) o /\ tests c m /\ m = mkM M_IP4_DADDR OP_EQ false (so_dst o) /\ so_family o = 10 /\
  returns c e prog w_nil V_ACCEPT.
Proof.
  exists (ex_one H_SENDMSG4 [] (mkM M_IP4_DADDR OP_EQ false [192;0;2;1])),
    (match gen_program (ex_one H_SENDMSG4 [] (mkM M_IP4_DADDR OP_EQ false [192;0;2;1])) with Ok p => p | Er _ => [] end),
    (ex_env (ex_one H_SENDMSG4 [] (mkM M_IP4_DADDR OP_EQ false [192;0;2;1])) (ex_sock 10 17 [192;0;2;1] ex_z6 [0;53] ex_z4 ex_z6) 0 0),
    (mkOp 10 17 [192;0;2;1] [0;53] (Some ex_z4)), (mkM M_IP4_DADDR OP_EQ false [192;0;2;1]).
  split; [apply ex_deployed; vm_compute; reflexivity|]. split; [reflexivity|]. split; [constructor; reflexivity|].
  split; [constructor; [reflexivity|eexists; repeat split]|]. split; [reflexivity|]. split; [reflexivity|].
  eexists. eexists. split; [vm_compute; reflexivity|reflexivity].
Qed.
Print Assumptions C57_mapped_address_refuted.

(** Finding F43: the protocol field of a Multipath TCP socket is 262.  The program
    compares all of it for [ip4.proto eq 6], but keeps its low byte, 6, for a set that
    contains 6: the two rules disagree.  (Protocols above 255 are outside [wf_env], hence
    outside every theorem with hypothesis [deployed].) *)
Definition runs_to (c : chain) (d : list N) (k : N) : Prop :=
  wf_chain c /\ exists prog w', gen_program c = Ok prog /\ exec (ex_env c d 0 0) prog w_nil = Done k w'.
Theorem C57_multipath_refuted : exists d o eq set,
  laid_out H_CONNECT4 d o /\ so_family o = 2 /\ so_proto o = 262 /\
  eq = ex_one H_CONNECT4 [] (mkM M_IP4_PROTO OP_EQ false [6]) /\
  set = ex_one H_CONNECT4 [mkS [M_IP4_PROTO] 1 false [[6]]] (mkM M_SET OP_IN false [0;0;0;0]) /\
  runs_to eq d 1 /\ runs_to set d 0.
Proof.
  exists (ex_sock 2 262 [192;0;2;1] ex_z6 [1;187] ex_z4 ex_z6), (mkOp 2 262 [192;0;2;1] [1;187] None). eexists. eexists.
  split; [constructor; reflexivity|]. split; [reflexivity|]. split; [reflexivity|]. split; [reflexivity|]. split; [reflexivity|].
  split; (split; [apply wf_chainb_ok; vm_compute; reflexivity|eexists; eexists; split; [vm_compute; reflexivity|vm_compute; reflexivity]]).
Qed.
Print Assumptions C57_multipath_refuted.
