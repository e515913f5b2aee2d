(** C19: IPv6 extension headers. *)
From Coq Require Import NArith ZArith List Bool Lia.
From Verif Require Import Bytes Types World BpfModel GenModel PktSpec ViewSpec Wf WfDec ViewModel ProgThm EvalSpec Deploy ChainSpec
  WalkSpec WalkFacts Fixtures.
Import ListNotations.
Local Open Scope N_scope.

(** [ip6_at c e o h3] (WalkFacts.v): the packet of [e] is an IPv6 packet whose fixed header [h3]
    is at offset [o], at a hook that sees packets. *)
Example ip6_at_means : forall c e o h3, ip6_at c e o h3 <->
  is_sock_addr (c_hook c) = false /\ network (hook_flavor (c_hook c)) (packet_of e (c_hook c)) = Some (0x86DD, o) /\ slice (e_pkt e) o 40 = Some h3.
Proof. intros; reflexivity. Qed.

(** The matchers work on the transport header that RFC 8200 designates, and
    ip6.nexthdr on the extension headers that are there.  Missing, because the code
    violates the property there (next theorems): a first extension header of type 43,
    44 or 51; more than 6 extension headers; a fragment header whose reserved octet is
    not zero. *)
Theorem C19_transport_found_partial : forall c prog e o3 h3 hs p q h4,
  deployed c prog e -> e_dynptr e = 0 -> ip6_at c e o3 h3 ->
  transport_at (e_pkt e) (byte_at h3 6) (o3 + 40) hs p q ->
  ~ In (byte_at h3 6) [43; 44; 51] -> (length hs <= 6)%nat -> reserved_zero (e_pkt e) hs ->
  l4_size p <> 0 -> slice (e_pkt e) q (l4_size p) = Some h4 ->
  exists v, view_of e c = Some v /\ v_l3 v = 0x86DD /\ v_l4 v = p /\ v_h3 v = h3 /\ v_h4 v = h4 /\
    (c_nexthdr c = true -> forall t, In t ext_types -> v_eh v t = has_ext t hs).
Proof. exact transport_found. Qed.
Print Assumptions C19_transport_found_partial.

(** The same, seen from outside: a chain that drops on a destination port drops by
    the port of the real transport header. *)
Theorem C19_ports_partial : forall c prog e m o3 h3 hs p q h4,
  deployed c prog e -> e_dynptr e = 0 -> tests c m -> ip6_at c e o3 h3 ->
  transport_at (e_pkt e) (byte_at h3 6) (o3 + 40) hs p q ->
  ~ In (byte_at h3 6) [43; 44; 51] -> (length hs <= 6)%nat -> reserved_zero (e_pkt e) hs ->
  (m_type m = M_TCP_DPORT /\ p = 6 \/ m_type m = M_UDP_DPORT /\ p = 17) -> m_op m = OP_EQ ->
  slice (e_pkt e) q (l4_size p) = Some h4 ->
  forall w, drops_when c e prog w (xorb (m_neg m) (bytes_eqb (sub h4 2 2) (m_pay m))).
Proof. exact port_found. Qed.
Print Assumptions C19_ports_partial.

(** What "the port of the real transport header is refused but the packet goes
    through" means. *)
Definition evades (c : chain) (prog : list insn) (e : env) (m : matcher) (hs : list (N * N)) (o3 q : N) (h3 h4 : list N) : Prop :=
  deployed c prog e /\ e_dynptr e = 0 /\ tests c m /\ ip6_at c e o3 h3 /\
  transport_at (e_pkt e) (byte_at h3 6) (o3 + 40) hs 6 q /\ slice (e_pkt e) q 20 = Some h4 /\
  m_type m = M_TCP_DPORT /\ m_op m = OP_EQ /\ m_neg m = false /\ m_pay m = sub h4 2 2 /\
  returns c e prog w_nil V_ACCEPT.

Definition ex_dport : matcher := mkM M_TCP_DPORT OP_EQ false [1;187].
Definition ex_c19 : chain := ex_one H_XDP [] ex_dport.
Definition ex_p19 : list insn := match gen_program ex_c19 with Ok p => p | Er _ => [] end.
(** An IPv6 packet with the given extension headers, then TCP to port 443. *)
Definition ex_x6 (first : N) (exts : list N) : list N :=
  ex_eth [134;221] ++ ex_ip6 0 first (ex_a6 5) (ex_a6 6) ++ exts ++ ex_tcp [4;0] [1;187] 2.

Ltac walk := repeat (eapply ta_ext; [cbn; tauto|vm_compute; discriminate|]); eapply ta_end; vm_compute; intuition discriminate.
Ltac deploy19 := apply ex_deployed; vm_compute; reflexivity.

(** Hop-by-hop, destination options, fragment, AH, routing: dropped. *)
Definition ex_exts : list N := [60;0;1;2;3;4;5;6; 44;1;1;2;3;4;5;6;1;2;3;4;5;6;7;8; 51;0;0;0;0;0;0;1; 43;1;0;0;0;0;0;1;0;0;0;2; 6;0;1;1;0;0;0;0].
Example C19_case : exists hs q h3 h4,
  deployed ex_c19 ex_p19 (ex_env ex_c19 (ex_x6 0 ex_exts) 3 0) /\ e_dynptr (ex_env ex_c19 (ex_x6 0 ex_exts) 3 0) = 0 /\
  tests ex_c19 ex_dport /\ ip6_at ex_c19 (ex_env ex_c19 (ex_x6 0 ex_exts) 3 0) 14 h3 /\
  transport_at (ex_x6 0 ex_exts) (byte_at h3 6) 54 hs 6 q /\ map fst hs = [0; 60; 44; 51; 43] /\ q = 106 /\
  ~ In (byte_at h3 6) [43; 44; 51] /\ (length hs <= 6)%nat /\ reserved_zero (ex_x6 0 ex_exts) hs /\
  slice (ex_x6 0 ex_exts) q 20 = Some h4 /\
  code_of (exec (ex_env ex_c19 (ex_x6 0 ex_exts) 3 0) ex_p19 w_nil) = Some 1.
Proof.
  exists [(0, 54); (60, 62); (44, 78); (51, 86); (43, 98)], 106, (ex_ip6 0 0 (ex_a6 5) (ex_a6 6)), (ex_tcp [4;0] [1;187] 2).
  split; [deploy19|]. split; [reflexivity|]. split; [constructor; [reflexivity|]; eexists; split; [reflexivity|]; split; [reflexivity|]; split; reflexivity|].
  split; [split; [reflexivity|split; vm_compute; reflexivity]|].
  split; [walk|]. split; [reflexivity|]. split; [reflexivity|].
  split; [vm_compute; intuition discriminate|]. split; [cbn; lia|].
  split; [|split; vm_compute; reflexivity].
  intros o H. cbn in H. destruct H as [H|[H|[H|[H|[H|[]]]]]]; try discriminate H. injection H as <-. vm_compute. reflexivity.
Qed.

Ltac evade p19 pk := 
  split; [deploy19|]; split; [reflexivity|];
  split; [constructor; [reflexivity|]; eexists; split; [reflexivity|]; split; [reflexivity|]; split; reflexivity|];
  split; [split; [reflexivity|split; vm_compute; reflexivity]|];
  split; [walk|]; split; [vm_compute; reflexivity|]; split; [reflexivity|]; split; [reflexivity|]; split; [reflexivity|]; split; [vm_compute; reflexivity|].

(** Finding F1 (stub.c:36): with a first extension header of type 43, 44 or 51, the
    chain does not see the transport header at all. *)
Theorem C19_first_header_refuted : forall t, In t [43; 44; 51] ->
  exists c prog e m hs q h3 h4, evades c prog e m hs 14 q h3 h4 /\ hs <> [] /\ (length hs <= 6)%nat /\ reserved_zero (e_pkt e) hs /\
    byte_at h3 6 = t.
Proof.
  intros t [<-|[<-|[<-|[]]]]. 
  - exists ex_c19, ex_p19, (ex_env ex_c19 (ex_x6 43 [6;0;0;0;0;0;0;0]) 3 0), ex_dport, [(43, 54)], 62, (ex_ip6 0 43 (ex_a6 5) (ex_a6 6)), (ex_tcp [4;0] [1;187] 2).
    split. { evade ex_p19 pk. eexists. eexists. split; [vm_compute; reflexivity|reflexivity]. }
    split; [discriminate|]. split; [cbn; lia|]. split; [|reflexivity]. intros o [H|[]]. discriminate H.
  - exists ex_c19, ex_p19, (ex_env ex_c19 (ex_x6 44 [6;0;0;0;0;0;0;0]) 3 0), ex_dport, [(44, 54)], 62, (ex_ip6 0 44 (ex_a6 5) (ex_a6 6)), (ex_tcp [4;0] [1;187] 2).
    split. { evade ex_p19 pk. eexists. eexists. split; [vm_compute; reflexivity|reflexivity]. }
    split; [discriminate|]. split; [cbn; lia|]. split; [|reflexivity]. intros o [H|[]]. injection H as <-. vm_compute. reflexivity.
  - exists ex_c19, ex_p19, (ex_env ex_c19 (ex_x6 51 [6;0;0;0;0;0;0;0]) 3 0), ex_dport, [(51, 54)], 62, (ex_ip6 0 51 (ex_a6 5) (ex_a6 6)), (ex_tcp [4;0] [1;187] 2).
    split. { evade ex_p19 pk. eexists. eexists. split; [vm_compute; reflexivity|reflexivity]. }
    split; [discriminate|]. split; [cbn; lia|]. split; [|reflexivity]. intros o [H|[]]. discriminate H.
Qed.
Print Assumptions C19_first_header_refuted.

(** Finding F6: seven extension headers hide the transport header. *)
Theorem C19_seven_headers_refuted : exists c prog e m hs q h3 h4, evades c prog e m hs 14 q h3 h4 /\
  length hs = 7%nat /\ reserved_zero (e_pkt e) hs /\ ~ In (byte_at h3 6) [43; 44; 51].
Proof.
  exists ex_c19, ex_p19,
    (ex_env ex_c19 (ex_x6 0 ([60;0;0;0;0;0;0;0] ++ [60;0;0;0;0;0;0;0] ++ [60;0;0;0;0;0;0;0] ++ [60;0;0;0;0;0;0;0] ++ [60;0;0;0;0;0;0;0] ++ [60;0;0;0;0;0;0;0] ++ [6;0;0;0;0;0;0;0])) 3 0),
    ex_dport, [(0, 54); (60, 62); (60, 70); (60, 78); (60, 86); (60, 94); (60, 102)], 110, (ex_ip6 0 0 (ex_a6 5) (ex_a6 6)), (ex_tcp [4;0] [1;187] 2).
  split. { evade ex_p19 pk. eexists. eexists. split; [vm_compute; reflexivity|reflexivity]. }
  split; [reflexivity|]. split; [|vm_compute; intuition discriminate].
  intros o H. cbn in H. intuition discriminate.
Qed.
Print Assumptions C19_seven_headers_refuted.

(** Finding F6: the sender shifts the transport header away with the reserved octet of
    a fragment header (RFC 8200, 4.5: "ignored on reception"). *)
Theorem C19_reserved_octet_refuted : exists c prog e m hs q h3 h4, evades c prog e m hs 14 q h3 h4 /\
  (length hs <= 6)%nat /\ ~ In (byte_at h3 6) [43; 44; 51].
Proof.
  exists ex_c19, ex_p19, (ex_env ex_c19 (ex_x6 0 [44;0;0;0;0;0;0;0; 6;4;0;0;0;0;0;0] ++ repeat 0 8) 3 0),
    ex_dport, [(0, 54); (44, 62)], 70, (ex_ip6 0 0 (ex_a6 5) (ex_a6 6)), (ex_tcp [4;0] [1;187] 2).
  split. { evade ex_p19 pk. eexists. eexists. split; [vm_compute; reflexivity|reflexivity]. }
  split; [cbn; lia|]. vm_compute; intuition discriminate.
Qed.
Print Assumptions C19_reserved_octet_refuted.
