(** C59: sets written as text, "(tcp.dport, ip4.saddr) in { 80,10.0.0.1; 443,10.0.0.2 }". *)
From Coq Require Import String NArith List Bool Arith Lia.
From Verif Require Import Bytes Types GenModel BytesFacts StrModel StrSpec EnumModel ParseModel ParseSpec ParseFacts ParseFacts2 HashModel SetModel
  SetSpec PackSpec PackFacts5 SetTextModel SetTextSpec SetTextFacts PropsParse.
Import ListNotations.
Local Open Scope string_scope.
Local Open Scope list_scope.
Local Open Scope N_scope.

(** A set that is made from texts is the set the texts describe: its key is the list of
    names, it holds each element that is written once, in the order of their first
    mention, and nothing else. *)
Theorem C59_set_text : forall fuel pe heap nd tb name raw_key payload u, penv_ok pe -> heap_ok heap ->
  set_new_from_raw fuel pe heap nd tb name raw_key payload = Ok u ->
  exists key elems, key_names (key_texts raw_key) key /\ Forall2 (element pe key) (element_texts payload) elems /\
    set_is u name key elems.
Proof. exact from_raw_sound. Qed.
Print Assumptions C59_set_text.

(** Texts that describe a set are accepted, if memory can be had.  Missing: payloads
    whose first piece is blank ([C59_blank_start_refuted]). *)
Theorem C59_accepts_partial : forall fuel pe heap nd tb name raw_key payload key elems,
  penv_ok pe -> heap_ok heap -> (forall i, heap i <> None) -> generous nd tb -> 16 + 4 * N.of_nat (length elems) < MAX_CAP ->
  starts_well payload -> (length payload < fuel)%nat ->
  key_names (key_texts raw_key) key -> good_key key -> Forall2 (element pe key) (element_texts payload) elems ->
  exists u, set_new_from_raw fuel pe heap nd tb name raw_key payload = Ok u.
Proof. exact from_raw_succeeds. Qed.
Print Assumptions C59_accepts_partial.

(** Whatever the texts, the call ends, within as many rounds as the payload has
    characters, with a set or one of four errors; no byte outside of the element is
    written (that would be [Er EUB]). *)
Theorem C59_outcomes_partial : forall fuel pe heap nd tb name raw_key payload,
  penv_ok pe -> heap_ok heap -> starts_well payload -> (length payload < fuel)%nat ->
  (exists u, set_new_from_raw fuel pe heap nd tb name raw_key payload = Ok u) \/
  (exists e, set_new_from_raw fuel pe heap nd tb name raw_key payload = Er e /\ In e [EINVAL; E2BIG; ENOTSUP; ENOMEM]).
Proof.
  intros fuel pe heap nd tb name raw_key payload PE HE W L. pose proof (from_raw_errors fuel pe heap nd tb name raw_key payload PE HE W L) as E.
  destruct (set_new_from_raw _ _ _ _ _ _ _ _) as [u|e]; [left; eauto|right]. exists e. split; [reflexivity|]. apply E. reflexivity.
Qed.
Print Assumptions C59_outcomes_partial.

(** A payload that starts with a blank piece is never read to its end: the call does not
    return, however long it runs, although the text describes a set. *)
Theorem C59_blank_start_refuted :
  let key := lit "(tcp.dport)" in let payload := lit "{" ++ [10] ++ lit "  " ++ [10] ++ lit "80 }" in
  element_texts payload = [lit "80"] /\
  (forall pe, element pe [M_TCP_DPORT] (lit "80") (be16 80)) /\
  (forall fuel pe heap nd tb name, set_new_from_raw fuel pe heap nd tb name key payload = Er EHANG).
Proof.
  cbv zeta. split; [vm_compute; reflexivity|]. split.
  - intros pe. unfold element. change (component_texts (lit "80")) with [lit "80"]. change (be16 80) with (be16 80 ++ []).
    apply V_cons; [|apply V_nil]. exists parse_l4_port, [0;0]. split; [reflexivity|]. split; [reflexivity|].
    split; [repeat constructor|]. vm_compute. reflexivity.
  - intros fuel pe heap nd tb name. apply (from_raw_hangs pe heap nd tb name _ _ [M_TCP_DPORT] (lit "  ") [lit "80 "]).
    + change (key_texts (lit "(tcp.dport)")) with [lit "tcp.dport"]. constructor; [reflexivity|constructor].
    + split; [cbn; lia|]. split; [intros t [ <- |[]]; discriminate|cbn; lia].
    + vm_compute. reflexivity.
    + vm_compute. reflexivity.
Qed.
Print Assumptions C59_blank_start_refuted.

(** *** What the values are *)

(** A text stands for the same bytes in a set and in a matcher (C45). *)
Theorem C59_value_as_in_matcher : forall pe t w v neg, set_capable t ->
  (value pe t w v <-> exists heap, bytes heap /\ (24 <= length heap)%nat /\
     matcher_new_from_raw pe (Some heap) t OP_EQ w neg = Ok (mkM t OP_EQ neg v)).
Proof.
  intros pe t w v neg C.
  assert (S : parser_of pe t OP_EQ = parser_of pe t OP_IN /\ ops_size t OP_EQ = Some (comp_size t) /\ parser_of pe t OP_IN <> None /\
              (comp_size t <= 24)%nat).
  { unfold set_capable in C. destruct t; try (exfalso; apply C; reflexivity); (split; [reflexivity|split; [reflexivity|split; [discriminate|unfold comp_size; cbn [ops_size]; lia]]]). }
  destruct S as (SP & SS & _ & SL). unfold matcher_new_from_raw. rewrite SP, SS. split.
  - intros (p & old & EP & EL & B & E). exists (old ++ repeat 0 24). split; [apply Forall_app; split; [exact B|apply Forall_forall; intros x X; apply repeat_spec in X; subst x; reflexivity]|].
    split; [rewrite app_length, repeat_length; lia|].
    rewrite EP, <- EL, firstn_app, Nat.sub_diag, firstn_all, app_nil_r, E. reflexivity.
  - intros (h & B & L & E). destruct (parser_of pe t OP_IN) as [p|] eqn:EP; [|discriminate E]. exists p, (firstn (comp_size t) h).
    split; [exact EP|]. split; [apply firstn_length_le; lia|]. split; [apply bytes_firstn; exact B|].
    destruct (p (firstn (comp_size t) h) w); cbn [bind] in E; [|discriminate E]. injection E as ->. reflexivity.
Qed.
Print Assumptions C59_value_as_in_matcher.

Theorem C59_address : forall pe t w v, In t [M_IP4_SADDR; M_IP4_DADDR] -> (value pe t w v <-> dotted w v).
Proof.
  intros pe t w v T.
  assert (C : set_capable t) by (destruct T as [ <- |[ <- |[]]]; discriminate).
  rewrite (C59_value_as_in_matcher pe t w v false C). split.
  - intros (h & _ & _ & E). apply (new_addr4 pe h t w _ false T) in E. destruct E as (a & D & E). injection E as <-. exact D.
  - intros D. exists (repeat 0 24). split; [repeat constructor|]. split; [cbn; lia|]. apply (new_addr4 pe _ t w _ false T). eauto.
Qed.
Print Assumptions C59_address.

Theorem C59_port : forall pe t w n v, In t [M_TCP_SPORT; M_TCP_DPORT; M_UDP_SPORT; M_UDP_DPORT] -> decimal w n ->
  (value pe t w v <-> n <= 65535 /\ v = be16 n).
Proof.
  intros pe t w n v T D.
  assert (C : set_capable t) by (destruct T as [ <- |[ <- |[ <- |[ <- |[]]]]]; discriminate).
  assert (P : is_port t) by (unfold is_port; cbn in *; intuition).
  rewrite (C59_value_as_in_matcher pe t w v false C). split.
  - intros (h & _ & _ & E). rewrite (new_port pe h t w n false P D) in E. destruct (n <=? 65535) eqn:L; [|discriminate E].
    injection E as <-. apply N.leb_le in L. auto.
  - intros (L & ->). exists (repeat 0 24). split; [repeat constructor|]. split; [cbn; lia|]. rewrite (new_port pe _ t w n false P D).
    apply N.leb_le in L. rewrite L. reflexivity.
Qed.
Print Assumptions C59_port.

Theorem C59_network : forall pe t w a n v, In t [M_IP4_SNET; M_IP4_DNET] -> net_text dotted w a n -> n < two32 -> (length w <= 31)%nat ->
  (value pe t w v <-> n <= 32 /\ v = le_enc 4 n ++ a).
Proof.
  intros pe t w a n v T (sa & sn & -> & DA & DN) N2 L.
  assert (C : set_capable t) by (destruct T as [ <- |[ <- |[]]]; discriminate).
  assert (L2 : (length sa + length sn <= 30)%nat) by (rewrite app_length in L; cbn in L; lia).
  rewrite (C59_value_as_in_matcher pe t _ v false C). split.
  - intros (h & _ & _ & E). rewrite (new_net4 pe h t sa a sn n false T DA DN N2 L2) in E. destruct (n <=? 32) eqn:Q; [|discriminate E].
    injection E as <-. apply N.leb_le in Q. auto.
  - intros (Q & ->). exists (repeat 0 24). split; [repeat constructor|]. split; [cbn; lia|].
    rewrite (new_net4 pe _ t sa a sn n false T DA DN N2 L2). apply N.leb_le in Q. rewrite Q. reflexivity.
Qed.
Print Assumptions C59_network.

(** *** Cases *)
Definition ex_heap : nat -> option (list N) := fun _ => Some (repeat 7 192).
Example C59_reads :
  match set_new_from_raw 100 ex_pe ex_heap (fun i => Some i) (fun _ => true) (Some (lit "s")) (lit "(ip4.saddr, tcp.dport)")
          (lit "{ 10.0.0.1, 80; 10.0.0.2 ,443;10.0.0.1,80 ; }") with
  | Ok u => u_key u = [M_IP4_SADDR; M_TCP_DPORT] /\ set_read u = Ok [[10;0;0;1;0;80]; [10;0;0;2;1;187]]
  | Er _ => False
  end /\
  element_texts (lit "{ 10.0.0.1, 80; 10.0.0.2 ,443;10.0.0.1,80 ; }") = [lit "10.0.0.1, 80"; lit "10.0.0.2 ,443"; lit "10.0.0.1,80"] /\
  component_texts (lit "10.0.0.2 ,443") = [lit "10.0.0.2"; lit "443"] /\
  key_names (key_texts (lit "(ip4.saddr, tcp.dport)")) [M_IP4_SADDR; M_TCP_DPORT] /\
  starts_well (lit "{ 10.0.0.1, 80; 10.0.0.2 ,443;10.0.0.1,80 ; }") /\ heap_ok ex_heap /\ generous (fun i => Some i) (fun _ => true) /\ penv_ok ex_pe /\
  set_new_from_raw 100 ex_pe ex_heap (fun i => Some i) (fun _ => true) None (lit "(ip4.saddr)") (lit "{ 10.0.0.1; 10.0.0 }") = Er EINVAL /\
  set_new_from_raw 100 ex_pe ex_heap (fun i => Some i) (fun _ => true) None (lit "(ip4.snet, tcp.dport)") (lit "{}") = Er EINVAL.
Proof.
  split; [vm_compute; auto|]. split; [vm_compute; reflexivity|]. split; [vm_compute; reflexivity|]. split.
  { change (key_texts (lit "(ip4.saddr, tcp.dport)")) with [lit "ip4.saddr"; lit "tcp.dport"].
    constructor; [reflexivity|]. constructor; [reflexivity|constructor]. }
  split. { intros w ws E. revert E. vm_compute. intros E. injection E as <- _. discriminate. }
  split.
  { intros i h E. injection E as <-. split; [|vm_compute; lia].
    apply Forall_forall. intros x X. apply (repeat_spec 192 7) in X. subst x. reflexivity. }
  split. { split; [intros i; eauto|]. split; [intros i j E; injection E as ->; reflexivity|reflexivity]. }
  split; [exact (proj2 (proj2 (proj2 (proj2 (proj2 C45_ex)))))|]. split; vm_compute; reflexivity.
Qed.
