(** C35: string helpers; C43: names of enumerators. *)
From Coq Require Import String NArith List Bool Arith Lia.
From Verif Require Import Bytes Types GenModel StrModel StrSpec StrFacts EnumModel EnumFacts.
Import ListNotations.
Local Open Scope string_scope.
Local Open Scope list_scope.
Local Open Scope N_scope.

(** bf_strncpy: the longest prefix that leaves room for the NUL, always
    terminated, nothing written beyond it, -E2BIG exactly when something was cut. *)
Theorem C35_strncpy : forall dst len src s, (1 <= len <= length dst)%nat -> holds src 0 s ->
  exists t m rc, strncpy dst len src = Ok (m, rc) /\ t = firstn (len - 1) s /\
    m = t ++ 0 :: skipn (S (length t)) dst /\ length m = length dst /\ holds m 0 t /\
    (rc = 0 <-> t = s) /\ (rc = E2BIG <-> t <> s).
Proof.
  intros dst len src s Hl Hs. exists (firstn (len - 1) s). rewrite (strncpy_ok _ _ _ _ Hl Hs).
  eexists _, _. split; [reflexivity|]. split; [reflexivity|]. split; [reflexivity|].
  assert (length (firstn (len - 1) s) <= len - 1)%nat by (rewrite firstn_length; lia).
  split; [rewrite app_length; cbn [length]; rewrite skipn_length; lia|].
  split; [split; [intros c Hc; apply Hs; rewrite <- (firstn_skipn (len - 1) s); apply in_or_app; now left|]|].
  { exists (skipn (S (length (firstn (len - 1) s))) dst). reflexivity. }
  assert ((length s < len)%nat <-> firstn (len - 1) s = s) as K.
  { split; intros H0.
    - apply firstn_all2. lia.
    - rewrite H0 in H. lia. }
  destruct (Nat.ltb_spec (length s) len).
  - apply K in H0. rewrite H0. split; split; intros; auto; try discriminate. congruence.
  - assert (firstn (len - 1) s <> s) by (intros E; apply K in E; lia).
    split; split; intros; auto; try discriminate. congruence.
Qed.

Example C35_strncpy_ex :
  strncpy [9; 9; 9; 9] 3 (lit "abc" ++ [0; 7]) = Ok (lit "ab" ++ [0; 9], E2BIG) /\
  strncpy [9; 9; 9; 9] 4 (lit "abc" ++ [0; 7]) = Ok (lit "abc" ++ [0], 0).
Proof. split; reflexivity. Qed.

(** bf_rtrim: exactly the trailing blanks are cut, by one NUL; nothing else changes. *)
Theorem C35_rtrim : forall m i s, holds m i s -> exists t b m',
  s = t ++ b /\ all_blank b /\ no_trailing_blank t /\
  rtrim m i = Ok m' /\ length m' = length m /\ holds m' i t /\
  firstn i m' = firstn i m /\ skipn (i + S (length t)) m' = skipn (i + S (length t)) m.
Proof. exact rtrim_any. Qed.

(** bf_trim: the returned pointer is at the first character that is not blank and
    the string there is the input without its leading and trailing blanks. *)
Theorem C35_trim : forall m i s, holds m i s -> exists a t b m',
  s = a ++ t ++ b /\ all_blank a /\ all_blank b /\ no_leading_blank t /\ no_trailing_blank t /\
  trim m i = Ok (m', i + length a)%nat /\ length m' = length m /\ holds m' (i + length a) t /\
  firstn (i + length a) m' = firstn (i + length a) m /\
  skipn (i + length a + S (length t)) m' = skipn (i + length a + S (length t)) m.
Proof. exact trim_any. Qed.

Example C35_trim_ex :
  trim (lit "  a b " ++ [0; 5]) 0 = Ok (lit "  a b" ++ [0; 0; 5], 2%nat) /\ holds (lit "  a b " ++ [0; 5]) 0 (lit "  a b ").
Proof. split; [reflexivity|]. split; [intros c H; repeat (destruct H as [<-|H]; [discriminate|]); destruct H|exists [5]; reflexivity]. Qed.

(** ** C43 *)
Theorem C43_hooks : enum_inverse hook_to_str hook_from_str.
Proof. exact hook_inverse. Qed.
Theorem C43_verdicts : enum_inverse verdict_to_str verdict_from_str.
Proof. exact verdict_inverse. Qed.
Theorem C43_redirect_directions : enum_inverse rdir_to_str rdir_from_str.
Proof. exact rdir_inverse. Qed.
Theorem C43_matcher_types : enum_inverse mtype_to_str mtype_from_str.
Proof. exact mtype_inverse. Qed.
Theorem C43_matcher_operators : enum_inverse mop_to_str mop_from_str.
Proof. exact mop_inverse. Qed.

(** The names themselves, as documented (doc/usage/bfcli.rst), for every enumerator. *)
Theorem C43_documented_names :
  (forall v, verdict_to_str v = Some (lit match v with V_ACCEPT => "ACCEPT" | V_DROP => "DROP" | V_CONTINUE => "CONTINUE"
                                          | V_REDIRECT => "REDIRECT" | V_NEXT => "NEXT" end)) /\
  (forall d, rdir_to_str d = Some (lit match d with D_INGRESS => "in" | D_EGRESS => "out" end)) /\
  (forall o, mop_to_str o = Some (lit match o with OP_EQ => "eq" | OP_ANY => "any" | OP_ALL => "all" | OP_IN => "in" | OP_RANGE => "range" end)) /\
  (forall h, hook_to_str h = Some (lit match h with
     | H_XDP => "BF_HOOK_XDP" | H_TC_INGRESS => "BF_HOOK_TC_INGRESS" | H_TC_EGRESS => "BF_HOOK_TC_EGRESS"
     | H_NF_PRE_ROUTING => "BF_HOOK_NF_PRE_ROUTING" | H_NF_LOCAL_IN => "BF_HOOK_NF_LOCAL_IN" | H_NF_FORWARD => "BF_HOOK_NF_FORWARD"
     | H_NF_LOCAL_OUT => "BF_HOOK_NF_LOCAL_OUT" | H_NF_POST_ROUTING => "BF_HOOK_NF_POST_ROUTING"
     | H_CGROUP_SKB_INGRESS => "BF_HOOK_CGROUP_SKB_INGRESS" | H_CGROUP_SKB_EGRESS => "BF_HOOK_CGROUP_SKB_EGRESS"
     | H_CONNECT4 => "BF_HOOK_CGROUP_SOCK_ADDR_CONNECT4" | H_CONNECT6 => "BF_HOOK_CGROUP_SOCK_ADDR_CONNECT6"
     | H_SENDMSG4 => "BF_HOOK_CGROUP_SOCK_ADDR_SENDMSG4" | H_SENDMSG6 => "BF_HOOK_CGROUP_SOCK_ADDR_SENDMSG6" end)) /\
  (forall t, mtype_to_str t = Some (lit match t with
     | M_IFACE => "meta.iface" | M_L3_PROTO => "meta.l3_proto" | M_L4_PROTO => "meta.l4_proto" | M_PROBABILITY => "meta.probability"
     | M_SPORT => "meta.sport" | M_DPORT => "meta.dport" | M_MARK => "meta.mark" | M_FLOW_HASH => "meta.flow_hash"
     | M_FLOW_PROBABILITY => "meta.flow_probability"
     | M_IP4_SADDR => "ip4.saddr" | M_IP4_SNET => "ip4.snet" | M_IP4_DADDR => "ip4.daddr" | M_IP4_DNET => "ip4.dnet"
     | M_IP4_PROTO => "ip4.proto" | M_IP4_DSCP => "ip4.dscp"
     | M_IP6_SADDR => "ip6.saddr" | M_IP6_SNET => "ip6.snet" | M_IP6_DADDR => "ip6.daddr" | M_IP6_DNET => "ip6.dnet"
     | M_IP6_NEXTHDR => "ip6.nexthdr" | M_IP6_DSCP => "ip6.dscp"
     | M_TCP_SPORT => "tcp.sport" | M_TCP_DPORT => "tcp.dport" | M_TCP_FLAGS => "tcp.flags"
     | M_UDP_SPORT => "udp.sport" | M_UDP_DPORT => "udp.dport"
     | M_ICMP_TYPE => "icmp.type" | M_ICMP_CODE => "icmp.code" | M_ICMPV6_TYPE => "icmpv6.type" | M_ICMPV6_CODE => "icmpv6.code"
     | M_SET => "<set>" end)).
Proof. repeat split; intros []; reflexivity. Qed.
Print Assumptions C43_documented_names.

(** Protocol, ICMP, TCP flag and log option names, whatever their case. *)
Theorem C43_names : Forall (fun t => names_inverse (to_str t) (from_str streq_i t))
  [tcp_flag_strs; log_opt_strs; ethertype_strs; ipproto_strs; icmp_strs; icmpv6_strs].
Proof. repeat (apply Forall_cons; [apply table_inverse_i_intro; reflexivity|]). constructor. Qed.

(** DSCP names: "be" and "cs0" are two names of 0, the only value with two. *)
Theorem C43_dscp_names : exists t, dscp_strs = t /\
  (forall s v, from_str streq_i t s = Ok v -> ~ same_letters s (lit "be") ->
    exists n, to_str t v = Some n /\ same_letters s n) /\
  (forall s, same_letters s (lit "be") -> from_str streq_i t s = Ok 0) /\ to_str t 0 = Some (lit "cs0").
Proof.
  exists dscp_strs. split; [reflexivity|]. split; [|split; [|reflexivity]].
  - intros s v H Hb. apply from_str_in in H as (n & Hi & E). apply streq_i_iff in E.
    assert (n <> lit "be"). { intros ->. apply Hb. symmetry. exact E. }
    exists n. split; [|symmetry; exact E]. unfold dscp_strs in Hi. cbn [In] in Hi.
    repeat (destruct Hi as [Hi|Hi]; [apply pair_equal_spec in Hi as (<- & <-); solve [reflexivity|congruence]|]). destruct Hi.
  - intros s H. assert (E : forall n, streq_i n s = streq_i n (lit "be")).
    { intros n. unfold streq_i. unfold same_letters in H. change lower with tolower in H. now rewrite H. }
    unfold dscp_strs. cbn [from_str]. rewrite !E. reflexivity.
Qed.

Example C43_ex : mtype_from_str (lit "ip4.saddr") = Ok M_IP4_SADDR /\ mtype_from_str (lit "ip4.sadd") = Er EINVAL /\
  from_str streq_i ipproto_strs (lit "ICMPv6") = Ok 58.
Proof. repeat split; reflexivity. Qed.

Print Assumptions C35_strncpy.
Print Assumptions C35_trim.
Print Assumptions C43_names.
Print Assumptions C43_dscp_names.
Print Assumptions C35_rtrim.
Print Assumptions C43_hooks.
Print Assumptions C43_verdicts.
Print Assumptions C43_redirect_directions.
Print Assumptions C43_matcher_types.
Print Assumptions C43_matcher_operators.
