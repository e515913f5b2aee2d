(** The user-visible objects of bpfilter: hooks, verdicts, matchers, rules, sets,
    chains, and the matcher metadata table. *)
From Coq Require Import NArith ZArith List Bool.
From Verif Require Import Bytes.
Import ListNotations.
Local Open Scope N_scope.

(** enum bf_hook, src/libbpfilter/include/bpfilter/hook.h:31-48 (same order). *)
Inductive hook :=
| H_XDP | H_TC_INGRESS | H_NF_PRE_ROUTING | H_NF_LOCAL_IN | H_NF_FORWARD
| H_CGROUP_SKB_INGRESS | H_CGROUP_SKB_EGRESS | H_NF_LOCAL_OUT
| H_NF_POST_ROUTING | H_TC_EGRESS
| H_CONNECT4 | H_CONNECT6 | H_SENDMSG4 | H_SENDMSG6.

(** enum bf_flavor, include/bpfilter/flavor.h; the flavor of each hook is
    bf_hook_to_flavor, hook.c. *)
Inductive flavor := F_TC | F_NF | F_XDP | F_CGROUP_SKB | F_SOCK_ADDR.

Definition hook_flavor (h : hook) : flavor :=
  match h with
  | H_XDP => F_XDP
  | H_TC_INGRESS | H_TC_EGRESS => F_TC
  | H_NF_PRE_ROUTING | H_NF_LOCAL_IN | H_NF_FORWARD | H_NF_LOCAL_OUT
  | H_NF_POST_ROUTING => F_NF
  | H_CGROUP_SKB_INGRESS | H_CGROUP_SKB_EGRESS => F_CGROUP_SKB
  | H_CONNECT4 | H_CONNECT6 | H_SENDMSG4 | H_SENDMSG6 => F_SOCK_ADDR
  end.

(** enum bf_verdict, include/bpfilter/verdict.h (ACCEPT..NEXT = 0..4). *)
Inductive verdict := V_ACCEPT | V_DROP | V_CONTINUE | V_REDIRECT | V_NEXT.

Definition verdict_id (v : verdict) : N :=
  match v with
  | V_ACCEPT => 0 | V_DROP => 1 | V_CONTINUE => 2 | V_REDIRECT => 3 | V_NEXT => 4
  end.

(** enum bf_redirect_dir, include/bpfilter/verdict.h. *)
Inductive rdir := D_INGRESS | D_EGRESS.

(** enum bf_matcher_type, include/bpfilter/matcher.h:51-115 (same order). *)
Inductive mtype :=
| M_IFACE | M_L3_PROTO | M_L4_PROTO | M_PROBABILITY | M_SPORT | M_DPORT
| M_MARK | M_FLOW_HASH | M_FLOW_PROBABILITY
| M_IP4_SADDR | M_IP4_SNET | M_IP4_DADDR | M_IP4_DNET | M_IP4_PROTO | M_IP4_DSCP
| M_IP6_SADDR | M_IP6_SNET | M_IP6_DADDR | M_IP6_DNET | M_IP6_NEXTHDR | M_IP6_DSCP
| M_TCP_SPORT | M_TCP_DPORT | M_TCP_FLAGS | M_UDP_SPORT | M_UDP_DPORT
| M_ICMP_TYPE | M_ICMP_CODE | M_ICMPV6_TYPE | M_ICMPV6_CODE | M_SET.

Definition mtype_eq_dec (a b : mtype) : {a = b} + {a <> b}.
Proof. decide equality. Defined.

Definition hook_eq_dec (a b : hook) : {a = b} + {a <> b}.
Proof. decide equality. Defined.

(** enum bf_matcher_op, include/bpfilter/matcher.h:183-196. *)
Inductive mop := OP_EQ | OP_ANY | OP_ALL | OP_IN | OP_RANGE.

(** struct bf_matcher, matcher.c: type, operator, negate flag and raw payload. *)
Record matcher := mkM {
  m_type : mtype;
  m_op : mop;
  m_neg : bool;
  m_pay : list N
}.

(** struct bf_rule, include/bpfilter/rule.h:56-101.  [r_mark] is the raw 64-bit
    field: the mark is set when the upper half is non-zero. *)
Record rule := mkR {
  r_index : N;
  r_matchers : list matcher;
  r_log : N;
  r_log_rate : N;
  r_mark : N;
  r_counters : bool;
  r_disabled : bool;
  r_verdict : verdict;
  r_rd_ifindex : N;
  r_rd_dir : rdir
}.

(** rule.h:167-179 bf_rule_mark_is_set / bf_rule_mark_get. *)
Definition mark_is_set (r : rule) : bool := negb (r_mark r / two32 =? 0).
Definition mark_get (r : rule) : N := r_mark r mod two32.

(** struct bf_set, include/bpfilter/set.h:44-75.  The hashset of elements is
    given by its iteration order; each element is [s_esize] bytes. *)
Record bset := mkS {
  s_key : list mtype;
  s_esize : nat;
  s_trie : bool;
  s_elems : list (list N)
}.

(** struct bf_chain, include/bpfilter/chain.h.  The flag bits
    BF_CHAIN_LOG, BF_CHAIN_STORE_NEXTHDR and BF_CHAIN_LOG_RATELIMIT are kept as
    three booleans. *)
Record chain := mkC {
  c_hook : hook;
  c_policy : verdict;
  c_sets : list bset;
  c_rules : list rule;
  c_log : bool;
  c_nexthdr : bool;
  c_ratelimit : bool
}.

(** enum bf_matcher_layer, include/bpfilter/matcher.h:201-213 (layer 2 is not
    used by any matcher). *)
Inductive layer := L_NONE | L_3 | L_4.

Definition layer_eqb (a b : layer) : bool :=
  match a, b with L_NONE, L_NONE | L_3, L_3 | L_4, L_4 => true | _, _ => false end.

(** struct bf_matcher_meta (header part), matcher.c:821-1233 _bf_matcher_metas:
    layer, hdr_id, hdr_payload_offset, hdr_payload_size. *)
Record meta := mkMeta { mt_layer : layer; mt_hdr : N; mt_off : nat; mt_size : nat }.

Definition ETH_P_IP : N := 2048.      (* 0x0800 *)
Definition ETH_P_IPV6 : N := 34525.   (* 0x86DD *)
Definition IPPROTO_ICMP : N := 1.
Definition IPPROTO_TCP : N := 6.
Definition IPPROTO_UDP : N := 17.
Definition IPPROTO_ICMPV6 : N := 58.

Definition meta_of (t : mtype) : meta :=
  match t with
  | M_IFACE | M_L3_PROTO | M_L4_PROTO | M_PROBABILITY | M_SPORT | M_DPORT
  | M_MARK | M_FLOW_HASH | M_FLOW_PROBABILITY | M_SET => mkMeta L_NONE 0 0 0
  | M_IP4_SADDR | M_IP4_SNET => mkMeta L_3 ETH_P_IP 12 4
  | M_IP4_DADDR | M_IP4_DNET => mkMeta L_3 ETH_P_IP 16 4
  | M_IP4_PROTO => mkMeta L_3 ETH_P_IP 9 1
  | M_IP4_DSCP => mkMeta L_3 ETH_P_IP 1 1
  | M_IP6_SADDR | M_IP6_SNET => mkMeta L_3 ETH_P_IPV6 8 16
  | M_IP6_DADDR | M_IP6_DNET => mkMeta L_3 ETH_P_IPV6 24 16
  | M_IP6_NEXTHDR => mkMeta L_3 ETH_P_IPV6 6 1
  | M_IP6_DSCP => mkMeta L_3 ETH_P_IPV6 0 1
  | M_TCP_SPORT => mkMeta L_4 IPPROTO_TCP 0 2
  | M_TCP_DPORT => mkMeta L_4 IPPROTO_TCP 2 2
  | M_TCP_FLAGS => mkMeta L_4 IPPROTO_TCP 13 1
  | M_UDP_SPORT => mkMeta L_4 IPPROTO_UDP 0 2
  | M_UDP_DPORT => mkMeta L_4 IPPROTO_UDP 2 2
  | M_ICMP_TYPE => mkMeta L_4 IPPROTO_ICMP 0 1
  | M_ICMP_CODE => mkMeta L_4 IPPROTO_ICMP 1 1
  | M_ICMPV6_TYPE => mkMeta L_4 IPPROTO_ICMPV6 0 1
  | M_ICMPV6_CODE => mkMeta L_4 IPPROTO_ICMPV6 1 1
  end.

(** bf_matcher_get_ops(type, op)->ref_payload_size, matcher.c:821-1254 (None when
    the operator is not supported for the type, i.e. size 0 in the table). *)
Definition ops_size (t : mtype) (o : mop) : option nat :=
  match t, o with
  | M_IFACE, OP_EQ => Some 4%nat
  | M_L3_PROTO, OP_EQ | M_L4_PROTO, OP_EQ => Some 2%nat
  | (M_SPORT | M_DPORT), OP_EQ => Some 2%nat
  | (M_SPORT | M_DPORT), OP_RANGE => Some 4%nat
  | M_PROBABILITY, OP_EQ | M_FLOW_PROBABILITY, OP_EQ => Some 4%nat
  | M_MARK, OP_EQ | M_FLOW_HASH, OP_EQ => Some 4%nat
  | M_FLOW_HASH, OP_RANGE => Some 8%nat
  | (M_IP4_SADDR | M_IP4_DADDR), (OP_EQ | OP_IN) => Some 4%nat
  | (M_IP4_SNET | M_IP4_DNET), (OP_EQ | OP_IN) => Some 8%nat
  | M_IP4_PROTO, (OP_EQ | OP_IN) => Some 1%nat
  | M_IP4_DSCP, OP_EQ => Some 1%nat
  | (M_IP6_SADDR | M_IP6_DADDR), (OP_EQ | OP_IN) => Some 16%nat
  | (M_IP6_SNET | M_IP6_DNET), (OP_EQ | OP_IN) => Some 24%nat
  | M_IP6_NEXTHDR, (OP_EQ | OP_IN) => Some 1%nat
  | M_IP6_DSCP, OP_EQ => Some 1%nat
  | (M_TCP_SPORT | M_TCP_DPORT | M_UDP_SPORT | M_UDP_DPORT), (OP_EQ | OP_IN) => Some 2%nat
  | (M_TCP_SPORT | M_TCP_DPORT | M_UDP_SPORT | M_UDP_DPORT), OP_RANGE => Some 4%nat
  | M_TCP_FLAGS, (OP_EQ | OP_ANY | OP_ALL) => Some 1%nat
  | (M_ICMP_TYPE | M_ICMP_CODE | M_ICMPV6_TYPE | M_ICMPV6_CODE), (OP_EQ | OP_IN) => Some 1%nat
  | _, _ => None
  end.

Definition is_sock_addr (h : hook) : bool :=
  match hook_flavor h with F_SOCK_ADDR => true | _ => false end.
Definition is_nf (h : hook) : bool :=
  match hook_flavor h with F_NF => true | _ => false end.
Definition sock_addr_ip4 (h : hook) : bool :=
  match h with H_CONNECT4 | H_SENDMSG4 => true | _ => false end.
Definition sock_addr_ip6 (h : hook) : bool :=
  match h with H_CONNECT6 | H_SENDMSG6 => true | _ => false end.
Definition hook_is (a b : hook) : bool := if hook_eq_dec a b then true else false.

(** meta->unsupported_hooks, matcher.c:821-1233. *)
Definition unsupported (t : mtype) (h : hook) : bool :=
  match t with
  | M_IFACE | M_SPORT => is_sock_addr h
  | M_L3_PROTO | M_L4_PROTO | M_DPORT | M_PROBABILITY | M_UDP_DPORT | M_SET => false
  | M_MARK => hook_is h H_XDP || is_sock_addr h
  | M_FLOW_HASH => negb (hook_is h H_TC_INGRESS || hook_is h H_TC_EGRESS)
  | M_FLOW_PROBABILITY => is_nf h || is_sock_addr h
  | M_IP4_SADDR | M_IP4_SNET => sock_addr_ip6 h || hook_is h H_CONNECT4
  | M_IP4_DADDR | M_IP4_DNET | M_IP4_PROTO => sock_addr_ip6 h
  | M_IP4_DSCP => is_sock_addr h
  | M_IP6_SADDR | M_IP6_SNET => sock_addr_ip4 h || hook_is h H_CONNECT6
  | M_IP6_DADDR | M_IP6_DNET => sock_addr_ip4 h
  | M_IP6_NEXTHDR | M_IP6_DSCP => is_sock_addr h
  | M_TCP_SPORT | M_TCP_FLAGS | M_UDP_SPORT | M_ICMP_TYPE | M_ICMP_CODE
  | M_ICMPV6_TYPE | M_ICMPV6_CODE => is_sock_addr h
  | M_TCP_DPORT => hook_is h H_SENDMSG4 || hook_is h H_SENDMSG6
  end.

(** bf_chain_get_set_for_matcher, chain.c:451-465: the set matcher's payload is the
    index of the set in the chain's list. *)
Definition set_id (m : matcher) : N := le_dec (firstn 4 (m_pay m)).
Definition set_of (sets : list bset) (m : matcher) : option bset :=
  nth_error sets (N.to_nat (set_id m)).
