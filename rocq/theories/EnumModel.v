(** The enumeration/string tables of hook.c, verdict.c, rule.c and matcher.c. *)
From Coq Require Import NArith Ascii String List Bool Arith.
From Verif Require Import Bytes Types GenModel ChainModel StrModel.
Import ListNotations.
Local Open Scope N_scope.

(** A table, in the order the from_str loops visit it: enumerator value and name.
    Unnamed entries of the sparse tables (NULL pointers, which bf_streq_i never
    matches) are left out. *)
Definition table := list (N * cstr).

(** The loop of every *_from_str function; [eq] is bf_streq or bf_streq_i. *)
Fixpoint from_str (eq : cstr -> cstr -> bool) (t : table) (s : cstr) : res N :=
  match t with
  | [] => Er EINVAL
  | (v, n) :: r => if eq n s then Ok v else from_str eq r s
  end.

(** Array lookup of every *_to_str function. *)
Fixpoint to_str (t : table) (v : N) : option cstr :=
  match t with
  | [] => None
  | (w, n) :: r => if v =? w then Some n else to_str r v
  end.

Fixpoint number (i : N) (l : list string) : table :=
  match l with [] => [] | s :: r => (i, lit s) :: number (i + 1) r end.

Local Open Scope string_scope.

(** hook.c:27-42, with the enumerator order of hook.h:31-48. *)
Definition hook_strs : table := number 0
  ["BF_HOOK_XDP"; "BF_HOOK_TC_INGRESS"; "BF_HOOK_NF_PRE_ROUTING"; "BF_HOOK_NF_LOCAL_IN"; "BF_HOOK_NF_FORWARD";
   "BF_HOOK_CGROUP_SKB_INGRESS"; "BF_HOOK_CGROUP_SKB_EGRESS"; "BF_HOOK_NF_LOCAL_OUT"; "BF_HOOK_NF_POST_ROUTING";
   "BF_HOOK_TC_EGRESS"; "BF_HOOK_CGROUP_SOCK_ADDR_CONNECT4"; "BF_HOOK_CGROUP_SOCK_ADDR_CONNECT6";
   "BF_HOOK_CGROUP_SOCK_ADDR_SENDMSG4"; "BF_HOOK_CGROUP_SOCK_ADDR_SENDMSG6"].

(** verdict.c:14-17 and 42-46. *)
Definition rdir_strs : table := number 0 ["in"; "out"].
Definition verdict_strs : table := number 0 ["ACCEPT"; "DROP"; "CONTINUE"; "REDIRECT"; "NEXT"].

(** rule.c:22-26. *)
Definition log_opt_strs : table := number 0 ["link"; "internet"; "transport"].

(** matcher.c:1466-1498, enumerator order of matcher.h. *)
Definition mtype_strs : table := number 0
  ["meta.iface"; "meta.l3_proto"; "meta.l4_proto"; "meta.probability"; "meta.sport"; "meta.dport"; "meta.mark";
   "meta.flow_hash"; "meta.flow_probability"; "ip4.saddr"; "ip4.snet"; "ip4.daddr"; "ip4.dnet"; "ip4.proto"; "ip4.dscp";
   "ip6.saddr"; "ip6.snet"; "ip6.daddr"; "ip6.dnet"; "ip6.nexthdr"; "ip6.dscp"; "tcp.sport"; "tcp.dport"; "tcp.flags";
   "udp.sport"; "udp.dport"; "icmp.type"; "icmp.code"; "icmpv6.type"; "icmpv6.code"; "<set>"].

(** matcher.c:1525-1529. *)
Definition mop_strs : table := number 0 ["eq"; "any"; "all"; "in"; "range"].

(** matcher.c:1555-1559. *)
Definition tcp_flag_strs : table := number 0 ["fin"; "syn"; "rst"; "psh"; "ack"; "urg"; "ece"; "cwr"].

(** matcher.c:1584-1612. *)
Definition ethertype_strs : table := [(2048, lit "ipv4"); (34525, lit "ipv6")].

(** matcher.c:1614-1621 (IPPROTO_* values of linux/in.h, linux/in6.h). *)
Definition ipproto_strs : table :=
  [(0, lit "hop"); (1, lit "icmp"); (2, lit "igmp"); (6, lit "tcp"); (17, lit "udp"); (43, lit "routing");
   (44, lit "frag"); (47, lit "gre"); (51, lit "ah"); (58, lit "icmpv6"); (60, lit "dst"); (135, lit "mh")].

(** matcher.c:1646-1656 (the table is an array of pairs, visited in this order). *)
Definition dscp_strs : table :=
  [(0, lit "cs0"); (8, lit "cs1"); (16, lit "cs2"); (24, lit "cs3"); (32, lit "cs4"); (40, lit "cs5"); (48, lit "cs6");
   (56, lit "cs7"); (10, lit "af11"); (12, lit "af12"); (14, lit "af13"); (18, lit "af21"); (20, lit "af22");
   (22, lit "af23"); (26, lit "af31"); (28, lit "af32"); (30, lit "af33"); (34, lit "af41"); (36, lit "af42");
   (38, lit "af43"); (46, lit "ef"); (44, lit "voice-admit"); (1, lit "le"); (45, lit "nqb"); (0, lit "be")].

(** matcher.c:1683-1702. *)
Definition icmp_strs : table :=
  [(0, lit "echo-reply"); (3, lit "destination-unreachable"); (4, lit "source-quench"); (5, lit "redirect");
   (8, lit "echo-request"); (9, lit "router-advertisement"); (10, lit "router-solicitation"); (11, lit "time-exceeded");
   (12, lit "parameter-problem"); (13, lit "timestamp-request"); (14, lit "timestamp-reply"); (15, lit "info-request");
   (16, lit "info-reply"); (17, lit "address-mask-request"); (18, lit "address-mask-reply")].

(** matcher.c:1724-1744. *)
Definition icmpv6_strs : table :=
  [(1, lit "destination-unreachable"); (2, lit "packet-too-big"); (3, lit "time-exceeded"); (4, lit "parameter-problem");
   (128, lit "echo-request"); (129, lit "echo-reply"); (130, lit "mld-listener-query"); (131, lit "mld-listener-report");
   (132, lit "mld-listener-reduction"); (133, lit "nd-router-solicit"); (134, lit "nd-router-advert");
   (135, lit "nd-neighbor-solicit"); (136, lit "nd-neighbor-advert"); (143, lit "mld2-listener-report")].

Local Close Scope string_scope.

(** Enumerator values of the types of Types.v (declaration order in hook.h,
    verdict.h, matcher.h). *)
Definition mtypes : list mtype :=
  [M_IFACE; M_L3_PROTO; M_L4_PROTO; M_PROBABILITY; M_SPORT; M_DPORT; M_MARK; M_FLOW_HASH; M_FLOW_PROBABILITY;
   M_IP4_SADDR; M_IP4_SNET; M_IP4_DADDR; M_IP4_DNET; M_IP4_PROTO; M_IP4_DSCP; M_IP6_SADDR; M_IP6_SNET; M_IP6_DADDR;
   M_IP6_DNET; M_IP6_NEXTHDR; M_IP6_DSCP; M_TCP_SPORT; M_TCP_DPORT; M_TCP_FLAGS; M_UDP_SPORT; M_UDP_DPORT; M_ICMP_TYPE;
   M_ICMP_CODE; M_ICMPV6_TYPE; M_ICMPV6_CODE; M_SET].
Definition mops : list mop := [OP_EQ; OP_ANY; OP_ALL; OP_IN; OP_RANGE].
Definition rdirs : list rdir := [D_INGRESS; D_EGRESS].

(** Position of an enumerator in such a list. *)
Fixpoint index_of {A} (eqb : A -> A -> bool) (l : list A) (x : A) : N :=
  match l with [] => 0 | y :: r => if eqb x y then 0 else 1 + index_of eqb r x end.
Definition hook_id (h : hook) : N := index_of (fun a b => if hook_eq_dec a b then true else false) hooks h.
Definition mtype_id (t : mtype) : N := index_of (fun a b => if mtype_eq_dec a b then true else false) mtypes t.
Definition mop_id (o : mop) : N := match o with OP_EQ => 0 | OP_ANY => 1 | OP_ALL => 2 | OP_IN => 3 | OP_RANGE => 4 end.
Definition rdir_id (d : rdir) : N := match d with D_INGRESS => 0 | D_EGRESS => 1 end.
Definition mtype_of_id (n : N) : option mtype := nth_error mtypes (N.to_nat n).
Definition mop_of_id (n : N) : option mop := nth_error mops (N.to_nat n).
Definition rdir_of_id (n : N) : option rdir := nth_error rdirs (N.to_nat n).

(** The public conversions: hook.c:45-65, verdict.c:20-69, matcher.c:1502-1553,
    rule.c:29-49. *)
Definition option_res {A} (o : option A) (e : N) : res A := match o with Some a => Ok a | None => Er e end.
Definition hook_to_str (h : hook) : option cstr := to_str hook_strs (hook_id h).
Definition hook_from_str (s : cstr) : res hook :=
  bind (from_str streq hook_strs s) (fun i => option_res (hook_of_id i) EUB).
Definition verdict_to_str (v : verdict) : option cstr := to_str verdict_strs (verdict_id v).
Definition verdict_from_str (s : cstr) : res verdict :=
  bind (from_str streq verdict_strs s) (fun i => option_res (verdict_of_id i) EUB).
Definition rdir_to_str (d : rdir) : option cstr := to_str rdir_strs (rdir_id d).
Definition rdir_from_str (s : cstr) : res rdir :=
  bind (from_str streq rdir_strs s) (fun i => option_res (rdir_of_id i) EUB).
Definition mtype_to_str (t : mtype) : option cstr := to_str mtype_strs (mtype_id t).
Definition mtype_from_str (s : cstr) : res mtype :=
  bind (from_str streq mtype_strs s) (fun i => option_res (mtype_of_id i) EUB).
Definition mop_to_str (o : mop) : option cstr := to_str mop_strs (mop_id o).
Definition mop_from_str (s : cstr) : res mop :=
  bind (from_str streq mop_strs s) (fun i => option_res (mop_of_id i) EUB).
