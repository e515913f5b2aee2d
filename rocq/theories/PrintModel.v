(** The printers of matcher.c: the text bfcli shows for a payload (stdout, by value). *)
From Coq Require Import String NArith ZArith List Bool Arith.
From Verif Require Import Bytes Types GenModel StrModel EnumModel ParseModel HookModel.
Import ListNotations.
Local Open Scope string_scope.
Local Open Scope list_scope.
Local Open Scope N_scope.

(** printf's %u and %x: the digits of a number, without leading zeros. *)
Definition digit_char (d : N) : N := if d <? 10 then 48 + d else 87 + d.
Fixpoint num_text (fuel : nat) (b n : N) : cstr :=
  match fuel with
  | O => []
  | S f => if n <? b then [digit_char n] else num_text f b (n / b) ++ [digit_char (n mod b)]
  end.
Definition dec (n : N) : cstr := num_text (S (N.to_nat (N.log2 n))) 10 n.
Definition hex (n : N) : cstr := num_text (S (N.to_nat (N.log2 n))) 16 n.
(** %04x *)
Definition hex4 (n : N) : cstr := let s := hex n in repeat 48 (4 - length s) ++ s.

(** What the printers ask from the machine: if_indextoname, inet_ntop(AF_INET6), and
    printf on the bytes of a float ("%.0f%%" or "%g%%"). *)
Record show_env := mkSE {
  se_ifname : N -> option cstr;
  se_ntop6 : list N -> option cstr;
  se_percent : list N -> cstr
}.

(** matcher.c:121-126 _bf_print_u32, 441-446 _bf_print_mark. *)
Definition print_u32 (pay : list N) : cstr := lit "0x" ++ hex (le_dec (firstn 4 pay)).
(** matcher.c:177-184 _bf_print_u32_range. *)
Definition print_u32_range (pay : list N) : cstr :=
  lit "0x" ++ hex (le_dec (firstn 4 pay)) ++ lit "-0x" ++ hex (le_dec (firstn 4 (skipn 4 pay))).
(** matcher.c:206-218 _bf_print_iface; if.c:37-43. *)
Definition print_iface (se : show_env) (pay : list N) : cstr :=
  let i := le_dec (firstn 4 pay) in
  match se_ifname se i with Some n => n | None => dec i end.
(** matcher.c:242-252 _bf_print_l3_proto. *)
Definition print_l3_proto (pay : list N) : cstr :=
  let v := le_dec (firstn 2 pay) in
  match to_str ethertype_strs v with Some s => s | None => lit "0x" ++ hex4 v end.
(** matcher.c:276-286 _bf_print_l4_proto, 696-706 _bf_print_icmp_type, 756-768
    _bf_print_dscp, 793-803 _bf_print_icmpv6_type; with an empty table 727-732
    _bf_print_icmp_code. *)
Definition print_named (t : table) (pay : list N) : cstr :=
  let v := le_dec (firstn 1 pay) in
  match to_str t v with Some s => s | None => dec v end.
(** matcher.c:309-314 _bf_print_l4_port. *)
Definition print_l4_port (pay : list N) : cstr := dec (swap16 (le_dec (firstn 2 pay))).
(** matcher.c:367-374 _bf_print_l4_port_range: the members of a range are in host order. *)
Definition print_l4_port_range (pay : list N) : cstr :=
  dec (le_dec (firstn 2 pay)) ++ lit "-" ++ dec (le_dec (firstn 2 (skipn 2 pay))).
(** inet_ntop(AF_INET): glibc's inet_ntop4; 16 bytes always suffice. *)
Definition ntop4 (a : list N) : cstr :=
  dec (nth 0 a 0) ++ 46 :: dec (nth 1 a 0) ++ 46 :: dec (nth 2 a 0) ++ 46 :: dec (nth 3 a 0).
(** matcher.c:467-477 _bf_print_ipv4_addr, 520-531 _bf_print_ipv4_net. *)
Definition print_ipv4_addr (pay : list N) : cstr := ntop4 pay.
Definition print_ipv4_net (pay : list N) : cstr := ntop4 (skipn 4 pay) ++ 47 :: dec (le_dec (firstn 4 pay)).
(** matcher.c:552-562 _bf_print_ipv6_addr, 604-615 _bf_print_ipv6_net. *)
Definition print_ipv6_addr (se : show_env) (pay : list N) : cstr :=
  match se_ntop6 se (firstn 16 pay) with Some s => s | None => lit "<failed to print IPv6 address>" end.
Definition print_ipv6_net (se : show_env) (pay : list N) : cstr :=
  match se_ntop6 se (firstn 16 (skipn 4 pay)) with
  | Some s => s ++ 47 :: dec (le_dec (firstn 4 pay))
  | None => lit "<failed to print IPv6 address>"
  end.
(** matcher.c:659-672 _bf_print_tcp_flags: [flag] loses the bits that are printed. *)
Fixpoint flags_text (n : nat) (i : N) (flag : N) : cstr :=
  match n with
  | O => []
  | S k =>
      if N.testbit flag i then
        let flag' := N.clearbit flag i in
        (match to_str tcp_flag_strs i with Some s => s | None => lit "(null)" end) ++ (if flag' =? 0 then [] else lit ",") ++
        flags_text k (i + 1) flag'
      else flags_text k (i + 1) flag
  end.
Definition print_tcp_flags (pay : list N) : cstr := flags_text 8 0 (le_dec (firstn 1 pay)).

(** The print members of the ops tables, matcher.c:821-1233. *)
Definition print_of (se : show_env) (t : mtype) (o : mop) : option (list N -> cstr) :=
  match t, o with
  | M_IFACE, OP_EQ => Some (print_iface se)
  | M_L3_PROTO, OP_EQ => Some print_l3_proto
  | M_L4_PROTO, OP_EQ => Some (print_named ipproto_strs)
  | (M_SPORT | M_DPORT), OP_EQ => Some print_l4_port
  | (M_SPORT | M_DPORT), OP_RANGE => Some print_l4_port_range
  | (M_PROBABILITY | M_FLOW_PROBABILITY), OP_EQ => Some (se_percent se)
  | M_MARK, OP_EQ => Some print_u32
  | M_FLOW_HASH, OP_EQ => Some print_u32
  | M_FLOW_HASH, OP_RANGE => Some print_u32_range
  | (M_IP4_SADDR | M_IP4_DADDR), (OP_EQ | OP_IN) => Some print_ipv4_addr
  | (M_IP4_SNET | M_IP4_DNET), (OP_EQ | OP_IN) => Some print_ipv4_net
  | M_IP4_PROTO, (OP_EQ | OP_IN) => Some (print_named ipproto_strs)
  | (M_IP4_DSCP | M_IP6_DSCP), OP_EQ => Some (print_named dscp_strs)
  | (M_IP6_SADDR | M_IP6_DADDR), (OP_EQ | OP_IN) => Some (print_ipv6_addr se)
  | (M_IP6_SNET | M_IP6_DNET), (OP_EQ | OP_IN) => Some (print_ipv6_net se)
  | M_IP6_NEXTHDR, (OP_EQ | OP_IN) => Some (print_named ipproto_strs)
  | (M_TCP_SPORT | M_TCP_DPORT | M_UDP_SPORT | M_UDP_DPORT), (OP_EQ | OP_IN) => Some print_l4_port
  | (M_TCP_SPORT | M_TCP_DPORT | M_UDP_SPORT | M_UDP_DPORT), OP_RANGE => Some print_l4_port_range
  | M_TCP_FLAGS, (OP_EQ | OP_ANY | OP_ALL) => Some print_tcp_flags
  | M_ICMP_TYPE, (OP_EQ | OP_IN) => Some (print_named icmp_strs)
  | (M_ICMP_CODE | M_ICMPV6_CODE), (OP_EQ | OP_IN) => Some (print_named [])
  | M_ICMPV6_TYPE, (OP_EQ | OP_IN) => Some (print_named icmpv6_strs)
  | _, _ => None
  end.

(** print.c:122-160: the components of an element, and the elements between braces as
    they follow "in "; [margin] and [close] are the spaces before an element and before
    the brace.  (An element has the size of the set, so no component is cut.) *)
Fixpoint comps_text (se : show_env) (key : list mtype) (e : list N) : cstr :=
  match key with
  | [] => []
  | t :: r =>
      (match print_of se t OP_IN with Some p => p e | None => [] end) ++
      (match r with [] => [] | _ => lit ", " end) ++
      comps_text se r (skipn (match ops_size t OP_IN with Some n => n | None => O end) e)
  end.
Definition set_text (se : show_env) (margin close : nat) (key : list mtype) (elems : list (list N)) : cstr :=
  lit "{" ++ [10] ++ concat (map (fun e => repeat 32 margin ++ comps_text se key e ++ [10]) elems) ++ repeat 32 close ++ lit "}".
(** print.c:122-128, 195-202: the key, between parentheses. *)
Fixpoint key_list (key : list mtype) : cstr :=
  match key with
  | [] => []
  | t :: r => (match mtype_to_str t with Some s => s | None => lit "(null)" end) ++ (match r with [] => [] | _ => lit ", " end) ++ key_list r
  end.
Definition key_text (key : list mtype) : cstr := lit "(" ++ key_list key ++ lit ")".
(** print.c:262-300: the headers of "log" (unless all are logged), its rate, the mark. *)
Fixpoint headers_text (n : nat) (i : N) (log : N) : cstr :=
  match n with
  | O => []
  | S k =>
      if N.testbit log i then
        let log' := N.clearbit log i in
        (match to_str log_opt_strs i with Some s => s | None => lit "(null)" end) ++ (if log' =? 0 then [] else lit ",") ++
        headers_text k (i + 1) log'
      else headers_text k (i + 1) log
  end.
Definition rate_text (r : N) : cstr :=
  if r mod 1000000000 =? 0 then dec (r / 1000000000) ++ lit "s"
  else if r mod 1000000 =? 0 then dec (r / 1000000) ++ lit "ms"
  else if r mod 1000 =? 0 then dec (r / 1000) ++ lit "us"
  else dec r ++ lit "ns".
Definition mark_text (v : N) : cstr := lit "0x" ++ hex v.

(** print.c:96-124: the hook options between braces, which commas separate. *)
Definition dec_int (z : Z) : cstr := match z with Zneg p => 45 :: dec (Npos p) | _ => dec (Z.to_N z) end.
Definition opts_text (o : hookopts) : list cstr :=
  (match ho_ifindex o with Some z => [lit "ifindex=" ++ dec_int z] | None => [] end) ++
  (match ho_cgpath o with Some s => [lit "cgpath=" ++ s] | None => [] end) ++
  (match ho_family o with Some f => [lit "family=" ++ (if f =? 2 then lit "inet4" else lit "inet6")] | None => [] end) ++
  (match ho_priorities o with Some (a, b) => [lit "priorities=" ++ dec_int a ++ 45 :: dec_int b] | None => [] end).
