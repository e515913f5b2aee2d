(** matcher.c: the parsers that turn the text of a matcher or of a set element
    into a payload.  [old] is the memory the caller gives (malloc'ed, of the
    declared payload size); a parser returns its content after the call.  Every
    parser reports its errors as -EINVAL except where noted. *)
From Coq Require Import NArith List Bool Arith.
From Verif Require Import Bytes Types GenModel StrModel EnumModel.
Import ListNotations.
Local Open Scope N_scope.
Local Open Scope res_scope.

(** What the parsers ask the system: if_nametoindex(3) (0: no such interface),
    inet_pton(AF_INET6) and strtod with the conversion to float of
    _bf_parse_probability (matcher.c:376-398), all left abstract. *)
Record penv := mkPE {
  pe_ifindex : cstr -> N;
  pe_pton6 : cstr -> option (list N);
  pe_percent : cstr -> option (list N)
}.

(** A 16-byte address, a 4-byte float. *)
Definition penv_ok (pe : penv) : Prop :=
  (forall s a, pe_pton6 pe s = Some a -> length a = 16%nat /\ bytes a) /\
  (forall s f, pe_percent pe s = Some f -> length f = 4%nat /\ bytes f).

Definition write (old v : list N) : list N := v ++ skipn (length v) old.

(** bf_strncpy(buf, n, raw) with its result ignored: buf holds the first n-1
    characters (StrFacts.strncpy_ok). *)
Definition truncated (n : nat) (raw : cstr) : cstr := firstn (n - 1) raw.

Definition first_char (s : cstr) : N := match s with [] => 0 | c :: _ => c end.

(** matcher.c:80-100 _bf_strtoul. *)
Definition strtoul2 (s : cstr) : res N :=
  match s with
  | [] => Er EINVAL
  | _ =>
      match strtoul 10 s with
      | (v, [], false) => Ok v
      | _ => match strtoul 16 s with
             | (v, [], false) => Ok v
             | _ => Er EINVAL
             end
      end
  end.

Definition bounded (max : N) (r : res N) : res N :=
  v <- r ; if v <=? max then Ok v else Er EINVAL.

(** matcher.c:102-120 _bf_parse_u32. *)
Definition parse_u32 (old : list N) (raw : cstr) : res (list N) :=
  v <- bounded (two32 - 1) (strtoul2 raw) ; Ok (write old (le_enc 4 v)).

(** matcher.c:130-176 _bf_parse_u32_range. *)
Definition parse_u32_range (old : list N) (raw : cstr) : res (list N) :=
  let buf := truncated 32 raw in
  if negb (isdigit (first_char raw)) then Er EINVAL else
  match strtok 45 buf with
  | None => Er EINVAL
  | Some (first, second) =>
      match second with
      | [] => Er EINVAL
      | _ =>
          a <- bounded (two32 - 1) (strtoul2 first) ;
          b <- bounded (two32 - 1) (strtoul2 second) ;
          if b <? a then Er EINVAL else Ok (write old (le_enc 4 a ++ le_enc 4 b))
      end
  end.

(** if.c:46-68 bf_if_index_from_str and matcher.c:186-204 _bf_parse_iface. *)
Definition parse_iface (pe : penv) (old : list N) (raw : cstr) : res (list N) :=
  let idx := pe_ifindex pe raw in
  if (0 <? idx) && (idx <? two31) then Ok (write old (le_enc 4 idx)) else
  match strtoul 10 raw with
  | (v, [], false) => if (0 <? v) && (v <? two32) then Ok (write old (le_enc 4 v)) else Er EINVAL
  | _ => Er EINVAL
  end.

(** matcher.c:220-241 _bf_parse_l3_proto. *)
Definition parse_l3_proto (old : list N) (raw : cstr) : res (list N) :=
  match from_str streq_i ethertype_strs raw with
  | Ok v => Ok (write old (le_enc 2 v))
  | Er _ => v <- bounded 65535 (strtoul2 raw) ; Ok (write old (le_enc 2 v))
  end.

(** The parsers of one-byte values with names: matcher.c:254-275
    _bf_parse_l4_proto, 674-695 _bf_parse_icmp_type, 734-755 _bf_parse_dscp,
    770-792 _bf_parse_icmpv6_type; with an empty table 708-725
    _bf_parse_icmp_code. *)
Definition parse_named (t : table) (max : N) (old : list N) (raw : cstr) : res (list N) :=
  match from_str streq_i t raw with
  | Ok v => Ok (write old [v])
  | Er _ => v <- bounded max (strtoul2 raw) ; Ok (write old [v])
  end.
Definition parse_l4_proto := parse_named ipproto_strs 255.
Definition parse_icmp_type := parse_named icmp_strs 255.
Definition parse_icmpv6_type := parse_named icmpv6_strs 255.
Definition parse_dscp := parse_named dscp_strs 63.
Definition parse_icmp_code := parse_named [] 255.

(** matcher.c:288-307 _bf_parse_l4_port: errno is not looked at. *)
Definition parse_l4_port (old : list N) (raw : cstr) : res (list N) :=
  match strtoul 10 raw with
  | (p, [], _) => if p <=? 65535 then Ok (write old (le_enc 2 (swap16 p))) else Er EINVAL
  | _ => Er EINVAL
  end.

(** matcher.c:318-366 _bf_parse_l4_port_range. *)
Definition port_of (s : cstr) : res N :=
  match strtoul 10 s with
  | (p, [], _) => if p <=? 65535 then Ok p else Er EINVAL
  | _ => Er EINVAL
  end.
Definition parse_l4_port_range (old : list N) (raw : cstr) : res (list N) :=
  let buf := truncated 16 raw in
  if negb (isdigit (first_char raw)) then Er EINVAL else
  match strtok 45 buf with
  | None => Er EINVAL
  | Some (first, second) =>
      match second with
      | [] => Er EINVAL
      | _ =>
          a <- port_of first ;
          b <- port_of second ;
          if b <? a then Er EINVAL else Ok (write old (le_enc 2 a ++ le_enc 2 b))
      end
  end.

(** matcher.c:376-398 _bf_parse_probability. *)
Definition parse_probability (pe : penv) (old : list N) (raw : cstr) : res (list N) :=
  match pe_percent pe raw with Some f => Ok (write old f) | None => Er EINVAL end.

(** matcher.c:411-438 _bf_parse_mark. *)
Definition parse_mark (old : list N) (raw : cstr) : res (list N) :=
  match strtoll 0 raw with
  | (neg, v, []) =>
      if neg && (0 <? v) then Er EINVAL
      else if two32 - 1 <? v then Er EINVAL
      else Ok (write old (le_enc 4 v))
  | _ => Er EINVAL
  end.

(** inet_pton(AF_INET): glibc's inet_pton4, one character at a time.  [acc] are
    the finished octets in reverse, [cur] the octet being read, if any. *)
Fixpoint pton4 (s : cstr) (acc : list N) (cur : option N) : option (list N) :=
  match s with
  | [] => match cur with
          | Some v => if (length acc =? 3)%nat then Some (rev (v :: acc)) else None
          | None => None
          end
  | c :: r =>
      if isdigit c then
        let d := c - 48 in
        match cur with
        | None => if (length acc <? 4)%nat then pton4 r acc (Some d) else None
        | Some v => if v =? 0 then None
                    else if 255 <? v * 10 + d then None
                    else pton4 r acc (Some (v * 10 + d))
        end
      else if c =? 46 then
        match cur with
        | Some v => if (length acc =? 3)%nat then None else pton4 r (v :: acc) None
        | None => None
        end
      else None
  end.
Definition inet_pton4 (s : cstr) : option (list N) := pton4 s [] None.

(** matcher.c:448-463 _bf_parse_ipv4_addr and 533-548 _bf_parse_ipv6_addr. *)
Definition parse_ipv4_addr (old : list N) (raw : cstr) : res (list N) :=
  match inet_pton4 raw with Some a => Ok (write old a) | None => Er EINVAL end.
Definition parse_ipv6_addr (pe : penv) (old : list N) (raw : cstr) : res (list N) :=
  match pe_pton6 pe raw with Some a => Ok (write old a) | None => Er EINVAL end.

(** The tail shared by matcher.c:482-517 _bf_parse_ipv4_net and 566-601
    _bf_parse_ipv6_net: addr->prefixlen is a uint32_t, so the value of strtoul is
    truncated before it is compared with the maximum. *)
Definition parse_net (pton : cstr -> option (list N)) (max : N) (old : list N) (buf : cstr) : res (list N) :=
  match strtok 47 buf with
  | None => Er EINVAL
  | Some (ip, mask) =>
      match mask with
      | [] => Er EINVAL
      | _ =>
          match pton ip with
          | None => Er EINVAL
          | Some a =>
              match strtoul 10 mask with
              | (v, [], _) =>
                  if v mod two32 <=? max then Ok (write old (le_enc 4 (v mod two32) ++ a)) else Er EINVAL
              | _ => Er EINVAL
              end
          end
      end
  end.
Definition parse_ipv4_net (old : list N) (raw : cstr) : res (list N) :=
  if isdigit (first_char raw) then parse_net inet_pton4 32 old (truncated 32 raw) else Er EINVAL.
Definition parse_ipv6_net (pe : penv) (old : list N) (raw : cstr) : res (list N) :=
  let c := first_char raw in
  if isalpha c || isdigit c || (c =? 58) then parse_net (pe_pton6 pe) 128 old (truncated 50 raw) else Er EINVAL.

(** matcher.c:617-654 _bf_parse_tcp_flags (strdup succeeds). *)
Fixpoint flags_of (ts : list cstr) (acc : N) : res N :=
  match ts with
  | [] => Ok acc
  | t :: r => i <- from_str streq_i tcp_flag_strs t ; flags_of r (N.lor acc (2 ^ i))
  end.
Definition parse_tcp_flags (old : list N) (raw : cstr) : res (list N) :=
  match flags_of (tokens (length raw) 44 raw) 0 with
  | Ok f => Ok (write old [f])
  | Er _ => Er EINVAL
  end.

(** The ops tables of matcher.c:821-1233: which parser serves which type and
    operator (None: no ops, i.e. size 0 in the table). *)
Definition parser_of (pe : penv) (t : mtype) (o : mop) : option (list N -> cstr -> res (list N)) :=
  match t, o with
  | M_IFACE, OP_EQ => Some (parse_iface pe)
  | M_L3_PROTO, OP_EQ => Some parse_l3_proto
  | M_L4_PROTO, OP_EQ => Some parse_l4_proto
  | (M_SPORT | M_DPORT), OP_EQ => Some parse_l4_port
  | (M_SPORT | M_DPORT), OP_RANGE => Some parse_l4_port_range
  | (M_PROBABILITY | M_FLOW_PROBABILITY), OP_EQ => Some (parse_probability pe)
  | M_MARK, OP_EQ => Some parse_mark
  | M_FLOW_HASH, OP_EQ => Some parse_u32
  | M_FLOW_HASH, OP_RANGE => Some parse_u32_range
  | (M_IP4_SADDR | M_IP4_DADDR), (OP_EQ | OP_IN) => Some parse_ipv4_addr
  | (M_IP4_SNET | M_IP4_DNET), (OP_EQ | OP_IN) => Some parse_ipv4_net
  | M_IP4_PROTO, (OP_EQ | OP_IN) => Some parse_l4_proto
  | (M_IP4_DSCP | M_IP6_DSCP), OP_EQ => Some parse_dscp
  | (M_IP6_SADDR | M_IP6_DADDR), (OP_EQ | OP_IN) => Some (parse_ipv6_addr pe)
  | (M_IP6_SNET | M_IP6_DNET), (OP_EQ | OP_IN) => Some (parse_ipv6_net pe)
  | M_IP6_NEXTHDR, (OP_EQ | OP_IN) => Some parse_l4_proto
  | (M_TCP_SPORT | M_TCP_DPORT | M_UDP_SPORT | M_UDP_DPORT), (OP_EQ | OP_IN) => Some parse_l4_port
  | (M_TCP_SPORT | M_TCP_DPORT | M_UDP_SPORT | M_UDP_DPORT), OP_RANGE => Some parse_l4_port_range
  | M_TCP_FLAGS, (OP_EQ | OP_ANY | OP_ALL) => Some parse_tcp_flags
  | M_ICMP_TYPE, (OP_EQ | OP_IN) => Some parse_icmp_type
  | (M_ICMP_CODE | M_ICMPV6_CODE), (OP_EQ | OP_IN) => Some parse_icmp_code
  | M_ICMPV6_TYPE, (OP_EQ | OP_IN) => Some parse_icmpv6_type
  | _, _ => None
  end.

(** matcher.c:1309-1342 bf_matcher_new_from_raw: [heap] is what malloc returns
    ([None]: failure); its first ref_payload_size bytes become the payload. *)
Definition matcher_new_from_raw (pe : penv) (heap : option (list N)) (t : mtype) (o : mop) (raw : cstr)
    (neg : bool) : res matcher :=
  match parser_of pe t o, ops_size t o with
  | Some p, Some n =>
      match heap with
      | None => Er ENOMEM
      | Some h => pay <- p (firstn n h) raw ; Ok (mkM t o neg pay)
      end
  | _, _ => Er ENOENT
  end.
