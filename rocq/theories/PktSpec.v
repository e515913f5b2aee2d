(** What a chain is supposed to do with a packet, in terms of the packet's headers.
    This file does not depend on the code generator nor on the machine model. *)
From Coq Require Import NArith ZArith List Bool.
From Verif Require Import Bytes Types World.
Import ListNotations.
Local Open Scope N_scope.

(** What is known about a packet, or about the socket operation (connect, sendmsg)
    that stands for one on the cgroup socket hooks: it has a destination, possibly a
    source, and no length nor interface. *)
Record view := mkV {
  v_l3 : N;            (** 0x0800 for IPv4, 0x86DD for IPv6, 0 for anything else *)
  v_l4 : N;            (** 6 TCP, 17 UDP, 1 ICMP, 58 ICMPv6, 0 for anything else *)
  v_h3 : list N;       (** bytes of the network header *)
  v_h4 : list N;       (** bytes of the transport header *)
  v_eh : N -> bool;    (** is an IPv6 extension header of this type present? *)
  v_if : N;            (** interface index *)
  v_len : N;           (** packet length *)
  v_hash : N;          (** the kernel's flow hash *)
  v_fhash : N;         (** bpfilter's flow hash *)
  v_sock : option sockinfo  (** the socket operation, if it is not a packet *)
}.

(** Does the packet carry the protocol a matcher type talks about? *)
Definition has_ip4 (v : view) : bool := v_l3 v =? 0x0800.
Definition has_ip6 (v : view) : bool := v_l3 v =? 0x86DD.
Definition has_tcp (v : view) : bool := v_l4 v =? 6.
Definition has_udp (v : view) : bool := v_l4 v =? 17.
Definition has_icmp (v : view) : bool := v_l4 v =? 1.
Definition has_icmp6 (v : view) : bool := v_l4 v =? 58.

Definition present (v : view) (t : mtype) : bool :=
  match t with
  | M_IP4_SADDR | M_IP4_SNET | M_IP4_DADDR | M_IP4_DNET | M_IP4_PROTO | M_IP4_DSCP => has_ip4 v
  | M_IP6_SADDR | M_IP6_SNET | M_IP6_DADDR | M_IP6_DNET | M_IP6_NEXTHDR | M_IP6_DSCP => has_ip6 v
  | M_TCP_SPORT | M_TCP_DPORT | M_TCP_FLAGS => has_tcp v
  | M_UDP_SPORT | M_UDP_DPORT => has_udp v
  | M_ICMP_TYPE | M_ICMP_CODE => has_icmp v
  | M_ICMPV6_TYPE | M_ICMPV6_CODE => has_icmp6 v
  | M_SPORT | M_DPORT => has_tcp v || has_udp v
  | M_FLOW_PROBABILITY => (has_ip4 v || has_ip6 v) && (has_tcp v || has_udp v)
  | _ => true
  end.

(** The header field a matcher type reads (RFC 791, 8200, 793, 768, 792, 4443). *)
Definition fld (v : view) (t : mtype) : list N :=
  match t with
  | M_IP4_SADDR | M_IP4_SNET => sub (v_h3 v) 12 4
  | M_IP4_DADDR | M_IP4_DNET => sub (v_h3 v) 16 4
  | M_IP4_PROTO => sub (v_h3 v) 9 1
  | M_IP6_SADDR | M_IP6_SNET => sub (v_h3 v) 8 16
  | M_IP6_DADDR | M_IP6_DNET => sub (v_h3 v) 24 16
  | M_IP6_NEXTHDR => sub (v_h3 v) 6 1
  | M_TCP_SPORT | M_UDP_SPORT | M_SPORT => sub (v_h4 v) 0 2
  | M_TCP_DPORT | M_UDP_DPORT | M_DPORT => sub (v_h4 v) 2 2
  | M_TCP_FLAGS => sub (v_h4 v) 13 1
  | M_ICMP_TYPE | M_ICMPV6_TYPE => sub (v_h4 v) 0 1
  | M_ICMP_CODE | M_ICMPV6_CODE => sub (v_h4 v) 1 1
  | _ => []
  end.

(** [addr] belongs to [net]/[plen]: as big-endian numbers of the same length, they
    have the same [plen] leading bits. *)
Definition in_net (plen : N) (net addr : list N) : bool :=
  let low := 8 * N.of_nat (length net) - plen in
  be_dec addr / 2 ^ low =? be_dec net / 2 ^ low.

Definition in_range (x lo hi : N) : bool := (lo <=? x) && (x <=? hi).

(** Extension header types (RFC 8200 section 4, plus mobility 135). *)
Definition is_ext_header (p : N) : bool :=
  existsb (N.eqb p) [0; 43; 44; 51; 60; 135].

(** Set membership: concatenation of the component fields, compared with the
    elements (or, for a set of networks, contained in one of them). *)
Definition set_key (v : view) (key : list mtype) : list N := concat (map (fld v) key).

Definition in_set (v : view) (s : bset) : bool :=
  if s_trie s then
    existsb (fun e => in_net (le_dec (firstn 4 e))
                        (firstn (length (set_key v (s_key s))) (skipn 4 e))
                        (set_key v (s_key s))) (s_elems s)
  else existsb (bytes_eqb (set_key v (s_key s))) (s_elems s).

(** Two readings of a chain.  [Documented] is what the documentation says;
    [Generated] differs from it in exactly four places, where the generated code is
    known to deviate (findings F2, F3, F8, F45 of DESIGN.md): meta.iface sees only the
    low 16 bits of the interface index, meta.probability accepts every draw above 50%,
    meta.sport and meta.dport refuse port 0 even when negated, and on the socket hooks
    meta.dport is evaluated whatever the transport protocol. *)
Inductive dialect := Documented | Generated.

Definition iface_seen (D : dialect) (x : N) : N :=
  match D with Documented => x | Generated => x mod 65536 end.

Definition draw_ok (D : dialect) (x t : N) : bool :=
  match D with Documented => x <=? t | Generated => (two31 <=? t) || (x <=? t) end.

(** Can a matcher of type [t] be evaluated on the packet at all? *)
Definition applies (D : dialect) (v : view) (t : mtype) : bool :=
  match D, t with
  | Generated, (M_SPORT | M_DPORT) =>
      match v_sock v with
      | None => present v t && negb (be_dec (fld v t) =? 0)
      | Some _ => true
      end
  | _, _ => present v t
  end.

(** The positive condition of a matcher that needs no random draw. *)
Definition cond (D : dialect) (v : view) (w : world) (sets : list bset) (m : matcher) : bool :=
  let pay := m_pay m in
  match m_type m, m_op m with
  | M_IFACE, OP_EQ => iface_seen D (v_if v) =? le_dec pay
  | M_L3_PROTO, OP_EQ => v_l3 v =? le_dec pay
  | M_L4_PROTO, OP_EQ => v_l4 v =? byte_at pay 0
  | M_MARK, OP_EQ => w_mark w =? le_dec pay
  | M_FLOW_HASH, OP_EQ => v_hash v =? le_dec pay
  | M_FLOW_HASH, OP_RANGE => in_range (v_hash v) (le_dec (sub pay 0 4)) (le_dec (sub pay 4 4))
  | (M_IP4_SADDR | M_IP4_DADDR | M_IP4_PROTO | M_IP6_SADDR | M_IP6_DADDR
    | M_ICMP_TYPE | M_ICMP_CODE | M_ICMPV6_TYPE | M_ICMPV6_CODE), OP_EQ
  | (M_TCP_SPORT | M_TCP_DPORT | M_UDP_SPORT | M_UDP_DPORT | M_SPORT | M_DPORT
    | M_TCP_FLAGS), OP_EQ => bytes_eqb (fld v (m_type m)) pay
  | (M_TCP_SPORT | M_TCP_DPORT | M_UDP_SPORT | M_UDP_DPORT | M_SPORT | M_DPORT), OP_RANGE =>
      in_range (be_dec (fld v (m_type m))) (le_dec (sub pay 0 2)) (le_dec (sub pay 2 2))
  | M_TCP_FLAGS, OP_ANY => negb (N.land (le_dec (fld v M_TCP_FLAGS)) (le_dec pay) =? 0)
  | M_TCP_FLAGS, OP_ALL => N.land (le_dec (fld v M_TCP_FLAGS)) (le_dec pay) =? le_dec pay
  | (M_IP4_SNET | M_IP4_DNET | M_IP6_SNET | M_IP6_DNET), OP_EQ =>
      in_net (le_dec (firstn 4 pay))
        (firstn (length (fld v (m_type m))) (skipn 4 pay)) (fld v (m_type m))
  | M_IP4_DSCP, OP_EQ => byte_at (v_h3 v) 1 / 4 =? le_dec pay
  | M_IP6_DSCP, OP_EQ => (be_dec (sub (v_h3 v) 0 2) / 64) mod 64 =? le_dec pay
  | M_IP6_NEXTHDR, OP_EQ =>
      if is_ext_header (le_dec pay) then v_eh v (le_dec pay) else v_l4 v =? le_dec pay
  | M_SET, OP_IN => match set_of sets m with Some s => in_set v s | None => false end
  | _, _ => false
  end.

(** [thr] gives the largest random number accepted for a probability. *)
Section Eval.
  Variable D : dialect.
  Variable thr : list N -> option N.
  Variable or : oracle.
  Variable sets : list bset.

  Definition below (le : N -> N -> bool) (x : N) (pay : list N) : bool :=
    match thr pay with Some t => le x t | None => false end.

  (** Does one matcher accept the packet?  A probability draws a random number. *)
  Definition match1 (v : view) (m : matcher) (w : world) : bool * world :=
    match m_type m with
    | M_PROBABILITY => (xorb (m_neg m) (below (draw_ok D) (o_rand or (w_draws w)) (m_pay m)), w_drew w)
    | M_FLOW_PROBABILITY => (xorb (m_neg m) (below N.leb (v_fhash v) (m_pay m)), w)
    | _ => (xorb (m_neg m) (cond D v w sets m), w)
    end.

  (** The types whose protocol must be present for a matcher to make sense. *)
  Definition types_of (m : matcher) : list mtype :=
    match m_type m with
    | M_SET => match set_of sets m with Some s => s_key s | None => [] end
    | t => [t]
    end.

  (** Protocols checked up front.  meta.sport, meta.dport and
      meta.flow_probability check theirs when they are evaluated. *)
  Definition late (t : mtype) : bool :=
    match t with M_SPORT | M_DPORT | M_FLOW_PROBABILITY => true | _ => false end.

  Definition guards (v : view) (ms : list matcher) : bool :=
    forallb (fun m => forallb (fun t => late t || present v t) (types_of m)) ms.

  (** All matchers, from left to right, stopping at the first refusal. *)
  Fixpoint match_all (v : view) (ms : list matcher) (w : world) : bool * world :=
    match ms with
    | [] => (true, w)
    | m :: r =>
        if applies D v (m_type m) then
          let '(b, w') := match1 v m w in
          if b then match_all v r w' else (false, w')
        else (false, w)
    end.

  (** A rule matches when every protocol its matchers talk about is present and
      every matcher accepts. *)
  Definition rule_matches (v : view) (r : rule) (w : world) : bool * world :=
    if guards v (r_matchers r) then match_all v (r_matchers r) w else (false, w).

  (** One log entry is published, unless the ring buffer is full. *)
  Definition log_packet (v : view) (r : rule) (w : world) : world :=
    if o_ring or (w_rings w) then
      w_publish (w_clocked (w_ringed w))
        (mkLog (o_clock or (w_clks w)) (r_index r) (verdict_id (r_verdict r))
           (v_l3 v) (v_l4 v) (v_len v)
           (match v_sock v with None => r_log r mod 16 | Some _ => 0 end) (v_sock v))
    else w_ringed w.

  (** Nanoseconds since this rule last logged (64-bit clock). *)
  Definition since (now last : N) : N := (now + (two64 - last mod two64)) mod two64.

  Definition do_log (v : view) (r : rule) (w : world) : world :=
    if r_log r =? 0 then w
    else if r_log_rate r =? 0 then log_packet v r w
    else
      let now := o_clock or (w_clks w) in
      let w' := w_clocked w in
      if since now (w_ts w (r_index r)) <? r_log_rate r then w'
      else log_packet v r (w_stamp w' (r_index r) now).

  (** Side effects of a matching rule, in order: mark, log, counter. *)
  Definition effects (v : view) (r : rule) (w : world) : world :=
    let w := if mark_is_set r then w_set_mark w (mark_get r) else w in
    let w := do_log v r w in
    if r_counters r then w_count w (r_index r) (v_len v) else w.

  Inductive decision := DVerdict (v : verdict) | DRedirect (ifindex : N) (d : rdir).

  Definition decision_of (r : rule) : option decision :=
    match r_verdict r with
    | V_CONTINUE => None
    | V_REDIRECT => Some (DRedirect (r_rd_ifindex r) (r_rd_dir r))
    | v => Some (DVerdict v)
    end.

  (** First-match evaluation: the first matching rule whose verdict is not
      CONTINUE decides; if none does, the policy, and the policy counter. *)
  Fixpoint eval_rules (v : view) (rs : list rule) (w : world) : option decision * world :=
    match rs with
    | [] => (None, w)
    | r :: rest =>
        if r_disabled r then eval_rules v rest w
        else
          let '(b, w1) := rule_matches v r w in
          if b then
            let w2 := effects v r w1 in
            match decision_of r with
            | Some d => (Some d, w2)
            | None => eval_rules v rest w2
            end
          else eval_rules v rest w1
    end.

  Definition eval_chain (v : view) (policy : verdict) (rs : list rule) (w : world)
    : decision * world :=
    match eval_rules v rs w with
    | (Some d, w') => (d, w')
    | (None, w') => (DVerdict policy, w_count w' (N.of_nat (length rs)) (v_len v))
    end.
End Eval.

(** The kernel's return codes (include/uapi/linux: bpf.h XDP_PASS=2 XDP_DROP=1,
    TCX_PASS=0 TCX_DROP=2 TCX_NEXT=-1, netfilter.h NF_ACCEPT=1 NF_DROP=0,
    cgroup programs 1 = allow, 0 = reject), as 64-bit register values. *)
Definition kernel_code (f : flavor) (v : verdict) : option N :=
  match v with
  | V_ACCEPT => Some match f with F_XDP => 2 | F_TC => 0 | _ => 1 end
  | V_DROP => Some match f with F_XDP => 1 | F_TC => 2 | _ => 0 end
  | V_NEXT => Some match f with F_XDP => 2 | F_TC => two64 - 1 | _ => 1 end
  | V_CONTINUE | V_REDIRECT => None
  end.

(** What the kernel sees for a decision: the return code and the redirection. *)
Definition finish (f : flavor) (or : oracle) (d : decision) (w : world) : option (N * world) :=
  match d with
  | DVerdict v => match kernel_code f v with Some k => Some (k, w) | None => None end
  | DRedirect i dir =>
      let fl := match f, dir with F_TC, D_INGRESS => 1 | _, _ => 0 end in
      Some (o_redir or i fl, w_redirect w i fl)
  end.
