(** What the text of a matcher means, independently of the parsers. *)
From Coq Require Import String NArith List Bool Arith.
From Verif Require Import Bytes Types World PktSpec StrModel.
Import ListNotations.
Local Open Scope string_scope.
Local Open Scope list_scope.
Local Open Scope N_scope.

(** [decimal s v]: [s] is a non-empty run of decimal digits and [v] its value. *)
Definition dec_value (s : cstr) : N := fold_left (fun a c => a * 10 + (c - 48)) s 0.
Definition decimal (s : cstr) (v : N) : Prop :=
  s <> [] /\ (forall c, In c s -> 48 <= c <= 57) /\ v = dec_value s.

(** An octet of a dotted-decimal address: no leading zero, at most 255. *)
Definition octet (s : cstr) (v : N) : Prop :=
  decimal s v /\ v <= 255 /\ (forall r, s = 48 :: r -> r = []).
Definition DOT := 46. Definition DASH := 45. Definition SLASH := 47. Definition COMMA := 44.
Definition dotted (s : cstr) (a : list N) : Prop :=
  exists s1 s2 s3 s4 v1 v2 v3 v4,
    s = s1 ++ DOT :: s2 ++ DOT :: s3 ++ DOT :: s4 /\ a = [v1; v2; v3; v4] /\
    octet s1 v1 /\ octet s2 v2 /\ octet s3 v3 /\ octet s4 v4.

(** The big-endian (network order) and little-endian (host order) storage of a
    16-bit value. *)
Definition be16 (v : N) : list N := [v / 256; v mod 256].
Definition le16 (v : N) : list N := [v mod 256; v / 256].

(** What strtoul(3) accepts in base 10: blanks, a sign, digits. *)
Definition blanks (s : cstr) : Prop := forall c, In c s -> c = 32 \/ 9 <= c <= 13.
Definition signed_decimal (s : cstr) (neg : bool) (v : N) : Prop :=
  exists b sg ds, s = b ++ sg ++ ds /\ blanks b /\ decimal ds v /\
    (sg = [] /\ neg = false \/ sg = [43] /\ neg = false \/ sg = [45] /\ neg = true).

(** A network "address/length", and its stored form: the length as a 32-bit
    little-endian number, then the address. *)
Definition net_text (addr : cstr -> list N -> Prop) (s : cstr) (a : list N) (n : N) : Prop :=
  exists sa sn, s = sa ++ SLASH :: sn /\ addr sa a /\ decimal sn n.

(** A comma-separated list of TCP flag names, in any mix of cases: [f] has exactly
    the bits of the names listed (RFC 9293: FIN is bit 0, ..., CWR bit 7). *)
Definition flag_bit (name : cstr) : option N :=
  let l := map tolower name in
  if streq l (lit "fin") then Some 0 else if streq l (lit "syn") then Some 1
  else if streq l (lit "rst") then Some 2 else if streq l (lit "psh") then Some 3
  else if streq l (lit "ack") then Some 4 else if streq l (lit "urg") then Some 5
  else if streq l (lit "ece") then Some 6 else if streq l (lit "cwr") then Some 7 else None.

Fixpoint join (c : N) (l : list cstr) : cstr :=
  match l with [] => [] | [x] => x | x :: r => x ++ c :: join c r end.

(** ** Numbers and their names. *)

(** The matchers that take a number or a name, with the largest number allowed. *)
Definition number_max (t : mtype) : option N :=
  match t with
  | M_FLOW_HASH => Some 4294967295
  | M_L3_PROTO => Some 65535
  | M_L4_PROTO | M_IP4_PROTO | M_IP6_NEXTHDR | M_ICMP_TYPE | M_ICMP_CODE | M_ICMPV6_TYPE | M_ICMPV6_CODE => Some 255
  | M_IP4_DSCP | M_IP6_DSCP => Some 63
  | _ => None
  end.

(** Protocol numbers (IANA), DSCP values (RFC 2474, 2597, 3246, 5865, 8622), ICMP and
    ICMPv6 message types (RFC 792, 4443, 4861, 2710, 3810). *)
Definition names_of (t : mtype) : list (string * N) :=
  match t with
  | M_L3_PROTO => [("ipv4", 0x0800); ("ipv6", 0x86DD)]
  | M_L4_PROTO | M_IP4_PROTO | M_IP6_NEXTHDR =>
      [("hop", 0); ("icmp", 1); ("igmp", 2); ("tcp", 6); ("udp", 17); ("routing", 43); ("frag", 44); ("gre", 47); ("ah", 51);
       ("icmpv6", 58); ("dst", 60); ("mh", 135)]
  | M_IP4_DSCP | M_IP6_DSCP =>
      [("be", 0); ("cs0", 0); ("cs1", 8); ("cs2", 16); ("cs3", 24); ("cs4", 32); ("cs5", 40); ("cs6", 48); ("cs7", 56);
       ("af11", 10); ("af12", 12); ("af13", 14); ("af21", 18); ("af22", 20); ("af23", 22); ("af31", 26); ("af32", 28);
       ("af33", 30); ("af41", 34); ("af42", 36); ("af43", 38); ("ef", 46); ("voice-admit", 44); ("le", 1); ("nqb", 45)]
  | M_ICMP_TYPE =>
      [("echo-reply", 0); ("destination-unreachable", 3); ("source-quench", 4); ("redirect", 5); ("echo-request", 8);
       ("router-advertisement", 9); ("router-solicitation", 10); ("time-exceeded", 11); ("parameter-problem", 12);
       ("timestamp-request", 13); ("timestamp-reply", 14); ("info-request", 15); ("info-reply", 16);
       ("address-mask-request", 17); ("address-mask-reply", 18)]
  | M_ICMPV6_TYPE =>
      [("destination-unreachable", 1); ("packet-too-big", 2); ("time-exceeded", 3); ("parameter-problem", 4);
       ("echo-request", 128); ("echo-reply", 129); ("mld-listener-query", 130); ("mld-listener-report", 131);
       ("mld-listener-reduction", 132); ("nd-router-solicit", 133); ("nd-router-advert", 134); ("nd-neighbor-solicit", 135);
       ("nd-neighbor-advert", 136); ("mld2-listener-report", 143)]
  | _ => []
  end.

(** Does the packet have number [n] where a matcher of type [t] looks? *)
Definition number_is (vw : view) (t : mtype) (n : N) : bool :=
  match t with
  | M_FLOW_HASH => v_hash vw =? n
  | M_L3_PROTO => v_l3 vw =? n
  | M_L4_PROTO => v_l4 vw =? n
  | M_IP4_DSCP => byte_at (v_h3 vw) 1 / 4 =? n
  | M_IP6_DSCP => (be_dec (sub (v_h3 vw) 0 2) / 64) mod 64 =? n
  | M_IP6_NEXTHDR => if existsb (N.eqb n) [0; 43; 44; 51; 60; 135] then v_eh vw n else v_l4 vw =? n
  | _ => be_dec (fld vw t) =? n
  end.

(** The one-byte fields among them. *)
Definition one_byte (t : mtype) : Prop := In t [M_IP4_PROTO; M_ICMP_TYPE; M_ICMP_CODE; M_ICMPV6_TYPE; M_ICMPV6_CODE].
