(** C45: what the text of a matcher selects.  The text goes through
    bf_matcher_new_from_raw; [cond] is the packet-level meaning of the resulting
    matcher (PktSpec), which the generated code implements (C06-C10). *)
From Coq Require Import String NArith List Bool Arith Lia.
From Verif Require Import Bytes Types GenModel World PktSpec Wf StrModel StrSpec EnumModel ParseModel ParseSpec ParseFacts ParseFacts2 ParseFacts3.
Import ListNotations.
Local Open Scope string_scope.
Local Open Scope list_scope.
Local Open Scope N_scope.

Definition port_type (t : mtype) : Prop :=
  In t [M_TCP_SPORT; M_TCP_DPORT; M_UDP_SPORT; M_UDP_DPORT; M_SPORT; M_DPORT].

(** A decimal number is accepted as a port iff it is at most 65535, and then the
    matcher selects exactly the packets whose (network order) port is that number. *)
Theorem C45_port_partial : forall pe heap t s v neg, port_type t -> decimal s v ->
  (65535 < v -> matcher_new_from_raw pe (Some heap) t OP_EQ s neg = Er EINVAL) /\
  (v <= 65535 -> exists m, matcher_new_from_raw pe (Some heap) t OP_EQ s neg = Ok m /\ m_neg m = neg /\
    forall D vw w sets, bytes (fld vw t) -> length (fld vw t) = 2%nat ->
      (cond D vw w sets m = true <-> be_dec (fld vw t) = v)).
Proof.
  intros pe heap t s v neg Ht Hd. rewrite (new_port pe heap t s v neg Ht Hd). split; intros Hv.
  - replace (v <=? 65535) with false; auto. symmetry. now apply N.leb_gt.
  - replace (v <=? 65535) with true by (symmetry; now apply N.leb_le).
    eexists. split; [reflexivity|]. split; [reflexivity|]. intros D vw w sets Hb Hl.
    rewrite (cond_port D vw w sets t v neg Ht Hv Hb Hl). apply N.eqb_eq.
Qed.

(** "a-b" (at most 14 digits in all) is accepted iff a <= b <= 65535, and selects
    exactly the packets whose port is in between. *)
Theorem C45_port_range_partial : forall pe heap t sa a sb b neg, port_type t -> decimal sa a -> decimal sb b ->
  (length sa + length sb <= 14)%nat ->
  (~ (a <= b <= 65535) -> matcher_new_from_raw pe (Some heap) t OP_RANGE (sa ++ DASH :: sb) neg = Er EINVAL) /\
  (a <= b <= 65535 -> exists m, matcher_new_from_raw pe (Some heap) t OP_RANGE (sa ++ DASH :: sb) neg = Ok m /\
    m_neg m = neg /\
    forall D vw w sets, cond D vw w sets m = true <-> a <= be_dec (fld vw t) <= b).
Proof.
  intros pe heap t sa a sb b neg Ht Ha Hb Hl. rewrite (new_port_range pe heap t sa a sb b neg Ht Ha Hb Hl).
  destruct (N.leb_spec a b); destruct (N.leb_spec b 65535); cbn [andb]; split; intros; auto; try lia.
  eexists. split; [reflexivity|]. split; [reflexivity|]. intros.
  rewrite (cond_port_range D vw w sets t a b neg Ht), andb_true_iff, !N.leb_le. reflexivity.
Qed.

(** What else is accepted as a port: exactly the empty string (port 0) and the
    texts strtoul understands (blanks, a sign), negative ones modulo 2^64. *)
Theorem C45_port_accepts_exactly : forall old s,
  (exists p, parse_l4_port old s = Ok p) <->
  (s = [] \/ exists neg n v, signed_decimal s neg n /\ n < two64 /\
     v = (if neg then (two64 - n) mod two64 else n) /\ v <= 65535).
Proof.
  intros old s. split.
  - intros (p & H). apply parse_port_inv in H as (v & _ & Hv & [(-> & _)|(neg & n & H1 & H2 & ->)]); auto.
    right. exists neg, n. eauto 8.
  - intros [->|(neg & n & v & H1 & H2 & -> & H3)]; [eexists; reflexivity|].
    exact (parse_port_accepts old s neg n H1 H2 H3).
Qed.

Theorem C45_port_empty_refuted : forall pe heap,
  exists m, matcher_new_from_raw pe (Some heap) M_TCP_DPORT OP_EQ [] false = Ok m.
Proof. intros. eexists. reflexivity. Qed.

Theorem C45_port_negative_refuted : forall pe,
  matcher_new_from_raw pe (Some [0;0]) M_TCP_DPORT OP_EQ (lit "-18446744073709551536") false =
  matcher_new_from_raw pe (Some [0;0]) M_TCP_DPORT OP_EQ (lit "80") false.
Proof. intros. reflexivity. Qed.

(** A range text longer than 15 characters is cut without a message: the same
    digits with more leading zeros select other ports. *)
Theorem C45_range_truncated_refuted : forall pe heap, exists m,
  matcher_new_from_raw pe (Some heap) M_TCP_DPORT OP_RANGE (lit "80-00000000009999") false = Ok m /\
  firstn 4 (m_pay m) = le16 80 ++ le16 99.
Proof. intros. eexists. split; reflexivity. Qed.

(** ** Addresses and networks. *)

(** ip4.saddr/daddr accept exactly dotted-decimal addresses, and select exactly the
    packets with that address. *)
Theorem C45_ipv4_address : forall pe heap t s neg m, In t [M_IP4_SADDR; M_IP4_DADDR] ->
  (matcher_new_from_raw pe (Some heap) t OP_EQ s neg = Ok m <-> exists a, dotted s a /\ m = mkM t OP_EQ neg a) /\
  (forall a D vw w sets, cond D vw w sets (mkM t OP_EQ neg a) = true <-> fld vw t = a).
Proof.
  intros pe heap t s neg m Ht. split; [now apply new_addr4|].
  intros a D vw w sets. destruct Ht as [<-|[<-|[]]]; apply BytesFacts.bytes_eqb_eq.
Qed.

(** "address/n" with n below 2^32 is accepted iff n <= 32 and selects exactly the
    addresses that share the n leading bits. *)
Theorem C45_ipv4_network_partial : forall pe heap t s a n neg, In t [M_IP4_SNET; M_IP4_DNET] ->
  net_text dotted s a n -> n < two32 -> (length s <= 31)%nat ->
  (32 < n -> matcher_new_from_raw pe (Some heap) t OP_EQ s neg = Er EINVAL) /\
  (n <= 32 -> exists m, matcher_new_from_raw pe (Some heap) t OP_EQ s neg = Ok m /\ m_neg m = neg /\
    forall D vw w sets, length (fld vw t) = 4%nat ->
      (cond D vw w sets m = true <-> be_dec (fld vw t) / 2 ^ (32 - n) = be_dec a / 2 ^ (32 - n))).
Proof.
  intros pe heap t s a n neg Ht (sa & sn & -> & Ha & Hn) Hb Hl.
  rewrite app_length in Hl. cbn [length] in Hl.
  rewrite (new_net4 pe heap t sa a sn n neg Ht Ha Hn Hb) by lia. split; intros Hv.
  - replace (n <=? 32) with false; auto. symmetry. now apply N.leb_gt.
  - replace (n <=? 32) with true by (symmetry; now apply N.leb_le).
    eexists. split; [reflexivity|]. split; [reflexivity|]. intros D vw w sets Hf.
    rewrite (cond_net4 D vw w sets t a n neg Ht) by (auto; eapply dotted_len; eauto). apply N.eqb_eq.
Qed.

(** The prefix length wraps at 2^32: "10.0.0.0/4294967304" is 10.0.0.0/8. *)
Theorem C45_prefix_overflow_refuted : forall pe heap,
  matcher_new_from_raw pe (Some heap) M_IP4_SNET OP_EQ (lit "10.0.0.0/4294967304") false =
  matcher_new_from_raw pe (Some heap) M_IP4_SNET OP_EQ (lit "10.0.0.0/8") false.
Proof. reflexivity. Qed.

(** ** TCP flags. *)
Theorem C45_tcp_flags : forall old ns, (forall n, In n ns -> n <> [] /\ ~ In COMMA n) ->
  match parse_tcp_flags old (join COMMA ns) with
  | Ok p => (forall n, In n ns -> flag_bit n <> None) /\
            exists f, p = f :: skipn 1 old /\
              forall i, N.testbit f i = true <-> exists n, In n ns /\ flag_bit n = Some i
  | Er _ => exists n, In n ns /\ flag_bit n = None
  end.
Proof. exact parse_flags_spec. Qed.

(** ** Numbers and names: protocols, DSCP, ICMP types and codes, flow hashes. *)

(** A decimal number is accepted iff it is in range (for DSCP, 63), and selects exactly the
    packets that have that number there. *)
Theorem C45_number : forall pe heap t max s v neg, number_max t = Some max -> decimal s v ->
  (max < v -> matcher_new_from_raw pe (Some heap) t OP_EQ s neg = Er EINVAL) /\
  (v <= max -> exists m, matcher_new_from_raw pe (Some heap) t OP_EQ s neg = Ok m /\ m_type m = t /\ m_neg m = neg /\
     forall D vw w sets, (one_byte t -> length (fld vw t) = 1%nat) -> (cond D vw w sets m = true <-> number_is vw t v = true)).
Proof. exact number_decimal. Qed.
Print Assumptions C45_number.

(** A documented name, in any case, selects the packets that have the number it stands for. *)
Theorem C45_name : forall pe heap t name v s neg, In (name, v) (names_of t) -> same_letters s (lit name) ->
  exists m, matcher_new_from_raw pe (Some heap) t OP_EQ s neg = Ok m /\ m_type m = t /\ m_neg m = neg /\
     forall D vw w sets, (one_byte t -> length (fld vw t) = 1%nat) -> (cond D vw w sets m = true <-> number_is vw t v = true).
Proof. exact number_named. Qed.
Print Assumptions C45_name.

(** Whatever text is accepted, it stands for a number in range. *)
Theorem C45_number_in_range : forall pe heap t max s neg m, number_max t = Some max ->
  matcher_new_from_raw pe (Some heap) t OP_EQ s neg = Ok m ->
  exists v, v <= max /\ m_type m = t /\ m_neg m = neg /\
    forall D vw w sets, (one_byte t -> length (fld vw t) = 1%nat) -> (cond D vw w sets m = true <-> number_is vw t v = true).
Proof. exact number_accepted. Qed.
Print Assumptions C45_number_in_range.

(** "a-b" (at most 30 digits in all) is accepted as a range of flow hashes iff
    a <= b < 2^32. *)
Theorem C45_flow_hash_range_partial : forall pe heap sa a sb b neg, decimal sa a -> decimal sb b ->
  (length sa + length sb <= 30)%nat ->
  (~ (a <= b < two32) -> matcher_new_from_raw pe (Some heap) M_FLOW_HASH OP_RANGE (sa ++ DASH :: sb) neg = Er EINVAL) /\
  (a <= b < two32 -> exists m, matcher_new_from_raw pe (Some heap) M_FLOW_HASH OP_RANGE (sa ++ DASH :: sb) neg = Ok m /\
    m_neg m = neg /\ forall D vw w sets, cond D vw w sets m = true <-> a <= v_hash vw <= b).
Proof.
  intros pe heap sa a sb b neg Ha Hb Hl. rewrite (new_u32_range pe heap sa a sb b neg Ha Hb Hl).
  destruct (N.leb_spec a b); destruct (N.ltb_spec b two32); cbn [andb]; split; intros; auto; try lia.
  eexists. split; [reflexivity|]. split; [reflexivity|]. intros.
  rewrite (cond_u32_range D vw w sets a b neg) by lia. rewrite andb_true_iff, !N.leb_le. reflexivity.
Qed.
Print Assumptions C45_flow_hash_range_partial.

(** A mark written in decimal (no leading zero: "010" is octal) is accepted iff it is below
    2^32; a negative number is refused. *)
Theorem C45_mark_partial : forall pe heap s v neg, decimal s v -> (forall r, s = 48 :: r -> r = []) ->
  (two32 <= v -> matcher_new_from_raw pe (Some heap) M_MARK OP_EQ s neg = Er EINVAL) /\
  (0 < v -> matcher_new_from_raw pe (Some heap) M_MARK OP_EQ (DASH :: s) neg = Er EINVAL) /\
  (v < two32 -> exists m, matcher_new_from_raw pe (Some heap) M_MARK OP_EQ s neg = Ok m /\ m_neg m = neg /\
    forall D vw w sets, cond D vw w sets m = true <-> w_mark w = v).
Proof.
  intros pe heap s v neg Hd Hz. destruct (new_mark pe heap s v neg Hd Hz) as [A B]. rewrite A. split; [|split; [exact B|]]; intros Hv.
  - replace (v <? two32) with false by (symmetry; now apply N.ltb_ge). reflexivity.
  - replace (v <? two32) with true by (symmetry; now apply N.ltb_lt). eexists. split; [reflexivity|]. split; [reflexivity|].
    intros D vw w sets. unfold cond. cbn [m_type m_op m_pay]. rewrite le_enc4_dec by exact Hv. apply N.eqb_eq.
Qed.
Print Assumptions C45_mark_partial.

(** The name of an interface selects its index; any other decimal number is taken as an
    index, 0 is refused. *)
Theorem C45_iface : forall pe heap s neg,
  (forall i, pe_ifindex pe s = i -> 0 < i < two31 -> exists m, matcher_new_from_raw pe (Some heap) M_IFACE OP_EQ s neg = Ok m /\
     m_neg m = neg /\ forall vw w sets, cond Documented vw w sets m = true <-> v_if vw = i) /\
  (forall v, pe_ifindex pe s = 0 -> decimal s v ->
     (v = 0 \/ two32 <= v -> matcher_new_from_raw pe (Some heap) M_IFACE OP_EQ s neg = Er EINVAL) /\
     (0 < v < two32 -> exists m, matcher_new_from_raw pe (Some heap) M_IFACE OP_EQ s neg = Ok m /\
        m_neg m = neg /\ forall vw w sets, cond Documented vw w sets m = true <-> v_if vw = v)).
Proof.
  intros pe heap s neg. split.
  - intros i Hi Hr. rewrite (new_iface_name pe heap s i neg Hi Hr). eexists. split; [reflexivity|]. split; [reflexivity|].
    intros vw w sets. unfold cond. cbn [m_type m_op m_pay iface_seen]. rewrite le_enc4_dec by (unfold two31, two32 in *; lia). apply N.eqb_eq.
  - intros v Hz Hd. rewrite (new_iface_number pe heap s v neg Hz Hd). split; intros Hv.
    + replace ((0 <? v) && (v <? two32)) with false; [reflexivity|]. symmetry. apply andb_false_iff. rewrite !N.ltb_ge. lia.
    + replace ((0 <? v) && (v <? two32)) with true by (symmetry; apply andb_true_iff; rewrite !N.ltb_lt; lia).
      eexists. split; [reflexivity|]. split; [reflexivity|]. intros vw w sets. unfold cond. cbn [m_type m_op m_pay iface_seen].
      rewrite le_enc4_dec by lia. apply N.eqb_eq.
Qed.
Print Assumptions C45_iface.

(** "address/n" with an IPv6 address that inet_pton understands. *)
Theorem C45_ipv6_network_partial : forall pe heap t s a n neg, In t [M_IP6_SNET; M_IP6_DNET] ->
  net_text (fun x y => pe_pton6 pe x = Some y /\ length y = 16%nat /\ ~ In SLASH x /\
                       exists c r, x = c :: r /\ (isalpha c || isdigit c || (c =? 58)) = true) s a n ->
  n < two32 -> (length s <= 49)%nat ->
  (128 < n -> matcher_new_from_raw pe (Some heap) t OP_EQ s neg = Er EINVAL) /\
  (n <= 128 -> exists m, matcher_new_from_raw pe (Some heap) t OP_EQ s neg = Ok m /\ m_neg m = neg /\
    forall D vw w sets, length (fld vw t) = 16%nat ->
      (cond D vw w sets m = true <-> be_dec (fld vw t) / 2 ^ (128 - n) = be_dec a / 2 ^ (128 - n))).
Proof.
  intros pe heap t s a n neg Ht (sa & sn & -> & (Ha & La & Hs & Hc) & Hn) Hb Hl.
  rewrite app_length in Hl. cbn [length] in Hl.
  rewrite (new_net6 pe heap t sa a sn n neg Ht Ha La Hc Hs Hn Hb) by lia. split; intros Hv.
  - replace (n <=? 128) with false; auto. symmetry. now apply N.leb_gt.
  - replace (n <=? 128) with true by (symmetry; now apply N.leb_le).
    eexists. split; [reflexivity|]. split; [reflexivity|]. intros D vw w sets Hf.
    rewrite (cond_net6 D vw w sets t a n neg _ Ht La Hv Hf). apply N.eqb_eq.
Qed.
Print Assumptions C45_ipv6_network_partial.

Definition ex_pe6 : penv :=
  mkPE (fun s => if streq s (lit "eth0") then 2 else 0)
       (fun s => if streq s (lit "2001:db8::") then Some [32;1;13;184;0;0;0;0;0;0;0;0;0;0;0;0] else None) (fun _ => None).
Example C45_numbers_ex :
  number_max M_IP4_DSCP = Some 63 /\ decimal (lit "46") 46 /\
  matcher_new_from_raw ex_pe6 (Some [9]) M_IP4_DSCP OP_EQ (lit "46") false = Ok (mkM M_IP4_DSCP OP_EQ false [46]) /\
  In ("ef"%string, 46) (names_of M_IP4_DSCP) /\ same_letters (lit "Ef") (lit "ef") /\
  matcher_new_from_raw ex_pe6 (Some [9]) M_IP4_DSCP OP_EQ (lit "64") false = Er EINVAL /\
  matcher_new_from_raw ex_pe6 (Some [9;9;9;9]) M_MARK OP_EQ (lit "4294967295") false = Ok (mkM M_MARK OP_EQ false [255;255;255;255]) /\
  matcher_new_from_raw ex_pe6 (Some [9;9;9;9]) M_IFACE OP_EQ (lit "eth0") false = Ok (mkM M_IFACE OP_EQ false [2;0;0;0]) /\
  net_text (fun x y => pe_pton6 ex_pe6 x = Some y /\ length y = 16%nat /\ ~ In SLASH x /\
                       exists c r, x = c :: r /\ (isalpha c || isdigit c || (c =? 58)) = true)
    (lit "2001:db8::/32") [32;1;13;184;0;0;0;0;0;0;0;0;0;0;0;0] 32.
Proof.
  assert (Hd : forall x, forallb isdigit x = true -> forall c, In c x -> 48 <= c <= 57).
  { intros x H c Hc. rewrite forallb_forall in H. apply isdigit_iff. auto. }
  split; [reflexivity|]. split; [split; [discriminate|]; split; [apply Hd; reflexivity|reflexivity]|].
  split; [reflexivity|]. split; [cbn; tauto|]. split; [reflexivity|]. split; [reflexivity|]. split; [reflexivity|]. split; [reflexivity|].
  exists (lit "2001:db8::"), (lit "32"). split; [reflexivity|]. split.
  - split; [reflexivity|]. split; [reflexivity|]. split; [vm_compute; intuition discriminate|]. eexists. eexists. split; [reflexivity|reflexivity].
  - split; [discriminate|]; split; [apply Hd; reflexivity|reflexivity].
Qed.

(** ** Every matcher built from text, of any type and operator but "in", is
    well-formed: the packet-level properties (C01-C12) apply to it. *)
Theorem C45_parsed_matchers_are_well_formed : forall pe heap t o s neg m,
  penv_ok pe -> bytes heap -> (24 <= length heap)%nat -> o <> OP_IN ->
  matcher_new_from_raw pe (Some heap) t o s neg = Ok m ->
  wf_matcher m /\ m_type m = t /\ m_op m = o /\ m_neg m = neg.
Proof. exact new_from_raw_wf. Qed.

Definition ex_pe : penv := mkPE (fun _ => 0) (fun _ => None) (fun _ => None).
Example C45_ex :
  decimal (lit "443") 443 /\ port_type M_TCP_DPORT /\
  matcher_new_from_raw ex_pe (Some [9;9]) M_TCP_DPORT OP_EQ (lit "443") true = Ok (mkM M_TCP_DPORT OP_EQ true [1;187]) /\
  net_text dotted (lit "10.1.0.0/16") [10;1;0;0] 16 /\
  parse_tcp_flags [7] (join COMMA [lit "SYN"; lit "ack"]) = Ok [18] /\ penv_ok ex_pe.
Proof.
  assert (Hd : forall x, forallb isdigit x = true -> forall c, In c x -> 48 <= c <= 57).
  { intros x H c Hc. rewrite forallb_forall in H. apply isdigit_iff. auto. }
  assert (Ho : forall x v, forallb isdigit x = true -> x <> [] -> dec_value x = v -> v <= 255 -> (forall r, x = 48 :: r -> r = []) -> octet x v).
  { intros x v H1 H2 H3 H4 H5. split; [|auto]. split; [auto|]. split; [exact (Hd x H1)|now symmetry]. }
  split; [split; [discriminate|]; split; [apply Hd; reflexivity|reflexivity]|]. split; [right; left; reflexivity|].
  split; [reflexivity|]. split.
  - exists (lit "10.1.0.0"), (lit "16"). split; [reflexivity|]. split.
    + exists (lit "10"), (lit "1"), (lit "0"), (lit "0"), 10, 1, 0, 0. split; [reflexivity|]. split; [reflexivity|].
      split; [apply Ho; try reflexivity; try discriminate; lia|]. split; [apply Ho; try reflexivity; try discriminate; lia|].
      split; apply Ho; try reflexivity; try discriminate; try lia; intros r E; now injection E as <-.
    + split; [discriminate|]. split; [apply Hd; reflexivity|reflexivity].
  - split; [reflexivity|]. split; intros; discriminate.
Qed.

Print Assumptions C45_port_partial.
Print Assumptions C45_port_range_partial.
Print Assumptions C45_port_accepts_exactly.
Print Assumptions C45_ipv4_address.
Print Assumptions C45_ipv4_network_partial.
Print Assumptions C45_tcp_flags.
Print Assumptions C45_parsed_matchers_are_well_formed.
Print Assumptions C45_port_empty_refuted.
Print Assumptions C45_port_negative_refuted.
Print Assumptions C45_range_truncated_refuted.
Print Assumptions C45_prefix_overflow_refuted.
