From Coq Require Import NArith ZArith List Bool Arith Lia.
From Verif Require Import Bytes Types GenModel World PktSpec BytesFacts Wf StrModel EnumModel EnumFacts ParseModel ParseSpec ParseFacts.
Import ListNotations.
Local Open Scope N_scope.
Local Open Scope res_scope.

Definition is_port (t : mtype) : Prop :=
  In t [M_TCP_SPORT; M_TCP_DPORT; M_UDP_SPORT; M_UDP_DPORT; M_SPORT; M_DPORT].

Lemma heap2 (h : list N) : (2 <= length h)%nat -> skipn 2 (firstn 2 h) = [].
Proof. intros. apply skipn_all2. rewrite firstn_length. lia. Qed.
Lemma heap_skip n (h : list N) : skipn n (firstn n h) = [].
Proof. apply skipn_all2. rewrite firstn_length. lia. Qed.

Lemma new_port pe h t s v neg : is_port t -> decimal s v ->
  matcher_new_from_raw pe (Some h) t OP_EQ s neg =
    if v <=? 65535 then Ok (mkM t OP_EQ neg (be16 v)) else Er EINVAL.
Proof.
  intros Ht Hd. unfold is_port in Ht. cbn [In] in Ht.
  decompose [or] Ht; subst; try contradiction; cbn [matcher_new_from_raw parser_of ops_size];
    rewrite (parse_port_decimal _ _ _ Hd), heap_skip; destruct (v <=? 65535); cbn [bind]; now rewrite ?app_nil_r.
Qed.

Lemma cond_port D vw w sets t v neg : is_port t -> v <= 65535 ->
  bytes (fld vw t) -> length (fld vw t) = 2%nat ->
  cond D vw w sets (mkM t OP_EQ neg (be16 v)) = (be_dec (fld vw t) =? v).
Proof.
  intros Ht Hv Hb Hl. pose proof (be16_inj (fld vw t) v Hl Hb Hv) as E.
  assert (cond D vw w sets (mkM t OP_EQ neg (be16 v)) = bytes_eqb (fld vw t) (be16 v)) as ->.
  { unfold is_port in Ht. cbn [In] in Ht. decompose [or] Ht; subst; try contradiction; reflexivity. }
  apply eq_true_iff_eq. rewrite E, N.eqb_eq. reflexivity.
Qed.

Lemma new_port_range pe h t sa a sb b neg : is_port t -> decimal sa a -> decimal sb b ->
  (length sa + length sb <= 14)%nat ->
  matcher_new_from_raw pe (Some h) t OP_RANGE (sa ++ DASH :: sb) neg =
    if (a <=? b) && (b <=? 65535) then Ok (mkM t OP_RANGE neg (le16 a ++ le16 b)) else Er EINVAL.
Proof.
  intros Ht Ha Hb Hl. unfold is_port in Ht. cbn [In] in Ht.
  decompose [or] Ht; subst; try contradiction; cbn [matcher_new_from_raw parser_of ops_size];
    rewrite (parse_port_range_decimal _ _ _ _ _ Ha Hb Hl), heap_skip; destruct ((a <=? b) && (b <=? 65535)); cbn [bind]; now rewrite ?app_nil_r.
Qed.

Lemma cond_port_range D vw w sets t a b neg : is_port t ->
  cond D vw w sets (mkM t OP_RANGE neg (le16 a ++ le16 b)) = ((a <=? be_dec (fld vw t)) && (be_dec (fld vw t) <=? b)).
Proof.
  intros Ht.
  assert (cond D vw w sets (mkM t OP_RANGE neg (le16 a ++ le16 b)) = in_range (be_dec (fld vw t)) (le_dec (le16 a)) (le_dec (le16 b))) as ->.
  { unfold is_port in Ht. cbn [In] in Ht. decompose [or] Ht; subst; try contradiction; reflexivity. }
  now rewrite !le16_dec.
Qed.

(** ** Addresses. *)
Lemma dotted_len s a : dotted s a -> length a = 4%nat /\ bytes a.
Proof.
  intros (s1 & s2 & s3 & s4 & v1 & v2 & v3 & v4 & _ & -> & O1 & O2 & O3 & O4). split; auto.
  destruct O1 as (_ & O1 & _), O2 as (_ & O2 & _), O3 as (_ & O3 & _), O4 as (_ & O4 & _).
  repeat constructor; unfold byte; lia.
Qed.

Lemma new_addr4 pe h t s m neg : In t [M_IP4_SADDR; M_IP4_DADDR] ->
  matcher_new_from_raw pe (Some h) t OP_EQ s neg = Ok m <-> exists a, dotted s a /\ m = mkM t OP_EQ neg a.
Proof.
  intros Ht. assert (matcher_new_from_raw pe (Some h) t OP_EQ s neg = (pay <- parse_ipv4_addr (firstn 4 h) s ; Ok (mkM t OP_EQ neg pay))) as ->.
  { destruct Ht as [<-|[<-|[]]]; reflexivity. }
  unfold parse_ipv4_addr. destruct (inet_pton4 s) as [a|] eqn:E.
  - pose proof E as E'. apply inet_pton4_iff in E'. destruct (dotted_len _ _ E') as (Hl & _). cbn [bind].
    unfold write. rewrite Hl, heap_skip, app_nil_r. split.
    + intros H. exists a. split; auto. congruence.
    + intros (a' & H & ->). apply inet_pton4_iff in H. congruence.
  - split; [discriminate|]. intros (a & H & _). apply inet_pton4_iff in H. congruence.
Qed.

(** ** Networks. *)
Lemma le_enc4_dec n : n < two32 -> le_dec (le_enc 4 n) = n.
Proof. intros. rewrite le_dec_enc. now apply N.mod_small. Qed.

Lemma parse_net_ok pton max old sa a sn n : sa <> [] -> ~ In SLASH sa -> pton sa = Some a -> decimal sn n ->
  n < two32 ->
  parse_net pton max old (sa ++ SLASH :: sn) = if n <=? max then Ok (write old (le_enc 4 n ++ a)) else Er EINVAL.
Proof.
  intros Hne Hs Hp Hd Hn. unfold parse_net. unfold SLASH in *. rewrite strtok_app by auto.
  destruct sn as [|c sn]; [destruct Hd; congruence|]. rewrite Hp, (strtoul_all _ _ Hd).
  replace (two64 <=? n) with false by (symmetry; apply N.leb_gt; unfold two64, two32 in *; lia).
  rewrite N.mod_small by auto. reflexivity.
Qed.

Lemma octet_no c s v : octet s v -> c < 48 -> ~ In c s.
Proof. intros (H & _) Hc. eapply decimal_no; eauto. Qed.

Lemma dotted_no_slash s a : dotted s a -> ~ In SLASH s /\ s <> [] /\ isdigit (first_char s) = true.
Proof.
  intros (s1 & s2 & s3 & s4 & v1 & v2 & v3 & v4 & -> & _ & O1 & O2 & O3 & O4). split; [|split].
  - intros H. apply in_app_or in H as [H|[H|H]]; [eapply octet_no in H; eauto; reflexivity|discriminate|].
    apply in_app_or in H as [H|[H|H]]; [eapply octet_no in H; eauto; reflexivity|discriminate|].
    apply in_app_or in H as [H|[H|H]]; [eapply octet_no in H; eauto; reflexivity|discriminate|].
    eapply octet_no in H; eauto; reflexivity.
  - destruct O1 as ((H & _) & _). destruct s1; [congruence|discriminate].
  - destruct O1 as (H & _). exact (decimal_first _ _ _ H).
Qed.

Lemma new_net4 pe h t sa a sn n neg : In t [M_IP4_SNET; M_IP4_DNET] -> dotted sa a -> decimal sn n -> n < two32 ->
  (length sa + length sn <= 30)%nat ->
  matcher_new_from_raw pe (Some h) t OP_EQ (sa ++ SLASH :: sn) neg =
    if n <=? 32 then Ok (mkM t OP_EQ neg (le_enc 4 n ++ a)) else Er EINVAL.
Proof.
  intros Ht Ha Hn Hb Hl.
  assert (matcher_new_from_raw pe (Some h) t OP_EQ (sa ++ SLASH :: sn) neg = (pay <- parse_ipv4_net (firstn 8 h) (sa ++ SLASH :: sn) ; Ok (mkM t OP_EQ neg pay))) as ->.
  { destruct Ht as [<-|[<-|[]]]; reflexivity. }
  destruct (dotted_no_slash _ _ Ha) as (H1 & H2 & H3). destruct (dotted_len _ _ Ha) as (L & _). unfold parse_ipv4_net.
  replace (first_char (sa ++ SLASH :: sn)) with (first_char sa) by (destruct sa; [congruence|reflexivity]). rewrite H3.
  unfold truncated. rewrite (@firstn_all2 N (32 - 1)) by (rewrite app_length; cbn [length Nat.sub]; lia).
  rewrite (parse_net_ok _ _ _ _ a _ n) by (auto; now apply inet_pton4_iff).
  destruct (n <=? 32); cbn [bind]; auto. unfold write. rewrite app_length, L. cbn [le_enc length Nat.add].
  now rewrite heap_skip, app_nil_r.
Qed.

Lemma cond_net4 D vw w sets t a n neg : In t [M_IP4_SNET; M_IP4_DNET] -> length a = 4%nat -> n <= 32 ->
  length (fld vw t) = 4%nat ->
  cond D vw w sets (mkM t OP_EQ neg (le_enc 4 n ++ a)) = (be_dec (fld vw t) / 2 ^ (32 - n) =? be_dec a / 2 ^ (32 - n)).
Proof.
  intros Ht La Hn Lf.
  assert (cond D vw w sets (mkM t OP_EQ neg (le_enc 4 n ++ a)) = in_net (le_dec (le_enc 4 n)) (firstn (length (fld vw t)) a) (fld vw t)) as ->.
  { destruct Ht as [<-|[<-|[]]]; reflexivity. }
  rewrite le_enc4_dec by (unfold two32; lia). rewrite Lf, <- La, firstn_all. unfold in_net. rewrite La. reflexivity.
Qed.

(** ** TCP flags. *)
Lemma flag_from_str s : from_str streq_i tcp_flag_strs s = match flag_bit s with Some b => Ok b | None => Er EINVAL end.
Proof.
  assert (R : forall x, map tolower x = x -> streq_i x s = streq (map tolower s) x).
  { intros x Hx. unfold streq_i, streq. rewrite Hx. apply bytes_eqb_sym. }
  unfold flag_bit. unfold tcp_flag_strs. cbn [number from_str].
  rewrite !R by reflexivity.
  repeat (match goal with |- context[streq ?a ?b] => destruct (streq a b); [reflexivity|] end). reflexivity.
Qed.

Lemma split_at_none c s : ~ In c s -> split_at c s = None.
Proof.
  induction s as [|x s IH]; intros H; cbn; auto. destruct (N.eqb_spec x c); [subst; elim H; now left|].
  rewrite IH; auto. intros K; apply H; now right.
Qed.

Lemma strtok_last c s : s <> [] -> ~ In c s -> strtok c s = Some (s, []).
Proof.
  intros Hn Hc. unfold strtok. destruct s as [|x s]; [congruence|]. cbn [skip_char].
  destruct (N.eqb_spec x c); [subst; elim Hc; now left|]. now rewrite split_at_none.
Qed.

Lemma tokens_join c ns : forall fuel, (length (join c ns) <= fuel)%nat ->
  (forall n, In n ns -> n <> [] /\ ~ In c n) -> tokens fuel c (join c ns) = ns.
Proof.
  induction ns as [|n ns IH]; intros fuel Hf Hn.
  - destruct fuel; auto.
  - destruct (Hn n) as (N1 & N2); [now left|]. destruct ns as [|n2 ns].
    + cbn [join] in *. destruct n as [|x n]; [congruence|]. destruct fuel as [|fuel]; [cbn in Hf; lia|].
      cbn [tokens]. rewrite strtok_last by auto. destruct fuel; auto.
    + change (join c (n :: n2 :: ns)) with (n ++ c :: join c (n2 :: ns)) in *.
      rewrite app_length in Hf. cbn [length] in Hf. destruct fuel as [|fuel]; [lia|].
      cbn [tokens]. rewrite strtok_app by auto. f_equal. apply IH; [lia|]. intros; apply Hn; now right.
Qed.

Lemma flags_of_bits ns : forall acc f, flags_of ns acc = Ok f ->
  forall i, N.testbit f i = true <-> N.testbit acc i = true \/ exists n, In n ns /\ flag_bit n = Some i.
Proof.
  induction ns as [|n ns IH]; intros acc f H i; cbn [flags_of] in H.
  - injection H as ->. split; auto. intros [H|(n & [] & _)]; auto.
  - rewrite flag_from_str in H. destruct (flag_bit n) as [b|] eqn:E; [|discriminate]. cbn [bind] in H.
    rewrite (IH _ _ H i), N.lor_spec, orb_true_iff, N.pow2_bits_eqb, N.eqb_eq. split.
    + intros [[K|<-]|(x & Hx & K)].
      * auto.
      * right. exists n. split; auto. now left.
      * right. exists x. split; auto. now right.
    + intros [K|(x & [<-|Hx] & K)]; auto; [|eauto]. left; right. congruence.
Qed.

Lemma flags_of_ok ns : forall acc, (exists f, flags_of ns acc = Ok f) <-> (forall n, In n ns -> flag_bit n <> None).
Proof.
  induction ns as [|n ns IH]; intros acc; cbn [flags_of].
  - split; [intros _ n []|eauto].
  - rewrite flag_from_str. destruct (flag_bit n) as [b|] eqn:E; cbn [bind].
    + rewrite IH. split; intros H.
      * intros x [<-|Hx]; [congruence|auto].
      * intros; apply H; now right.
    + split; [intros (f & H); discriminate|]. intros H. elim (H n); auto. now left.
Qed.

Lemma parse_flags_spec old ns : (forall n, In n ns -> n <> [] /\ ~ In COMMA n) ->
  match parse_tcp_flags old (join COMMA ns) with
  | Ok p => (forall n, In n ns -> flag_bit n <> None) /\
            exists f, p = f :: skipn 1 old /\
              forall i, N.testbit f i = true <-> exists n, In n ns /\ flag_bit n = Some i
  | Er _ => exists n, In n ns /\ flag_bit n = None
  end.
Proof.
  intros Hn. unfold parse_tcp_flags. change 44 with COMMA. rewrite tokens_join by auto.
  destruct (flags_of ns 0) as [f|e] eqn:E.
  - split; [apply (flags_of_ok ns 0); eauto|]. exists f. split; [reflexivity|]. intros i.
    rewrite (flags_of_bits _ _ _ E i), N.bits_0. intuition congruence.
  - destruct (existsb (fun n => match flag_bit n with None => true | _ => false end) ns) eqn:X.
    + apply existsb_exists in X as (n & H1 & H2). exists n. destruct (flag_bit n); [discriminate|auto].
    + assert (exists f, flags_of ns 0 = Ok f) as (f & F); [|congruence].
      apply flags_of_ok. intros n H K. apply not_true_iff_false in X. apply X. apply existsb_exists. exists n. now rewrite K.
Qed.

Lemma flag_bit_lt n b : flag_bit n = Some b -> b < 8.
Proof.
  unfold flag_bit. repeat (match goal with |- context[if ?c then _ else _] => destruct c; [intros H; injection H as <-; lia|] end). discriminate.
Qed.

Lemma byte_of_bits f : (forall i, 8 <= i -> N.testbit f i = false) -> f < 256.
Proof.
  intros H. destruct (N.eq_dec f 0); [lia|]. destruct (N.lt_ge_cases f 256); auto.
  assert (8 <= N.log2 f). { change 8 with (N.log2 256). apply N.log2_le_mono. auto. }
  specialize (H _ H1). rewrite N.bit_log2 in H; congruence.
Qed.

Lemma flags_of_byte ts f : flags_of ts 0 = Ok f -> f < 256.
Proof.
  intros H. apply byte_of_bits. intros i Hi. apply not_true_iff_false. rewrite (flags_of_bits _ _ _ H i), N.bits_0.
  intros [K|(n & _ & K)]; [discriminate|]. apply flag_bit_lt in K. lia.
Qed.

(** ** What every parser guarantees: the payload keeps its size and its bytes. *)
Definition keeps (n : nat) (p : list N -> cstr -> res (list N)) : Prop :=
  forall old raw r, p old raw = Ok r -> length old = n -> bytes old -> length r = n /\ bytes r.

Lemma write_ok n old v : length old = n -> bytes old -> (length v <= n)%nat -> bytes v ->
  length (write old v) = n /\ bytes (write old v).
Proof.
  intros H1 H2 H3 H4. unfold write. rewrite app_length, skipn_length. split; [lia|].
  apply Forall_app. split; auto. rewrite <- (firstn_skipn (length v) old) in H2. now apply Forall_app in H2.
Qed.


Lemma bounded_inv max r v : bounded max r = Ok v -> v <= max.
Proof. unfold bounded. destruct r; cbn; [|discriminate]. destruct (N.leb_spec a max); [|discriminate]. congruence. Qed.

Lemma table_bytes_small t s v (b : N) : from_str streq_i t s = Ok v -> forallb (fun x => fst x <? b) t = true -> v < b.
Proof. intros H Ht. apply from_str_in in H as (n & Hi & _). rewrite forallb_forall in Ht. specialize (Ht _ Hi). now apply N.ltb_lt. Qed.

Ltac wok := intros; eapply write_ok; eauto; rewrite ?app_length; cbn [length le_enc]; try lia;
  try apply Forall_app; try split; try apply le_enc_bytes.

Lemma keeps_named t max n : forallb (fun x => fst x <? 256) t = true -> max <= 255 -> (1 <= n)%nat ->
  keeps n (parse_named t max).
Proof.
  intros Ht Hm Hn old raw r. unfold parse_named. destruct (from_str streq_i t raw) as [v|e] eqn:E.
  - intros H. assert (r = write old [v]) as -> by congruence. wok. constructor; [|constructor]. unfold byte.
    eapply table_bytes_small; eauto.
  - destruct (bounded max (strtoul2 raw)) as [v|e'] eqn:B; cbn [bind]; [|discriminate]. intros H.
    assert (r = write old [v]) as -> by congruence. apply bounded_inv in B. wok. constructor; [|constructor]. unfold byte. lia.
Qed.

Lemma bytes_le_app a b x y : bytes (le_enc a x ++ le_enc b y).
Proof. apply Forall_app. split; apply le_enc_bytes. Qed.

Ltac kp := match goal with
  | H : Er _ = Ok _ |- _ => discriminate H
  | H : Ok _ = Ok _ |- _ => injection H as <-
  | H : bind ?x _ = Ok _ |- _ => let E := fresh "E" in destruct x eqn:E; cbn [bind] in H
  | H : (if ?c then _ else _) = Ok _ |- _ => let E := fresh "E" in destruct c eqn:E
  | H : (match ?x with _ => _ end) = Ok _ |- _ => let E := fresh "E" in destruct x eqn:E
  end.

Lemma parser_keeps pe t o p n : penv_ok pe -> parser_of pe t o = Some p -> ops_size t o = Some n -> keeps n p.
Proof.
  intros (P6 & PP) H S.
  destruct t, o; try discriminate H; injection H as <-; injection S as <-;
    unfold parse_l4_proto, parse_icmp_type, parse_icmpv6_type, parse_dscp, parse_icmp_code;
    try (apply keeps_named; [reflexivity|lia|lia]);
    intros old raw r H; unfold parse_iface, parse_l3_proto, parse_l4_port, parse_l4_port_range, parse_probability, parse_mark,
      parse_u32, parse_u32_range, parse_ipv4_addr, parse_ipv6_addr, parse_ipv4_net, parse_ipv6_net, parse_net, parse_tcp_flags, isalpha in H;
    repeat kp; intros; apply write_ok; auto; rewrite ?app_length; cbn [length le_enc]; try lia;
    try apply bytes_le_app; try apply le_enc_bytes;
    try (match goal with H : pe_percent _ _ = Some _ |- _ => apply PP in H as (PL & PB) end; try lia; auto; fail);
    try (match goal with H : pe_pton6 _ _ = Some _ |- _ => apply P6 in H as (PL & PB) end; try lia; auto);
    try (match goal with H : inet_pton4 _ = Some _ |- _ => apply inet_pton4_iff, dotted_len in H as (PL & PB) end; try lia; auto);
    try (apply Forall_app; split; [apply le_enc_bytes|auto]).
  all: try (repeat (apply Forall_cons; [unfold byte; apply N.mod_lt; lia|]); auto; constructor; fail).
  all: try (constructor; [|constructor]; unfold byte; eapply flags_of_byte; eauto).
Qed.

Lemma parse_net_plen pton max old buf r : max < two32 -> parse_net pton max old buf = Ok r -> le_dec (firstn 4 r) <= max.
Proof.
  intros Hm H. unfold parse_net in H. destruct (strtok 47 buf) as [(ip & mask)|]; [|discriminate].
  destruct mask as [|c mask]; [discriminate|]. destruct (pton ip) as [ad|]; [|discriminate].
  destruct (strtoul 10 (c :: mask)) as [[v rest] er]. destruct rest; [|discriminate].
  destruct (N.leb_spec (v mod two32) max); [|discriminate].
  assert (r = write old (le_enc 4 (v mod two32) ++ ad)) as -> by congruence. clear H.
  unfold write. rewrite <- app_assoc. change (le_dec (le_enc 4 (v mod two32)) <= max).
  rewrite le_enc4_dec by (apply N.mod_lt; unfold two32; lia). auto.
Qed.

Lemma new_from_raw_wf pe h t o s neg m : penv_ok pe -> bytes h -> (24 <= length h)%nat -> o <> OP_IN ->
  matcher_new_from_raw pe (Some h) t o s neg = Ok m -> wf_matcher m /\ m_type m = t /\ m_op m = o /\ m_neg m = neg.
Proof.
  intros Pe Hb Hl Ho H. unfold matcher_new_from_raw in H.
  destruct (parser_of pe t o) as [p|] eqn:P; [|discriminate]. destruct (ops_size t o) as [n|] eqn:Sz; [|discriminate].
  destruct (p (firstn n h) s) as [pay|] eqn:E; [|discriminate]. cbn [bind] in H. injection H as <-.
  assert (n <= 24)%nat as Hn. { destruct t, o; try discriminate Sz; injection Sz as <-; lia. }
  destruct (parser_keeps _ _ _ _ _ Pe P Sz _ _ _ E) as (L & B).
  { rewrite firstn_length. lia. } { rewrite <- (firstn_skipn n h) in Hb. now apply Forall_app in Hb. }
  repeat split; auto; cbn [m_pay m_type m_op].
  - destruct t; try (split; congruence); destruct o; try discriminate P; congruence.
  - intros Hn'. destruct t; try discriminate Hn'; destruct o; try discriminate P; try congruence; injection P as <-;
      cbn [net_bits]; unfold parse_ipv4_net, parse_ipv6_net in E;
      (match type of E with (if ?c then _ else _) = _ => destruct c; [|discriminate] end);
      eapply parse_net_plen; eauto; reflexivity.
Qed.
