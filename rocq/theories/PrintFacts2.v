(** Reading what is printed. *)
From Coq Require Import String NArith List Bool Arith Lia.
From Verif Require Import Bytes Types GenModel BytesFacts StrModel StrSpec EnumModel ParseModel ParseSpec ParseFacts ParseFacts2 ParseFacts3 PrintModel PrintSpec
  PrintFacts NewFacts.
Import ListNotations.
Local Open Scope string_scope.
Local Open Scope list_scope.
Local Open Scope N_scope.
Local Open Scope res_scope.

Definition reads (p : list N -> cstr -> res (list N)) (s : cstr) (v : list N) : Prop := forall old, p old s = Ok (write old v).
(** The payload read from [raw] is printed as a text that reads the same. *)
Definition back (p : list N -> cstr -> res (list N)) (pr : list N -> cstr) : Prop :=
  forall old raw r, p old raw = Ok r -> exists v, r = write old v /\ reads p raw v /\ reads p (pr r) v.

Lemma write_first old v : firstn (length v) (write old v) = v.
Proof. unfold write. rewrite firstn_app, Nat.sub_diag, firstn_all. cbn. apply app_nil_r. Qed.
Lemma write_le n v old : firstn n (write old (le_enc n v)) = le_enc n v.
Proof. rewrite <- (le_enc_length n v) at 1. apply write_first. Qed.
Lemma le2_dec n : n < 65536 -> le_dec (le_enc 2 n) = n.
Proof. intros H. rewrite le_dec_enc. apply N.mod_small. exact H. Qed.
Lemma skip_skip {A} i j : forall l : list A, skipn i (skipn j l) = skipn (j + i) l.
Proof. induction j as [|j IH]; intros l; [reflexivity|]. destruct l; [destruct i; reflexivity|]. apply IH. Qed.
Lemma write_app old a b : write old (a ++ b) = a ++ write (skipn (length a) old) b.
Proof. unfold write. rewrite app_length, <- app_assoc, skip_skip. reflexivity. Qed.
Lemma first_app {A} (a b : list A) : firstn (length a) (a ++ b) = a.
Proof. rewrite firstn_app, Nat.sub_diag, firstn_all. cbn. apply app_nil_r. Qed.
Lemma skip_app {A} (a b : list A) : skipn (length a) (a ++ b) = b.
Proof. rewrite skipn_app, Nat.sub_diag, skipn_all. reflexivity. Qed.
Lemma first_le n x old b : firstn n (write old (le_enc n x ++ b)) = le_enc n x.
Proof. rewrite write_app. rewrite <- (le_enc_length n x) at 1. apply first_app. Qed.
Lemma skip_le n x old b : skipn n (write old (le_enc n x ++ b)) = write (skipn n old) b.
Proof. rewrite write_app. rewrite <- (le_enc_length n x) at 1. rewrite skip_app. rewrite le_enc_length. reflexivity. Qed.

(** *** u32, marks *)
Lemma bounded_hex n m : n <= m -> m < two64 -> bounded m (strtoul2 (lit "0x" ++ hex n)) = Ok n.
Proof.
  intros A B. rewrite (strtoul2_hex (hex n) n (hex_hexadecimal n)) by lia. unfold bounded. cbn [bind]. apply N.leb_le in A. rewrite A. reflexivity.
Qed.
Lemma back_u32 : back parse_u32 print_u32.
Proof.
  intros old raw r H. unfold parse_u32 in H. binv H. apply Ok_inj in H. subst r. exists (le_enc 4 a). split; [reflexivity|]. pose proof (bounded_inv _ _ _ E) as B.
  split; [intros o; unfold parse_u32; rewrite E; reflexivity|]. intros o. unfold print_u32. rewrite write_le, le_enc4_dec by (unfold two32 in *; lia).
  unfold parse_u32. rewrite bounded_hex by (try exact B; reflexivity). reflexivity.
Qed.
Lemma back_mark : back parse_mark print_u32.
Proof.
  intros old raw r H. unfold parse_mark in H. destruct (strtoll 0 raw) as [[neg v] rest] eqn:E. destruct rest; [|discriminate].
  destruct (neg && (0 <? v)) eqn:E1; [discriminate|]. destruct (two32 - 1 <? v) eqn:E2; [discriminate|]. apply Ok_inj in H. subst r.
  exists (le_enc 4 v). split; [reflexivity|]. split; [intros o; unfold parse_mark; rewrite E, E1, E2; reflexivity|]. intros o. pose proof E2 as B. apply N.ltb_ge in B.
  assert (B2 : v < two32) by (unfold two32 in *; lia). unfold print_u32. rewrite write_le, le_enc4_dec by exact B2.
  pose proof (scan_hex 0 (hex v) v [] (or_introl eq_refl) (hex_hexadecimal v) Logic.I) as S. rewrite app_nil_r in S. unfold parse_mark, strtoll. rewrite S. cbn [andb].
  assert (M : N.min v (two64 / 2 - 1) = v) by (apply N.min_l; change (two64 / 2 - 1) with 9223372036854775807; unfold two32 in *; lia). rewrite M, E2. reflexivity.
Qed.
Lemma hex_no s c : (forall x, In x s -> 48 <= x <= 57 \/ 97 <= x <= 102) -> c < 48 -> ~ In c s.
Proof. intros H L I. apply H in I. lia. Qed.
Lemma back_u32_range : back parse_u32_range print_u32_range.
Proof.
  intros old raw r H. unfold parse_u32_range in H. destruct (negb (isdigit (first_char raw))) eqn:E0; [discriminate|].
  destruct (strtok 45 (truncated 32 raw)) as [(f, s)|] eqn:E1; [|discriminate]. destruct s as [|c s]; [discriminate|]. binv H. binv H.
  destruct (a0 <? a) eqn:L; [discriminate|]. apply Ok_inj in H. subst r. exists (le_enc 4 a ++ le_enc 4 a0). split; [reflexivity|]. split.
  { intros o. unfold parse_u32_range. rewrite E0, E1, E, E2. cbn [bind]. rewrite L. reflexivity. }
  apply bounded_inv in E, E2. intros o. unfold print_u32_range. rewrite first_le, skip_le, write_le, !le_enc4_dec by (unfold two32 in *; lia).
  assert (A : (length (hex a) <= 8)%nat) by (apply hex_short; [unfold two32 in E; change (16 ^ N.of_nat 8) with 4294967296; lia|lia]).
  assert (B : (length (hex a0) <= 8)%nat) by (apply hex_short; [unfold two32 in E2; change (16 ^ N.of_nat 8) with 4294967296; lia|lia]).
  change (lit "0x" ++ hex a ++ lit "-0x" ++ hex a0) with (48 :: 120 :: (hex a ++ 45 :: (lit "0x" ++ hex a0))).
  unfold parse_u32_range. cbn [first_char]. change (isdigit 48) with true. cbn [negb].
  unfold truncated. rewrite (@firstn_all2 N (32 - 1)).
  2:{ cbn [length]. rewrite app_length. cbn [length]. change (lit "0x" ++ hex a0) with (48 :: 120 :: hex a0). cbn [length Nat.sub]. lia. }
  change (48 :: 120 :: (hex a ++ 45 :: lit "0x" ++ hex a0)) with ((lit "0x" ++ hex a) ++ 45 :: (lit "0x" ++ hex a0)). rewrite strtok_app.
  - change (lit "0x" ++ hex a0) with (48 :: 120 :: hex a0) at 1. cbv iota beta. rewrite bounded_hex by (try exact E; reflexivity). cbn [bind].
    change (48 :: 120 :: hex a0) with (lit "0x" ++ hex a0). rewrite bounded_hex by (try exact E2; reflexivity). cbn [bind]. rewrite L. reflexivity.
  - discriminate.
  - intros I. change (lit "0x" ++ hex a) with (48 :: 120 :: hex a) in I. destruct I as [I|[I|I]]; try discriminate I. apply (hex_no (hex a) 45) in I; [exact I|apply hex_hexadecimal|lia].
Qed.

(** *** Interfaces *)
Lemma back_iface pe se : consistent pe se -> back (parse_iface pe) (print_iface se).
Proof.
  intros C old raw r H.
  assert (X : exists i, 0 < i < two32 /\ r = write old (le_enc 4 i) /\ reads (parse_iface pe) raw (le_enc 4 i)).
  { unfold parse_iface in H. destruct ((0 <? pe_ifindex pe raw) && (pe_ifindex pe raw <? two31)) eqn:E.
    - apply Ok_inj in H. exists (pe_ifindex pe raw). pose proof E as E'. apply andb_prop in E'. destruct E' as (A & B). apply N.ltb_lt in A, B. change two32 with (2 * two31).
      split; [lia|]. split; [congruence|]. intros o. unfold parse_iface. rewrite E. reflexivity.
    - destruct (strtoul 10 raw) as [[v rest] er] eqn:S. destruct rest; [|discriminate]. destruct er; [discriminate|].
      destruct ((0 <? v) && (v <? two32)) eqn:E2; [|discriminate]. apply Ok_inj in H. exists v. pose proof E2 as E'. apply andb_prop in E'. destruct E' as (A & B). apply N.ltb_lt in A, B.
      split; [lia|]. split; [congruence|]. intros o. unfold parse_iface. rewrite E, S, E2. reflexivity. }
  destruct X as (i & I & -> & R). exists (le_enc 4 i). split; [reflexivity|]. split; [exact R|]. intros o. unfold print_iface. rewrite write_le, le_enc4_dec by lia.
  destruct (se_ifname se i) as [n|] eqn:N.
  - destruct (co_name _ _ C _ _ N) as (L & NI). unfold parse_iface. rewrite NI. replace ((0 <? i) && (i <? two31)) with true; [reflexivity|].
    symmetry. apply andb_true_iff. rewrite !N.ltb_lt. lia.
  - pose proof (co_number _ _ C _ N) as Z. unfold parse_iface. rewrite Z. cbn [N.ltb N.compare andb]. rewrite (strtoul_all _ _ (proj1 (dec_decimal i))).
    replace (two64 <=? i) with false by (symmetry; apply N.leb_gt; unfold two32, two64 in *; lia). replace ((0 <? i) && (i <? two32)) with true; [reflexivity|].
    symmetry. apply andb_true_iff. rewrite !N.ltb_lt. lia.
Qed.

(** *** Names and numbers *)
Definition named_value (t : table) (max : N) (raw : cstr) : res N :=
  match from_str streq_i t raw with Ok v => Ok v | Er _ => bounded max (strtoul2 raw) end.
Lemma parse_named_value t max old raw : parse_named t max old raw = (v <- named_value t max raw ; Ok (write old [v])).
Proof. unfold parse_named, named_value. destruct (from_str streq_i t raw); reflexivity. Qed.
Definition below (n : N) : list N := map N.of_nat (seq 0 (N.to_nat n)).
Lemma below_in n v : v < n -> In v (below n).
Proof. intros H. apply in_map_iff. exists (N.to_nat v). split; [apply N2Nat.id|]. apply in_seq. lia. Qed.
Definition named_ok (t : table) (max : N) : bool :=
  forallb (fun v => match named_value t max (print_named t [v]) with Ok w => w =? v | Er _ => false end) (below (max + 1)) &&
  forallb (fun x => fst x <=? max) t.
Lemma back_named t max : max <= 255 -> named_ok t max = true -> back (parse_named t max) (print_named t).
Proof.
  intros M K old raw r H. apply andb_prop in K. destruct K as (K & T). rewrite parse_named_value in H. binv H. apply Ok_inj in H. subst r. exists [a]. split; [reflexivity|].
  split; [intros o; rewrite parse_named_value, E; reflexivity|]. intros o.
  assert (L : a <= max).
  { unfold named_value in E. destruct (from_str streq_i t raw) as [w|] eqn:F; [|apply bounded_inv in E; exact E]. apply Ok_inj in E. subst w.
    clear -F T. induction t as [|(w, n) t IH]; cbn [from_str forallb fst] in *; [discriminate|]. apply andb_prop in T. destruct T as (T1 & T2).
    destruct (streq_i n raw); [|auto]. injection F as <-. apply N.leb_le in T1. exact T1. }
  assert (P : print_named t (write old [a]) = print_named t [a]) by (unfold print_named, write; cbn [app firstn]; reflexivity).
  rewrite P, parse_named_value. rewrite forallb_forall in K. assert (LT : a < max + 1) by lia; specialize (K a (below_in _ _ LT)).
  destruct (named_value t max (print_named t [a])) as [w|]; [|discriminate K]. apply N.eqb_eq in K. subst w. reflexivity.
Qed.
Lemma named_all : named_ok ipproto_strs 255 = true /\ named_ok icmp_strs 255 = true /\ named_ok icmpv6_strs 255 = true /\ named_ok dscp_strs 63 = true /\ named_ok [] 255 = true.
Proof. repeat split; vm_compute; reflexivity. Qed.

Lemma back_l3 : back parse_l3_proto print_l3_proto.
Proof.
  intros old raw r H.
  assert (X : exists n, n < 65536 /\ r = write old (le_enc 2 n) /\ reads parse_l3_proto raw (le_enc 2 n)).
  { unfold parse_l3_proto in H. destruct (from_str streq_i ethertype_strs raw) as [v|] eqn:F.
    - apply Ok_inj in H. exists v. split; [exact (table_bytes_small _ _ _ 65536 F eq_refl)|]. split; [congruence|]. intros o. unfold parse_l3_proto. rewrite F. reflexivity.
    - binv H. apply Ok_inj in H. exists a. pose proof (bounded_inv _ _ _ E). split; [lia|]. split; [congruence|]. intros o. unfold parse_l3_proto. rewrite F, E. reflexivity. }
  destruct X as (n & L & -> & R). exists (le_enc 2 n). split; [reflexivity|]. split; [exact R|]. intros o. unfold print_l3_proto. rewrite write_le, le2_dec by exact L.
  cbn [to_str ethertype_strs]. destruct (N.eqb_spec n 2048) as [ -> |N1]; [reflexivity|]. destruct (N.eqb_spec n 34525) as [ -> |N2]; [reflexivity|].
  unfold parse_l3_proto. assert (F : from_str streq_i ethertype_strs (lit "0x" ++ hex4 n) = Er EINVAL) by reflexivity. rewrite F.
  unfold hex4; cbv zeta; rewrite (strtoul2_hex _ n (hex_zeros n _)) by (unfold two64; lia). unfold bounded. cbn [bind]. replace (n <=? 65535) with true by (symmetry; apply N.leb_le; lia). reflexivity.
Qed.

(** *** Ports *)
Lemma back_port : back parse_l4_port print_l4_port.
Proof.
  intros old raw r H. unfold parse_l4_port in H. destruct (strtoul 10 raw) as [[v rest] er] eqn:E. destruct rest; [|discriminate].
  destruct (v <=? 65535) eqn:L; [|discriminate]. apply Ok_inj in H. subst r. exists (le_enc 2 (swap16 v)). split; [reflexivity|].
  split; [intros o; unfold parse_l4_port; rewrite E, L; reflexivity|]. intros o. pose proof L as LV. apply N.leb_le in LV. unfold print_l4_port.
  rewrite write_le, le2_dec by apply swap16_lt. rewrite swap16_invol by lia. unfold parse_l4_port. rewrite (strtoul_all _ _ (proj1 (dec_decimal v))).
  replace (two64 <=? v) with false by (symmetry; apply N.leb_gt; unfold two64; lia). rewrite L. reflexivity.
Qed.
Lemma port_of_dec v : v <= 65535 -> port_of (dec v) = Ok v.
Proof.
  intros L. unfold port_of. rewrite (strtoul_all _ _ (proj1 (dec_decimal v))). replace (two64 <=? v) with false by (symmetry; apply N.leb_gt; unfold two64; lia).
  apply N.leb_le in L. rewrite L. reflexivity.
Qed.
Lemma port_of_le s v : port_of s = Ok v -> v <= 65535.
Proof. unfold port_of. destruct (strtoul 10 s) as [[p rest] er]. destruct rest; [|discriminate]. destruct (N.leb_spec p 65535); [|discriminate]. intros X. injection X as <-. assumption. Qed.
Lemma back_port_range : back parse_l4_port_range print_l4_port_range.
Proof.
  intros old raw r H. unfold parse_l4_port_range in H. destruct (negb (isdigit (first_char raw))) eqn:E0; [discriminate|].
  destruct (strtok 45 (truncated 16 raw)) as [(f, s)|] eqn:E1; [|discriminate]. destruct s as [|c s]; [discriminate|]. binv H. binv H.
  destruct (a0 <? a) eqn:L; [discriminate|]. apply Ok_inj in H. subst r. exists (le_enc 2 a ++ le_enc 2 a0). split; [reflexivity|]. split.
  { intros o. unfold parse_l4_port_range. rewrite E0, E1, E, E2. cbn [bind]. rewrite L. reflexivity. }
  apply port_of_le in E, E2. intros o. unfold print_l4_port_range. rewrite first_le, skip_le, write_le, !le2_dec by lia.
  assert (A : (length (dec a) <= 5)%nat) by (apply dec_short; [change (10 ^ N.of_nat 5) with 100000; lia|lia]).
  assert (B : (length (dec a0) <= 5)%nat) by (apply dec_short; [change (10 ^ N.of_nat 5) with 100000; lia|lia]).
  change (dec a ++ lit "-" ++ dec a0) with (dec a ++ 45 :: dec a0). unfold parse_l4_port_range. rewrite (decimal_first _ _ _ (proj1 (dec_decimal a))). cbn [negb].
  unfold truncated. rewrite (@firstn_all2 N (16 - 1)) by (rewrite app_length; cbn [length Nat.sub]; lia).
  destruct (dec_decimal a) as (DA & _). destruct (dec_decimal a0) as (DB & _). rewrite strtok_app; [|apply DA|apply (decimal_no 45 _ _ DA); lia].
  assert (X : exists x y, dec a0 = x :: y) by (destruct (dec a0); [destruct DB; congruence|eauto]). destruct X as (x & y & X). rewrite X at 1. cbv iota beta.
  rewrite port_of_dec by exact E. cbn [bind]. try rewrite <- X. rewrite (port_of_dec a0) by exact E2. cbn [bind]. rewrite L. reflexivity.
Qed.

(** *** Addresses and networks *)
Lemma dec_octet v : v <= 255 -> octet (dec v) v.
Proof. intros L. destruct (dec_decimal v) as (D & Z). split; [exact D|]. split; [exact L|exact Z]. Qed.
Lemma ntop4_dotted a b : length a = 4%nat -> bytes a -> dotted (ntop4 (a ++ b)) a.
Proof.
  intros L B. destruct a as [|v1 [|v2 [|v3 [|v4 [|]]]]]; try discriminate L. unfold ntop4. cbn [nth app].
  inversion B as [|? ? B1 R1]; subst. inversion R1 as [|? ? B2 R2]; subst. inversion R2 as [|? ? B3 R3]; subst. inversion R3 as [|? ? B4 R4]; subst. unfold byte in *.
  exists (dec v1), (dec v2), (dec v3), (dec v4), v1, v2, v3, v4. split; [reflexivity|]. split; [reflexivity|]. 
  assert (O : forall v, v < 256 -> octet (dec v) v) by (intros v V; apply dec_octet; lia). auto using O.
Qed.
Lemma ntop4_short a b : length a = 4%nat -> bytes a -> (length (ntop4 (a ++ b)) <= 15)%nat.
Proof.
  intros L B. destruct a as [|v1 [|v2 [|v3 [|v4 [|]]]]]; try discriminate L. unfold ntop4. cbn [nth app].
  inversion B as [|? ? B1 R1]; subst. inversion R1 as [|? ? B2 R2]; subst. inversion R2 as [|? ? B3 R3]; subst. inversion R3 as [|? ? B4 R4]; subst. unfold byte in *.
  assert (D : forall v, v < 256 -> (length (dec v) <= 3)%nat) by (intros v V; apply dec_short; [change (10 ^ N.of_nat 3) with 1000; lia|lia]).
  repeat (rewrite app_length; cbn [length]). pose proof (D v1 B1). pose proof (D v2 B2). pose proof (D v3 B3). pose proof (D v4 B4). lia.
Qed.
Lemma back_ipv4 : back parse_ipv4_addr print_ipv4_addr.
Proof.
  intros old raw r H. unfold parse_ipv4_addr in H. destruct (inet_pton4 raw) as [a|] eqn:E; [|discriminate]. apply Ok_inj in H. subst r. exists a. split; [reflexivity|].
  split; [intros o; unfold parse_ipv4_addr; rewrite E; reflexivity|]. apply inet_pton4_iff, dotted_len in E. destruct E as (L & B).
  intros o. unfold print_ipv4_addr, parse_ipv4_addr, write. rewrite (proj2 (inet_pton4_iff _ a)) by (apply ntop4_dotted; assumption). reflexivity.
Qed.
Lemma dec_net n : n <= 128 -> (length (dec n) <= 3)%nat.
Proof. intros L. apply dec_short; [change (10 ^ N.of_nat 3) with 1000; lia|lia]. Qed.
Lemma parse_net_inv pton max old buf r : parse_net pton max old buf = Ok r -> exists n a, r = write old (le_enc 4 n ++ a) /\ n < two32 /\ n <= max /\
  (exists s, pton s = Some a) /\ forall o, parse_net pton max o buf = Ok (write o (le_enc 4 n ++ a)).
Proof.
  unfold parse_net. destruct (strtok 47 buf) as [(ip, mask)|]; [|discriminate]. destruct mask as [|c mask]; [discriminate|]. destruct (pton ip) as [a|] eqn:P; [|discriminate].
  destruct (strtoul 10 (c :: mask)) as [[v rest] er]. destruct rest; [|discriminate]. destruct (v mod two32 <=? max) eqn:L; [|discriminate]. intros X. apply Ok_inj in X.
  exists (v mod two32), a. split; [congruence|]. split; [apply N.mod_lt; discriminate|]. split; [apply N.leb_le; exact L|]. split; [eauto|]. reflexivity.
Qed.
Lemma back_net4 : back parse_ipv4_net print_ipv4_net.
Proof.
  intros old raw r H. unfold parse_ipv4_net in H. destruct (isdigit (first_char raw)) eqn:D; [|discriminate]. apply parse_net_inv in H.
  destruct H as (n & a & -> & N2 & NM & (s & P) & R). exists (le_enc 4 n ++ a). split; [reflexivity|]. split; [intros o; unfold parse_ipv4_net; rewrite D; apply R|].
  apply inet_pton4_iff, dotted_len in P. destruct P as (L & B). intros o. unfold print_ipv4_net. rewrite first_le, skip_le, le_enc4_dec by exact N2. unfold write at 1.
  pose proof (ntop4_dotted a (skipn (length a) (skipn 4 old)) L B) as DT. pose proof (ntop4_short a (skipn (length a) (skipn 4 old)) L B) as SH.
  set (t := ntop4 (a ++ skipn (length a) (skipn 4 old))) in *. destruct (dotted_no_slash _ _ DT) as (S1 & S2 & S3). pose proof (dec_net n ltac:(lia)) as DN.
  unfold parse_ipv4_net. replace (first_char (t ++ 47 :: dec n)) with (first_char t) by (destruct t; [congruence|reflexivity]). rewrite S3.
  unfold truncated. rewrite (@firstn_all2 N (32 - 1)) by (rewrite app_length; cbn [length Nat.sub]; lia).
  change 47 with SLASH. rewrite (parse_net_ok inet_pton4 32 o t a (dec n) n S2 S1 (proj2 (inet_pton4_iff _ _) DT) (proj1 (dec_decimal n)) N2).
  apply N.leb_le in NM. rewrite NM. reflexivity.
Qed.
Lemma back_ipv6 pe se : penv_ok pe -> consistent pe se -> back (parse_ipv6_addr pe) (print_ipv6_addr se).
Proof.
  intros (P6 & _) C old raw r H. unfold parse_ipv6_addr in H. destruct (pe_pton6 pe raw) as [a|] eqn:E; [|discriminate]. apply Ok_inj in H. subst r. exists a. split; [reflexivity|].
  split; [intros o; unfold parse_ipv6_addr; rewrite E; reflexivity|]. destruct (P6 _ _ E) as (L & B). destruct (co_ip6 _ _ C a L B) as (s & N & P & _).
  intros o. unfold print_ipv6_addr. rewrite <- L, write_first, N. unfold parse_ipv6_addr. rewrite P. reflexivity.
Qed.
Lemma ip6_chars s : s <> [] -> forallb ip6_char s = true -> first_char s <> 46 ->
  ~ In SLASH s /\ (isalpha (first_char s) || isdigit (first_char s) || (first_char s =? 58)) = true.
Proof.
  intros NE F D. rewrite forallb_forall in F. split.
  - intros I. apply F in I. discriminate I.
  - destruct s as [|c s]; [congruence|]. specialize (F c (or_introl eq_refl)). cbn [first_char] in *. unfold ip6_char in F. unfold isalpha, islower. apply orb_prop in F. destruct F as [F|F].
    + apply orb_prop in F. destruct F as [F|F]; [|rewrite F; apply orb_true_r]. apply orb_prop in F. destruct F as [F|F]; [rewrite F; rewrite orb_true_r; reflexivity|].
      apply andb_prop in F. destruct F as (F1 & F2). rewrite F1. replace (c <=? 122) with true; [cbn; rewrite orb_true_r; reflexivity|]. symmetry. apply N.leb_le in F2. apply N.leb_le. lia.
    + apply N.eqb_eq in F. congruence.
Qed.
Lemma back_net6 pe se : penv_ok pe -> consistent pe se -> back (parse_ipv6_net pe) (print_ipv6_net se).
Proof.
  intros (P6 & _) C old raw r H. unfold parse_ipv6_net in H. cbv zeta in H.
  destruct (isalpha (first_char raw) || isdigit (first_char raw) || (first_char raw =? 58)) eqn:D; [|discriminate]. apply parse_net_inv in H.
  destruct H as (n & a & -> & N2 & NM & (s & P) & R). exists (le_enc 4 n ++ a). split; [reflexivity|]. split; [intros o; unfold parse_ipv6_net; cbv zeta; rewrite D; apply R|].
  destruct (P6 _ _ P) as (L & B). destruct (co_ip6 _ _ C a L B) as (t & T1 & T2 & T3 & T4 & T5 & T6). destruct (ip6_chars t T3 T5 T6) as (S1 & S2). pose proof (dec_net n NM) as DN.
  intros o. unfold print_ipv6_net. rewrite first_le, skip_le, le_enc4_dec by exact N2. rewrite <- L at 1. rewrite write_first, T1.
  unfold parse_ipv6_net. cbv zeta. replace (first_char (t ++ 47 :: dec n)) with (first_char t) by (destruct t; [congruence|reflexivity]). rewrite S2.
  unfold truncated. rewrite (@firstn_all2 N (50 - 1)) by (rewrite app_length; cbn [length Nat.sub]; lia).
  change 47 with SLASH. rewrite (parse_net_ok (pe_pton6 pe) 128 o t a (dec n) n T3 S1 T2 (proj1 (dec_decimal n)) N2).
  apply N.leb_le in NM. rewrite NM. reflexivity.
Qed.
Definition flags_ok : bool := forallb (fun v => match parse_tcp_flags [] (print_tcp_flags [v]) with Ok [w] => w =? v | _ => false end) (below 256).
Lemma flags_all : flags_ok = true.
Proof. vm_compute. reflexivity. Qed.
Lemma back_flags : back parse_tcp_flags print_tcp_flags.
Proof.
  intros old raw r H. unfold parse_tcp_flags in H. destruct (flags_of (tokens (length raw) 44 raw) 0) as [f|] eqn:E; [|discriminate]. apply Ok_inj in H. subst r.
  exists [f]. split; [reflexivity|]. split; [intros o; unfold parse_tcp_flags; rewrite E; reflexivity|]. apply flags_of_byte in E.
  assert (P : print_tcp_flags (write old [f]) = print_tcp_flags [f]) by (unfold print_tcp_flags, write; cbn [app firstn]; reflexivity). rewrite P. intros o.
  pose proof flags_all as K. unfold flags_ok in K. rewrite forallb_forall in K. specialize (K f (below_in _ _ E)).
  unfold parse_tcp_flags in K |- *. destruct (flags_of (tokens (length (print_tcp_flags [f])) 44 (print_tcp_flags [f])) 0) as [w|]; [|discriminate K]. cbn [write app] in K.
  destruct (skipn (length [w]) []); [|discriminate K]. apply N.eqb_eq in K. subst w. reflexivity.
Qed.

Definition is_percent (t : mtype) : bool := match t with M_PROBABILITY | M_FLOW_PROBABILITY => true | _ => false end.
Lemma back_all pe se t o p pr : penv_ok pe -> consistent pe se -> is_percent t = false -> parser_of pe t o = Some p -> print_of se t o = Some pr -> back p pr.
Proof.
  intros P C T A B. destruct named_all as (N1 & N2 & N3 & N4 & N5).
  destruct t; try discriminate T; destruct o; try discriminate A; cbn in A, B; injection A as <-; injection B as <-;
    first [ exact (back_iface _ _ C) | exact back_l3 | exact (back_named ipproto_strs 255 (N.le_refl _) N1)
          | exact (back_named icmp_strs 255 (N.le_refl _) N2) | exact (back_named icmpv6_strs 255 (N.le_refl _) N3)
          | apply (back_named dscp_strs 63 ltac:(lia) N4) | exact (back_named [] 255 (N.le_refl _) N5)
          | exact back_port | exact back_port_range | exact back_mark | exact back_u32 | exact back_u32_range
          | exact back_ipv4 | exact back_net4 | exact (back_ipv6 _ _ P C) | exact (back_net6 _ _ P C) | exact back_flags ].
Qed.
Lemma printer_there pe se t o p : parser_of pe t o = Some p -> exists pr, print_of se t o = Some pr.
Proof. destruct t, o; try discriminate; eexists; reflexivity. Qed.
