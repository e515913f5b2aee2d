(** Number, name, mark, interface and IPv6 network parsers (proofs only). *)
From Coq Require Import String NArith ZArith List Bool Arith Lia.
From Verif Require Import Bytes Types GenModel World PktSpec BytesFacts Wf StrModel StrSpec EnumModel EnumFacts ParseModel ParseSpec ParseFacts ParseFacts2.
Import ListNotations.
Local Open Scope list_scope.
Local Open Scope N_scope.
Local Open Scope res_scope.

(** In base 16, decimal digits are worth at least as much. *)
Lemma digits16_ge s : forall a b, (forall c, In c s -> 48 <= c <= 57) -> a <= b ->
  exists v, digits 16 b s = (v, []) /\ fold_left (fun a c => a * 10 + (c - 48)) s a <= v.
Proof.
  induction s as [|c s IH]; intros a b Hd Hab; cbn [digits fold_left]; [eauto|].
  assert (48 <= c <= 57) as Hc by (apply Hd; now left).
  unfold digit_in, digit_val. replace (isdigit c) with true by (symmetry; now apply isdigit_iff).
  replace (c - 48 <? 16) with true by (symmetry; apply N.ltb_lt; lia).
  apply IH; [intros; apply Hd; now right|]. lia.
Qed.

Lemma strtoul16_decimal s v : decimal s v -> two64 <= v -> strtoul 16 s = (two64 - 1, [], true).
Proof.
  intros (Hne & Hd & ->) Hv. unfold strtoul, scan. destruct s as [|c s]; [congruence|].
  assert (48 <= c <= 57) as Hc by (apply Hd; now left).
  rewrite skip_space_digit, sign_of_digit by auto.
  assert (HP : hex_prefix (c :: s) = None).
  { unfold hex_prefix. destruct (N.eq_dec c 48) as [->|]; [|destruct c as [|p]; [reflexivity|]; repeat (destruct p; try reflexivity); congruence].
    destruct s as [|x s]; [reflexivity|]. assert (48 <= x <= 57) by (apply Hd; right; now left).
    replace (x =? 120) with false by (symmetry; apply N.eqb_neq; lia). replace (x =? 88) with false by (symmetry; apply N.eqb_neq; lia). reflexivity. }
  unfold base_of. cbn [N.eqb Pos.eqb]. rewrite HP.
  assert (SD : starts_digit 16 (c :: s) = true).
  { unfold starts_digit, digit_in, digit_val. replace (isdigit c) with true by (symmetry; now apply isdigit_iff).
    replace (c - 48 <? 16) with true by (symmetry; apply N.ltb_lt; lia). reflexivity. }
  rewrite SD. destruct (digits16_ge (c :: s) 0 0 Hd (N.le_refl 0)) as (x & -> & Hx).
  unfold dec_value in Hv. replace (two64 <=? x) with true by (symmetry; apply N.leb_le; lia). reflexivity.
Qed.

Lemma strtoul2_decimal s v : decimal s v -> strtoul2 s = if two64 <=? v then Er EINVAL else Ok v.
Proof.
  intros H. unfold strtoul2. destruct s as [|c s]; [destruct H; congruence|].
  rewrite (strtoul_all _ _ H). destruct (N.leb_spec two64 v) as [L|L]; [|reflexivity].
  rewrite (strtoul16_decimal _ _ H L). reflexivity.
Qed.

Lemma bounded_decimal max s v : decimal s v -> max < two64 -> bounded max (strtoul2 s) = if v <=? max then Ok v else Er EINVAL.
Proof.
  intros H Hm. unfold bounded. rewrite (strtoul2_decimal _ _ H). destruct (N.leb_spec two64 v) as [L|L]; cbn [bind]; [|reflexivity].
  destruct (N.leb_spec v max); [lia|reflexivity].
Qed.

(** No name starts with a digit. *)
Definition alpha_names (t : table) : bool := forallb (fun x => match snd x with c :: _ => isalpha c | [] => false end) t.
Lemma tolower_digit c : 48 <= c <= 57 -> tolower c = c.
Proof. intros H. unfold tolower, isupper. replace (65 <=? c) with false by (symmetry; apply N.leb_gt; lia). reflexivity. Qed.
Lemma tolower_alpha c : isalpha c = true -> 57 < tolower c.
Proof.
  unfold isalpha, islower, isupper, tolower, isupper. intros H. destruct ((65 <=? c) && (c <=? 90)) eqn:E.
  - apply andb_true_iff in E as [E1 E2]. apply N.leb_le in E1, E2. lia.
  - rewrite ?orb_false_l, ?orb_false_r in H. apply andb_true_iff in H as [H1 H2]; apply N.leb_le in H1, H2; lia.
Qed.
Lemma decimal_no_name t s v : decimal s v -> alpha_names t = true -> from_str streq_i t s = Er EINVAL.
Proof.
  intros (Hne & Hd & _) Ha. induction t as [|(w, n) t IH]; [reflexivity|]. cbn [alpha_names forallb snd] in Ha. apply andb_true_iff in Ha as [A B].
  cbn [from_str]. destruct (streq_i n s) eqn:E; [|apply IH; exact B]. exfalso. apply streq_i_iff in E.
  destruct n as [|c n]; [discriminate|]. destruct s as [|d s]; [congruence|]. cbn [map] in E. injection E as E _.
  assert (48 <= d <= 57) as Hc by (apply Hd; now left). rewrite (tolower_digit d Hc) in E. pose proof (tolower_alpha c A). lia.
Qed.

Lemma from_str_same t s s' : same_letters s s' -> from_str streq_i t s = from_str streq_i t s'.
Proof.
  intros H. induction t as [|(w, n) t IH]; [reflexivity|]. cbn [from_str]. rewrite IH.
  replace (streq_i n s) with (streq_i n s'); [reflexivity|]. unfold streq_i. unfold same_letters in H. change lower with tolower in H. now rewrite H.
Qed.

(** ** The number parsers. *)
Definition width (t : mtype) : nat := match t with M_FLOW_HASH => 4 | M_L3_PROTO => 2 | _ => 1 end.
Definition table_of (t : mtype) : table :=
  match t with
  | M_L3_PROTO => ethertype_strs
  | M_L4_PROTO | M_IP4_PROTO | M_IP6_NEXTHDR => ipproto_strs
  | M_IP4_DSCP | M_IP6_DSCP => dscp_strs
  | M_ICMP_TYPE => icmp_strs
  | M_ICMPV6_TYPE => icmpv6_strs
  | _ => []
  end.

Lemma bind_r {A B} (r : res A) (f : A -> B) (c : bool) v e : r = (if c then Ok v else Er e) ->
  (x <- r ; Ok (f x)) = if c then Ok (f v) else Er e.
Proof. intros ->. destruct c; reflexivity. Qed.

Lemma parser_number pe t max : number_max t = Some max -> exists p, parser_of pe t OP_EQ = Some p /\
  forall old s, p old s = match from_str streq_i (table_of t) s with
                          | Ok v => Ok (write old (if (width t =? 1)%nat then [v] else le_enc (width t) v))
                          | Er _ => v <- bounded max (strtoul2 s) ; Ok (write old (if (width t =? 1)%nat then [v] else le_enc (width t) v))
                          end.
Proof. intros H. destruct t; try discriminate; injection H as <-; eexists; (split; [reflexivity|]); intros; reflexivity. Qed.

Lemma le_enc1 v : v <= 255 -> le_enc 1 v = [v].
Proof. intros H. cbn [le_enc]. rewrite N.mod_small by lia. reflexivity. Qed.

Lemma new_number pe h t max s neg : number_max t = Some max -> exists n, ops_size t OP_EQ = Some n /\
  matcher_new_from_raw pe (Some h) t OP_EQ s neg =
    match from_str streq_i (table_of t) s with
    | Ok v => Ok (mkM t OP_EQ neg (write (firstn n h) (if (width t =? 1)%nat then [v] else le_enc (width t) v)))
    | Er _ => v <- bounded max (strtoul2 s) ; Ok (mkM t OP_EQ neg (write (firstn n h) (if (width t =? 1)%nat then [v] else le_enc (width t) v)))
    end.
Proof.
  intros H. destruct (parser_number pe t max H) as (p & P & E).
  assert (S : exists n, ops_size t OP_EQ = Some n) by (destruct t; try discriminate; eexists; reflexivity). destruct S as [n S].
  exists n. split; [exact S|]. unfold matcher_new_from_raw. rewrite P, S, E.
  destruct (from_str streq_i (table_of t) s); cbn [bind]; [reflexivity|].
  destruct (bounded max (strtoul2 s)); reflexivity.
Qed.

(** What the stored number selects. *)
Lemma cond_number D vw w sets t max n h v neg : number_max t = Some max -> v <= max -> ops_size t OP_EQ = Some n ->
  (one_byte t -> length (fld vw t) = 1%nat) ->
  cond D vw w sets (mkM t OP_EQ neg (write (firstn n h) (if (width t =? 1)%nat then [v] else le_enc (width t) v))) = number_is vw t v.
Proof.
  intros H Hv S L.
  assert (L1 : forall x, length x = 1%nat -> bytes_eqb x [v] = (be_dec x =? v)).
  { intros x Hx. destruct x as [|a [|]]; try discriminate. cbn [bytes_eqb]. rewrite andb_true_r. unfold be_dec. cbn [be_acc]. rewrite N.mul_0_l, N.add_0_l. reflexivity. }
  unfold one_byte in L.
  destruct t; try discriminate H; injection H as <-; cbn [ops_size] in S; injection S as <-;
    unfold write; cbn [width Nat.eqb le_enc length app]; rewrite ?heap_skip; unfold cond; cbn [m_type m_op m_pay number_is byte_at nth];
    try reflexivity.
  all: try (apply L1, L; cbn; tauto).
  all: cbn [app le_dec].
  all: try (rewrite !N.mul_0_r, !N.add_0_r; reflexivity).
  - (* l3 *) f_equal. pose proof (N.div_mod v 256 ltac:(discriminate)).
    assert (v / 256 < 256) by (apply N.div_lt_upper_bound; lia). rewrite (N.mod_small (v / 256)) by auto. lia.
  - (* flow hash *) f_equal. change (v mod 256 + 256 * ((v / 256) mod 256 + 256 * ((v / 256 / 256) mod 256 + 256 * ((v / 256 / 256 / 256) mod 256 + 256 * 0)))) with (le_dec (le_enc 4 v)).
    apply le_enc4_dec. unfold two32. lia.
Qed.

Lemma number_decimal pe h t max s v neg : number_max t = Some max -> decimal s v ->
  (max < v -> matcher_new_from_raw pe (Some h) t OP_EQ s neg = Er EINVAL) /\
  (v <= max -> exists m, matcher_new_from_raw pe (Some h) t OP_EQ s neg = Ok m /\ m_type m = t /\ m_neg m = neg /\
     forall D vw w sets, (one_byte t -> length (fld vw t) = 1%nat) -> (cond D vw w sets m = true <-> number_is vw t v = true)).
Proof.
  intros H Hd. destruct (new_number pe h t max s neg H) as (n & S & E).
  rewrite E, (decimal_no_name _ _ _ Hd) by (destruct t; reflexivity).
  assert (B : max < two64) by (destruct t; try discriminate H; injection H as <-; reflexivity).
  rewrite (bounded_decimal _ _ _ Hd B). split; intros Hv.
  - replace (v <=? max) with false by (symmetry; now apply N.leb_gt). reflexivity.
  - replace (v <=? max) with true by (symmetry; now apply N.leb_le). cbn [bind].
    eexists. split; [reflexivity|]. split; [reflexivity|]. split; [reflexivity|]. intros D vw w sets L.
    rewrite (cond_number D vw w sets t max n h v neg H Hv S L). reflexivity.
Qed.

Lemma number_accepted pe h t max s neg m : number_max t = Some max -> matcher_new_from_raw pe (Some h) t OP_EQ s neg = Ok m ->
  exists v, v <= max /\ m_type m = t /\ m_neg m = neg /\
    forall D vw w sets, (one_byte t -> length (fld vw t) = 1%nat) -> (cond D vw w sets m = true <-> number_is vw t v = true).
Proof.
  intros H. destruct (new_number pe h t max s neg H) as (n & S & ->). intros E.
  assert (X : exists v, v <= max /\ m = mkM t OP_EQ neg (write (firstn n h) (if (width t =? 1)%nat then [v] else le_enc (width t) v))).
  { destruct (from_str streq_i (table_of t) s) as [v|] eqn:F.
    - exists v. split; [|congruence]. apply from_str_in in F as (x & I & _).
      assert (A : forallb (fun x => fst x <=? max) (table_of t) = true) by (destruct t; try discriminate H; injection H as <-; reflexivity).
      rewrite forallb_forall in A. apply A in I. now apply N.leb_le in I.
    - destruct (bounded max (strtoul2 s)) as [v|] eqn:Bd; [|discriminate E]. cbn [bind] in E. apply bounded_inv in Bd. exists v. split; [exact Bd|congruence]. }
  destruct X as (v & Hv & ->). exists v. split; [exact Hv|]. split; [reflexivity|]. split; [reflexivity|]. intros D vw w sets L.
  rewrite (cond_number D vw w sets t max n h v neg H Hv S L). reflexivity.
Qed.

Lemma names_in_table t name v : In (name, v) (names_of t) -> from_str streq_i (table_of t) (lit name) = Ok v /\ exists max, number_max t = Some max /\ v <= max.
Proof.
  intros I. destruct t; cbn [names_of In] in I; try contradiction;
    repeat (destruct I as [I|I]; [injection I as <- <-; split; [reflexivity|eexists; split; [reflexivity|vm_compute; discriminate]]|]); contradiction.
Qed.

Lemma number_named pe h t name v s neg : In (name, v) (names_of t) -> same_letters s (lit name) ->
  exists m, matcher_new_from_raw pe (Some h) t OP_EQ s neg = Ok m /\ m_type m = t /\ m_neg m = neg /\
     forall D vw w sets, (one_byte t -> length (fld vw t) = 1%nat) -> (cond D vw w sets m = true <-> number_is vw t v = true).
Proof.
  intros I Hs. destruct (names_in_table _ _ _ I) as (F & max & H & Hv).
  destruct (new_number pe h t max s neg H) as (n & S & ->). rewrite (from_str_same _ _ _ Hs), F.
  eexists. split; [reflexivity|]. split; [reflexivity|]. split; [reflexivity|]. intros D vw w sets L.
  rewrite (cond_number D vw w sets t max n h v neg H Hv S L). reflexivity.
Qed.

(** ** Marks. *)
Lemma scan0_decimal s v : decimal s v -> (forall r, s = 48 :: r -> r = []) -> scan 0 s = Some (false, v, []) /\ scan 0 (45 :: s) = Some (true, v, []).
Proof.
  intros Hd Hz. pose proof Hd as (Hne & Hc & ->). destruct s as [|c s]; [congruence|].
  assert (48 <= c <= 57) as Hc0 by (apply Hc; now left).
  assert (X : forall neg : bool, (let '(b, s2) := base_of 0 (c :: s) in if starts_digit b s2 then let '(v, rest) := digits b 0 s2 in Some (neg, v, rest) else None) = Some (neg, dec_value (c :: s), [])).
  { intros neg. destruct (N.eq_dec c 48) as [->|N48].
    - rewrite (Hz s eq_refl). reflexivity.
    - assert (HP : hex_prefix (c :: s) = None) by (unfold hex_prefix; destruct c as [|p]; [reflexivity|]; repeat (destruct p; try reflexivity); congruence).
      assert (E10 : base_of 0 (c :: s) = (10, c :: s)).
      { unfold base_of. change (0 =? 10) with false. change (0 =? 16) with false. cbv iota. rewrite HP.
        destruct c as [|p]; [reflexivity|]; repeat (destruct p; try reflexivity); congruence. }
      rewrite E10. cbn [starts_digit]. rewrite digit_in_10. replace (isdigit c) with true by (symmetry; now apply isdigit_iff).
      pose proof (digits_app (c :: s) [] 0 Hc Logic.I) as E. rewrite app_nil_r in E. rewrite E. reflexivity. }
  unfold scan. split.
  - rewrite skip_space_digit, sign_of_digit by auto. apply X.
  - change (skip_space (45 :: c :: s)) with (45 :: c :: s). change (sign_of (45 :: c :: s)) with (true, c :: s). apply X.
Qed.

Lemma new_mark pe h s v neg : decimal s v -> (forall r, s = 48 :: r -> r = []) ->
  matcher_new_from_raw pe (Some h) M_MARK OP_EQ s neg = (if v <? two32 then Ok (mkM M_MARK OP_EQ neg (le_enc 4 v)) else Er EINVAL) /\
  (0 < v -> matcher_new_from_raw pe (Some h) M_MARK OP_EQ (45 :: s) neg = Er EINVAL).
Proof.
  intros Hd Hz. destruct (scan0_decimal s v Hd Hz) as [A B].
  cbn [matcher_new_from_raw parser_of ops_size]. unfold parse_mark, strtoll. rewrite A, B. split.
  - cbn [andb]. destruct (N.ltb_spec v two32) as [L|L].
    + assert (M : N.min v (two64 / 2 - 1) = v) by (apply N.min_l; unfold two32 in L; change (two64 / 2 - 1) with 9223372036854775807; lia).
      rewrite M. replace (two32 - 1 <? v) with false by (symmetry; apply N.ltb_ge; lia). cbn [bind]. unfold write.
      rewrite le_enc_length, heap_skip, app_nil_r. reflexivity.
    + replace (two32 - 1 <? _) with true; [reflexivity|]. symmetry. apply N.ltb_lt.
      change (two64 / 2 - 1) with 9223372036854775807. unfold two32 in *. lia.
  - intros P. replace (0 <? N.min v (two64 / 2)) with true; [reflexivity|]. symmetry. apply N.ltb_lt. change (two64 / 2) with 9223372036854775808. lia.
Qed.

(** ** Interfaces. *)
Lemma new_iface_name pe h s i neg : pe_ifindex pe s = i -> 0 < i < two31 ->
  matcher_new_from_raw pe (Some h) M_IFACE OP_EQ s neg = Ok (mkM M_IFACE OP_EQ neg (le_enc 4 i)).
Proof.
  intros <- [A B]. cbn [matcher_new_from_raw parser_of ops_size]. unfold parse_iface.
  replace (0 <? pe_ifindex pe s) with true by (symmetry; now apply N.ltb_lt). replace (pe_ifindex pe s <? two31) with true by (symmetry; now apply N.ltb_lt).
  cbn [andb bind]. unfold write. rewrite le_enc_length, heap_skip, app_nil_r. reflexivity.
Qed.

Lemma new_iface_number pe h s v neg : pe_ifindex pe s = 0 -> decimal s v ->
  matcher_new_from_raw pe (Some h) M_IFACE OP_EQ s neg = if (0 <? v) && (v <? two32) then Ok (mkM M_IFACE OP_EQ neg (le_enc 4 v)) else Er EINVAL.
Proof.
  intros Z Hd. cbn [matcher_new_from_raw parser_of ops_size]. unfold parse_iface. rewrite Z. cbn [N.ltb N.compare andb].
  rewrite (strtoul_all _ _ Hd). destruct (N.leb_spec two64 v) as [L|L].
  - replace (v <? two32) with false; [rewrite andb_false_r; reflexivity|]. symmetry. apply N.ltb_ge. unfold two32, two64 in *. lia.
  - destruct ((0 <? v) && (v <? two32)); [|reflexivity]. cbn [bind]. unfold write. rewrite le_enc_length, heap_skip, app_nil_r. reflexivity.
Qed.

(** ** Ranges of flow hashes. *)
Lemma new_u32_range pe h sa a sb b neg : decimal sa a -> decimal sb b -> (length sa + length sb <= 30)%nat ->
  matcher_new_from_raw pe (Some h) M_FLOW_HASH OP_RANGE (sa ++ DASH :: sb) neg =
    if (a <=? b) && (b <? two32) then Ok (mkM M_FLOW_HASH OP_RANGE neg (le_enc 4 a ++ le_enc 4 b)) else Er EINVAL.
Proof.
  intros Ha Hb Hl. cbn [matcher_new_from_raw parser_of ops_size]. unfold parse_u32_range.
  rewrite (decimal_first _ _ (DASH :: sb) Ha). cbn [negb]. unfold truncated. rewrite (@firstn_all2 N (32 - 1)) by (rewrite app_length; cbn [length Nat.sub]; lia).
  change 45 with DASH at 1. rewrite (strtok_app DASH sa sb); [|apply Ha|apply (decimal_no DASH sa a Ha); unfold DASH; lia].
  destruct sb as [|x sb]; [destruct Hb; congruence|].
  rewrite (bounded_decimal _ _ _ Ha), (bounded_decimal _ _ _ Hb) by reflexivity.
  assert (E : forall y, (y <=? two32 - 1) = (y <? two32)).
  { intros y. destruct (N.ltb_spec y two32), (N.leb_spec y (two32 - 1)); try reflexivity; unfold two32 in *; lia. }
  rewrite !E. destruct (N.ltb_spec b two32) as [L|L]; destruct (N.ltb_spec a two32) as [L2|L2]; cbn [bind]; rewrite ?andb_false_r; try reflexivity.
  - rewrite andb_true_r. destruct (N.leb_spec a b) as [M|M].
    + replace (b <? a) with false by (symmetry; now apply N.ltb_ge). cbn [bind]. unfold write. rewrite app_length, !le_enc_length, heap_skip, app_nil_r. reflexivity.
    + replace (b <? a) with true by (symmetry; now apply N.ltb_lt). reflexivity.
  - replace (a <=? b) with false by (symmetry; apply N.leb_gt; lia). reflexivity.
Qed.

Lemma cond_u32_range D vw w sets a b neg : a < two32 -> b < two32 ->
  cond D vw w sets (mkM M_FLOW_HASH OP_RANGE neg (le_enc 4 a ++ le_enc 4 b)) = (a <=? v_hash vw) && (v_hash vw <=? b).
Proof.
  intros A B. unfold cond. cbn [m_type m_op m_pay]. unfold in_range.
  change (sub (le_enc 4 a ++ le_enc 4 b) 0 4) with (le_enc 4 a). change (sub (le_enc 4 a ++ le_enc 4 b) 4 4) with (le_enc 4 b).
  rewrite !le_enc4_dec by auto. reflexivity.
Qed.

(** ** IPv6 networks. *)
Lemma new_net6 pe h t sa a sn n neg : In t [M_IP6_SNET; M_IP6_DNET] -> pe_pton6 pe sa = Some a -> length a = 16%nat ->
  (exists c r, sa = c :: r /\ (isalpha c || isdigit c || (c =? 58)) = true) -> ~ In SLASH sa -> decimal sn n -> n < two32 ->
  (length sa + length sn <= 48)%nat ->
  matcher_new_from_raw pe (Some h) t OP_EQ (sa ++ SLASH :: sn) neg =
    if n <=? 128 then Ok (mkM t OP_EQ neg (le_enc 4 n ++ a ++ skipn 20 (firstn 24 h))) else Er EINVAL.
Proof.
  intros Ht Ha La (c & r & -> & Hc) Hs Hn Hb Hl.
  assert (matcher_new_from_raw pe (Some h) t OP_EQ ((c :: r) ++ SLASH :: sn) neg = (pay <- parse_ipv6_net pe (firstn 24 h) ((c :: r) ++ SLASH :: sn) ; Ok (mkM t OP_EQ neg pay))) as ->.
  { destruct Ht as [<-|[<-|[]]]; reflexivity. }
  unfold parse_ipv6_net. cbn [app first_char]. rewrite Hc. change (c :: r ++ SLASH :: sn) with ((c :: r) ++ SLASH :: sn).
  unfold truncated. rewrite (@firstn_all2 N (50 - 1)) by (rewrite app_length; cbn [length Nat.sub] in *; lia).
  rewrite (parse_net_ok _ _ _ _ a _ n) by (auto; discriminate).
  destruct (n <=? 128); cbn [bind]; auto. unfold write. rewrite app_length, le_enc_length, La, <- app_assoc. reflexivity.
Qed.

Lemma cond_net6 D vw w sets t a n neg pad : In t [M_IP6_SNET; M_IP6_DNET] -> length a = 16%nat -> n <= 128 ->
  length (fld vw t) = 16%nat ->
  cond D vw w sets (mkM t OP_EQ neg (le_enc 4 n ++ a ++ pad)) = (be_dec (fld vw t) / 2 ^ (128 - n) =? be_dec a / 2 ^ (128 - n)).
Proof.
  intros Ht La Hn Lf.
  assert (cond D vw w sets (mkM t OP_EQ neg (le_enc 4 n ++ a ++ pad)) = in_net (le_dec (le_enc 4 n)) (firstn (length (fld vw t)) (a ++ pad)) (fld vw t)) as ->.
  { destruct Ht as [<-|[<-|[]]]; reflexivity. }
  rewrite le_enc4_dec by (unfold two32; lia). rewrite Lf, <- La, firstn_app, firstn_all, Nat.sub_diag. cbn [firstn]. rewrite app_nil_r.
  unfold in_net. rewrite La. reflexivity.
Qed.
