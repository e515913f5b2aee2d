(** C61: what bfcli shows can be written. *)
From Coq Require Import String NArith ZArith List Bool Arith Lia.
From Verif Require Import Bytes Types GenModel BytesFacts StrModel StrSpec EnumModel ParseModel ParseSpec ParseFacts ParseFacts2 ParseFacts3 HashModel SetModel SetSpec SetApiFacts SetApiFacts2 PackSpec NewFacts PackFacts5
  HookModel SetTextModel SetTextSpec SetTextFacts RateModel RateFacts RulesTextModel PrintModel PrintSpec PrintFacts PrintFacts2 PrintFacts3 PercentModel PropsParse PropsSetText.
Import ListNotations.
Local Open Scope string_scope.
Local Open Scope list_scope.
Local Open Scope N_scope.
Local Open Scope res_scope.

(** The value of a matcher that was read from a text is shown as a text that reads the
    same (whatever memory the matcher gets).  Missing: percentages
    ([C61_percent_partial], [C61_percent_refuted]). *)
Theorem C61_value_partial : forall pe se heap t o raw neg m, penv_ok pe -> consistent pe se ->
  t <> M_PROBABILITY -> t <> M_FLOW_PROBABILITY ->
  matcher_new_from_raw pe (Some heap) t o raw neg = Ok m ->
  exists print, print_of se t o = Some print /\ forall heap',
    matcher_new_from_raw pe (Some heap') t o (print (m_pay m)) neg = matcher_new_from_raw pe (Some heap') t o raw neg /\
    exists m', matcher_new_from_raw pe (Some heap') t o raw neg = Ok m'.
Proof.
  intros pe se heap t o raw neg m P C T1 T2 H. unfold matcher_new_from_raw in *. destruct (parser_of pe t o) as [p|] eqn:A; [|discriminate].
  destruct (ops_size t o) as [n|]; [|discriminate]. binv H. apply Ok_inj in H. subst m. destruct (printer_there pe se _ _ _ A) as (pr & B).
  assert (NP : is_percent t = false) by (destruct t; try reflexivity; congruence).
  destruct (back_all _ _ _ _ _ _ P C NP A B _ _ _ E) as (v & _ & R1 & R2). exists pr. split; [exact B|]. intros heap'. cbn [m_pay]. rewrite R1, R2. split; [reflexivity|].
  eexists; reflexivity.
Qed.
Print Assumptions C61_value_partial.

(** The texts: numbers without leading zeros, addresses, names. *)
Theorem C61_texts : forall se,
  (forall t v rest, In t [M_TCP_SPORT; M_TCP_DPORT; M_UDP_SPORT; M_UDP_DPORT; M_SPORT; M_DPORT] -> v <= 65535 ->
     exists print, print_of se t OP_EQ = Some print /\ decimal (print (be16 v ++ rest)) v) /\
  (forall t a, In t [M_IP4_SADDR; M_IP4_DADDR] -> length a = 4%nat -> bytes a ->
     exists print, print_of se t OP_EQ = Some print /\ dotted (print a) a) /\
  (forall t a n, In t [M_IP4_SNET; M_IP4_DNET] -> length a = 4%nat -> bytes a -> n <= 32 ->
     exists print, print_of se t OP_EQ = Some print /\ net_text dotted (print (le_enc 4 n ++ a)) a n) /\
  (forall i name, se_ifname se i = Some name -> i < two32 -> exists print, print_of se M_IFACE OP_EQ = Some print /\ print (le_enc 4 i) = name).
Proof.
  intros se. split; [|split; [|split]].
  - intros t v rest T L.
    assert (K : decimal (print_l4_port (be16 v ++ rest)) v).
    { unfold print_l4_port. assert (Q : swap16 (le_dec (firstn 2 (be16 v ++ rest))) = v).
      { change (firstn 2 (be16 v ++ rest)) with (be16 v). rewrite <- le_enc2_swap by exact L. rewrite le2_dec by apply swap16_lt. apply swap16_invol. lia. }
      rewrite Q. apply dec_decimal. }
    exists print_l4_port. split; [|exact K]. destruct T as [ <- |[ <- |[ <- |[ <- |[ <- |[ <- |[]]]]]]]; reflexivity.
  - intros t a T L B. exists print_ipv4_addr. split; [destruct T as [ <- |[ <- |[]]]; reflexivity|]. rewrite <- (app_nil_r a) at 1. apply ntop4_dotted; assumption.
  - intros t a n T L B LN. exists print_ipv4_net. split; [destruct T as [ <- |[ <- |[]]]; reflexivity|]. unfold print_ipv4_net.
    rewrite <- (le_enc_length 4 n) at 1. rewrite skip_app. rewrite <- (le_enc_length 4 n) at 1. rewrite first_app, le_enc4_dec by (unfold two32; lia).
    exists (ntop4 a), (dec n). split; [|split]; [reflexivity|rewrite <- (app_nil_r a) at 1; apply ntop4_dotted; assumption|apply dec_decimal].
  - intros i name E L. exists (print_iface se). split; [reflexivity|]. unfold print_iface. rewrite <- (app_nil_r (le_enc 4 i)), <- (le_enc_length 4 i) at 1. rewrite first_app, le_enc4_dec by exact L. rewrite E. reflexivity.
Qed.
Print Assumptions C61_texts.

(** A set that was read from a text is shown as a key and a payload that describe the
    same set, in the same order.  Missing: IPv6 networks, whose elements have four bytes
    that no text fixes, and the empty set ([C61_empty_set_refuted]). *)
Theorem C61_set_partial : forall fuel pe se heap nd tb name raw_key payload u, penv_ok pe -> consistent pe se -> heap_ok heap ->
  set_new_from_raw fuel pe heap nd tb name raw_key payload = Ok u -> ~ In M_IP6_SNET (u_key u) -> ~ In M_IP6_DNET (u_key u) ->
  exists elems, set_read u = Ok elems /\ (elems <> [] -> forall margin close fuel' heap' nd' tb',
    let shown := set_text se margin close (u_key u) elems in
    heap_ok heap' -> (forall i, heap' i <> None) -> generous nd' tb' -> 16 + 4 * N.of_nat (length elems) < MAX_CAP -> (length shown < fuel')%nat ->
    exists u', set_new_from_raw fuel' pe heap' nd' tb' name (key_text (u_key u)) shown = Ok u' /\ same_set u' u).
Proof.
  intros fuel pe se heap nd tb name raw_key payload u P C HO H N1 N2. apply (set_shown fuel pe se heap nd tb name raw_key payload u P C HO H).
  apply Forall_forall. intros t I. split; intros ->; auto.
Qed.
Print Assumptions C61_set_partial.

(** The empty set is shown as a text that bfcli never finishes to read. *)
Theorem C61_empty_set_refuted : forall fuel pe se heap nd tb name margin close key u, good_key key -> set_new name key = Ok u ->
  (0 < close)%nat -> set_read u = Ok [] /\
  set_new_from_raw fuel pe heap nd tb name (key_text key) (set_text se margin close key []) = Er EHANG.
Proof.
  intros fuel pe se heap nd tb name margin close key u G U L. split.
  - destruct (set_new_result _ _ _ U) as (_ & _ & _ & _ & R). exact R.
  - assert (K : exists texts, key_names texts key /\ texts <> []).
    { destruct G as ((G1 & _) & G2 & _). clear U. assert (X : forall l, (forall t, In t l -> set_capable t) -> exists texts, key_names texts l).
      { induction l as [|t l IH]; intros Q; [exists []; constructor|]. destruct IH as (ts & IH); [intros x I; apply Q; right; exact I|].
        assert (N : exists w, mtype_to_str t = Some w) by (specialize (Q t (or_introl eq_refl)); unfold set_capable in Q; destruct t; try (cbn in Q; congruence); eexists; reflexivity).
        destruct N as (w & N). exists (w :: ts). constructor; assumption. }
      destruct (X key G2) as (texts & X2). exists texts. split; [exact X2|]. intros ->. inversion X2; subst. cbn in G1. lia. }
    destruct K as (texts & K & N). apply (from_raw_hangs pe heap nd tb name _ _ key (repeat 32 close) [] (shown_key _ _ K N) G); [|apply strip_blank].
    unfold set_text. cbn [map concat app]. change (lit "{") with [123]. cbn [app]. change (123 :: 10 :: repeat 32 close ++ lit "}") with ([123; 10] ++ repeat 32 close ++ lit "}").
    rewrite pieces_sep by (repeat constructor). pose proof (set_pieces [] 0 close (Forall_nil _)) as Q. cbn [map concat app] in Q. rewrite Q.
    destruct close; [lia|reflexivity].
Qed.
Print Assumptions C61_empty_set_refuted.

(** An interface that has no name is shown by its number, and read as the interface that
    has this number for a name: [co_number] can not be left out of [consistent]. *)
Theorem C61_interface_number_refuted : exists pe se, penv_ok pe /\
  (forall i n, se_ifname se i = Some n -> 0 < i < two31 /\ pe_ifindex pe n = i) /\ (forall n, 0 < pe_ifindex pe n -> se_ifname se (pe_ifindex pe n) = Some n) /\
  exists m print, matcher_new_from_raw pe (Some [0;0;0;0]) M_IFACE OP_EQ (lit "07") false = Ok m /\ le_dec (m_pay m) = 7 /\
    print_of se M_IFACE OP_EQ = Some print /\
    exists m', matcher_new_from_raw pe (Some [0;0;0;0]) M_IFACE OP_EQ (print (m_pay m)) false = Ok m' /\ le_dec (m_pay m') = 9.
Proof.
  exists (mkPE (fun s => if streq s (lit "7") then 9 else 0) (fun _ => None) (fun _ => None)),
         (mkSE (fun i => if i =? 9 then Some (lit "7") else None) (fun _ => None) (fun _ => [])).
  split; [split; intros ? ?; discriminate|]. cbn [se_ifname pe_ifindex]. split; [|split].
  - intros i n H. destruct (N.eqb_spec i 9) as [ -> |]; [|discriminate]. injection H as <-. split; [unfold two31; lia|reflexivity].
  - intros n H. destruct (streq n (lit "7")) eqn:E; [|lia]. apply bytes_eqb_eq in E. subst n. reflexivity.
  - eexists. eexists. split; [vm_compute; reflexivity|]. split; [reflexivity|]. split; [reflexivity|]. eexists. split; vm_compute; reflexivity.
Qed.
Print Assumptions C61_interface_number_refuted.

(** *** Rules *)
(** The time of "log every", below 2^52 ns. *)
Theorem C61_rate_partial : forall r, 0 < r < 2 ^ 52 -> parse_log_rate (rate_text r) = Ok r /\
  exists n u k, rate_text r = dec n ++ lit u /\ decimal (dec n) n /\ In (u, k) [("ns", 1); ("us", 1000); ("ms", 1000000); ("s", 1000000000)] /\ n * k = r.
Proof.
  intros r (R0 & R1). unfold rate_text.
  assert (K : forall u k, In (u, k) units -> r mod k = 0 -> 0 < k -> parse_log_rate (dec (r / k) ++ lit u) = Ok r /\
              exists n u' k', dec (r / k) ++ lit u = dec n ++ lit u' /\ decimal (dec n) n /\ In (u', k') units /\ n * k' = r).
  { intros u k U Z KP. assert (E : r / k * k = r) by (pose proof (N.div_mod r k ltac:(lia)); lia).
    split; [|exists (r / k), u, k; split; [reflexivity|split; [apply dec_decimal|split; assumption]]].
    rewrite (rate_whole (dec (r / k)) (r / k) u k (proj1 (dec_decimal _)) U); [f_equal; exact E| |lia].
    apply N.neq_0_lt_0. intros Q. rewrite Q in E. lia. }
  destruct (N.eqb_spec (r mod 1000000000) 0) as [E|_]; [apply (K "s"); [cbn; auto|exact E|lia]|].
  destruct (N.eqb_spec (r mod 1000000) 0) as [E|_]; [apply (K "ms"); [cbn; auto|exact E|lia]|].
  destruct (N.eqb_spec (r mod 1000) 0) as [E|_]; [apply (K "us"); [cbn; auto|exact E|lia]|].
  pose proof (K "ns" 1 (or_introl eq_refl) (N.mod_1_r r) ltac:(lia)) as Q. rewrite N.div_1_r in Q. exact Q.
Qed.
Print Assumptions C61_rate_partial.
(** "mark". *)
Theorem C61_mark : forall v, v < two32 -> mark_of (mark_text v) = Ok v.
Proof.
  intros v L. unfold mark_of, strtoll, mark_text. pose proof (scan_hex 0 (hex v) v [] (or_introl eq_refl) (hex_hexadecimal v) Logic.I) as S. rewrite app_nil_r in S. rewrite S. cbn [andb].
  assert (M : N.min v (two64 / 2 - 1) = v) by (apply N.min_l; change (two64 / 2 - 1) with 9223372036854775807; unfold two32 in *; lia). rewrite M.
  replace (two32 - 1 <? v) with false; [reflexivity|]. symmetry. apply N.ltb_ge. unfold two32 in *. lia.
Qed.
Print Assumptions C61_mark.
(** The headers of "log": words separated by commas. *)
Fixpoint commas (ws : list cstr) : list token := match ws with [] => [] | [w] => [T_STRING w] | w :: r => T_STRING w :: T_COMMA :: commas r end.
Theorem C61_headers : forall log rest, 0 < log < 8 -> (forall r, rest <> T_COMMA :: r) ->
  forall fuel, (3 <= fuel)%nat -> p_headers fuel (commas (pieces comp_sep (headers_text 3 0 log)) ++ rest) = Ok (log, rest).
Proof.
  intros log rest L C fuel F. destruct fuel as [|[|[|f]]]; try lia. clear F.
  assert (X : In log [1; 2; 3; 4; 5; 6; 7]) by (cbn; lia).
  assert (H : forall x, match rest with T_COMMA :: r1 => b <- p_headers f r1 ; Ok (N.lor (2 ^ x) (fst b), snd b) | _ => Ok (2 ^ x, rest) end = Ok (2 ^ x, rest))
    by (intros x; destruct rest as [|[] r]; try reflexivity; exfalso; exact (C r eq_refl)).
  destruct rest as [|c r]; [|destruct c]; repeat (destruct X as [ <- |X]; [try reflexivity; exfalso; exact (C r eq_refl)|]); destruct X.
Qed.
Print Assumptions C61_headers.
(** "REDIRECT": an interface that no other interface has the number of for a name. *)
Theorem C61_redirect : forall pe i, 0 < i < two32 -> pe_ifindex pe (dec i) = 0 -> if_index pe (dec i) = Ok i.
Proof.
  intros pe i L Z. unfold if_index. rewrite Z. cbn [N.ltb N.compare andb]. rewrite (strtoul_all _ _ (proj1 (dec_decimal i))).
  replace (two64 <=? i) with false by (symmetry; apply N.leb_gt; unfold two32, two64 in *; lia). replace ((0 <? i) && (i <? two32)) with true; [reflexivity|].
  symmetry. apply andb_true_iff. rewrite !N.ltb_lt. lia.
Qed.
Print Assumptions C61_redirect.

(** *** Percentages *)
Definition percent_text_2 (n : N) : cstr := dec (n / 100) ++ lit "." ++ pad 2 (dec (n mod 100)) ++ lit "%".
(** Up to two decimals, a probability is shown as a text that reads the same; a whole one
    as it is.  Missing: more decimals, see below. *)
Theorem C61_percent_partial :
  (forall n, n <= 100 -> exists f, percent_of (dec n ++ lit "%") = Some f /\ percent_text f = dec n ++ lit "%") /\
  (forall n, n <= 10000 -> exists f, percent_of (percent_text_2 n) = Some f /\ percent_of (percent_text f) = Some f).
Proof.
  assert (A : forallb (fun n => match percent_of (dec n ++ lit "%") with Some f => streq (percent_text f) (dec n ++ lit "%") | None => false end) (below 101) = true)
    by (vm_compute; reflexivity).
  assert (B : forallb (fun n => match percent_of (percent_text_2 n) with Some f => match percent_of (percent_text f) with Some g => bytes_eqb g f | None => false end | None => false end)
                (below 10001) = true) by (vm_compute; reflexivity).
  rewrite forallb_forall in A, B. split; intros n L.
  - specialize (A n (below_in 101 n ltac:(lia))). destruct (percent_of (dec n ++ lit "%")) as [f|]; [|discriminate A]. exists f. split; [reflexivity|]. apply bytes_eqb_eq. exact A.
  - specialize (B n (below_in 10001 n ltac:(lia))). destruct (percent_of (percent_text_2 n)) as [f|]; [|discriminate B]. exists f. split; [reflexivity|].
    destruct (percent_of (percent_text f)) as [g|]; [|discriminate B]. apply bytes_eqb_eq in B. congruence.
Qed.
Print Assumptions C61_percent_partial.
(** A probability below 1 is shown as "100%", which reads as certainty. *)
Theorem C61_percent_refuted : forall pe heap, exists m m',
  let pe' := mkPE (pe_ifindex pe) (pe_pton6 pe) percent_of in
  let se := mkSE (fun _ => None) (fun _ => None) percent_text in
  matcher_new_from_raw pe' (Some heap) M_PROBABILITY OP_EQ (lit "99.99999%") false = Ok m /\
  exists print, print_of se M_PROBABILITY OP_EQ = Some print /\ print (m_pay m) = lit "100%" /\
    matcher_new_from_raw pe' (Some heap) M_PROBABILITY OP_EQ (print (m_pay m)) false = Ok m' /\ firstn 4 (m_pay m') <> firstn 4 (m_pay m).
Proof.
  intros pe heap. unfold matcher_new_from_raw. cbn [parser_of ops_size print_of]. unfold parse_probability. cbn [pe_percent se_percent].
  assert (E1 : percent_of (lit "99.99999%") = Some [255; 255; 199; 66]) by (vm_compute; reflexivity).
  assert (E2 : percent_of (lit "100%") = Some [0; 0; 200; 66]) by (vm_compute; reflexivity). rewrite E1. cbn [bind].
  eexists. eexists. split; [reflexivity|]. eexists. split; [reflexivity|]. cbn [m_pay]. unfold write.
  assert (T : forall r, percent_text ([255; 255; 199; 66] ++ r) = lit "100%").
  { intros r. unfold percent_text, float_value. change (firstn 4 ([255; 255; 199; 66] ++ r)) with [255; 255; 199; 66]. vm_compute. reflexivity. }
  rewrite T. split; [reflexivity|]. rewrite E2. cbn [bind]. split; [reflexivity|]. discriminate.
Qed.
Print Assumptions C61_percent_refuted.

(** *** Hook options *)
Lemma parse_app o l : forall mem i k, parse_opts mem i o (l ++ k) = (o' <- parse_opts mem i o l ; parse_opts mem (i + length l) o' k).
Proof.
  revert o. induction l as [|s l IH]; intros o mem i k; cbn [app parse_opts length bind]; [rewrite Nat.add_0_r; reflexivity|].
  destruct (parse_opt (mem i) o s) as [o'|]; cbn [bind]; [|reflexivity]. rewrite IH. rewrite Nat.add_succ_r. reflexivity.
Qed.
Definition opts_sane (o : hookopts) : Prop :=
  (forall z, ho_ifindex o = Some z -> exists n, z = Z.of_N n /\ n < two31) /\ ho_family o = None /\
  (forall a b, ho_priorities o = Some (a, b) -> exists n m, a = Z.of_N n /\ b = Z.of_N m /\ 0 < n < two31 /\ 0 < m < two31 /\ n <> m).
Lemma opt_sane mem o raw o' : opts_sane o -> parse_opt mem o raw = Ok o' -> opts_sane o'.
Proof.
  intros (S1 & S2 & S3) H. unfold parse_opt in H. destruct (split_at 61 raw) as [(name, v)|]; [|discriminate]. destruct (get_ops name) as [[| | |]|]; [| | | |discriminate].
  - unfold parse_ifindex in H. destruct (used o K_IFINDEX); [discriminate|]. destruct (strtoul 0 v) as [[n r] er]. destruct er; [discriminate|].
    destruct (N.ltb_spec (two31 - 1) n); [discriminate|]. apply Ok_inj in H. subst o'. split; [|split]; cbn; auto. intros z X. injection X as <-. exists n. split; [reflexivity|]. unfold two31 in *. lia.
  - unfold parse_cgpath in H. destruct (used o K_CGPATH); [discriminate|]. destruct (negb mem); [discriminate|]. apply Ok_inj in H. subst o'. split; [|split]; cbn; auto.
  - unfold parse_family in H. destruct (used o K_FAMILY); [discriminate|]. destruct (streq (lit "inet4") v || streq (lit "inet6") v); [|discriminate]. apply Ok_inj in H. subst o'. split; auto.
  - unfold parse_priorities in H. destruct (used o K_PRIORITIES); [discriminate|]. destruct (negb mem); [discriminate|]. destruct (split_at 45 v) as [(x, y)|]; [|discriminate].
    destruct y as [|c y]; [discriminate|]. destruct (strtoul 0 x) as [[a r0] e0]. destruct e0; [discriminate|]. destruct (strtoul 0 (c :: y)) as [[b r1] e1]. destruct e1; [discriminate|].
    destruct (N.ltb_spec (two31 - 1) a); [discriminate|]. destruct (N.ltb_spec (two31 - 1) b); [discriminate|]. cbn [orb] in H. destruct (N.eqb_spec a b); [discriminate|].
    destruct (N.eqb_spec a 0); [discriminate|]. destruct (N.eqb_spec b 0); [discriminate|]. cbn [orb] in H. apply Ok_inj in H. subst o'. split; [|split]; cbn; auto.
    intros p q X. injection X as <- <-. exists a, b. unfold two31 in *. repeat split; lia.
Qed.
Lemma opts_sane_all l : forall mem i o o', opts_sane o -> parse_opts mem i o l = Ok o' -> opts_sane o'.
Proof.
  induction l as [|s l IH]; intros mem i o o' S H; cbn [parse_opts] in H; [apply Ok_inj in H; subst; exact S|]. binv H. eapply IH; [|exact H]. eapply opt_sane; eassumption.
Qed.
Lemma dec_int_of n : dec_int (Z.of_N n) = dec n.
Proof. destruct n; reflexivity. Qed.
Lemma strtoul0_dec n : n < two31 -> strtoul 0 (dec n) = (n, [], false).
Proof.
  intros L. destruct (dec_decimal n) as (D & Z). destruct (scan0_decimal _ _ D Z) as (A & _). unfold strtoul. rewrite A. unfold two31 in L.
  replace (two64 <=? n) with false by (symmetry; apply N.leb_gt; unfold two64; lia). reflexivity.
Qed.
Lemma split_at_app c a b : ~ In c a -> split_at c (a ++ c :: b) = Some (a, b).
Proof.
  induction a as [|x a IH]; intros H; cbn [app split_at]; [rewrite N.eqb_refl; reflexivity|].
  destruct (N.eqb_spec x c) as [ -> |]; [exfalso; apply H; left; reflexivity|]. rewrite IH; [reflexivity|]. intros I. apply H. right. exact I.
Qed.
(** The options that were read from texts are shown as texts that give the same options. *)
Theorem C61_options : forall mem texts o, parse_opts mem 0 hookopts_new texts = Ok o ->
  parse_opts (fun _ => true) 0 hookopts_new (opts_text o) = Ok o.
Proof.
  intros mem texts o H. assert (S : opts_sane o) by (eapply opts_sane_all; [|exact H]; split; [|split]; cbn; [discriminate|reflexivity|discriminate]). clear H.
  destruct S as (S1 & S2 & S3). destruct o as [i c f p]. cbn [ho_ifindex ho_family ho_priorities] in *. subst f. unfold opts_text. cbn [ho_ifindex ho_cgpath ho_family ho_priorities app].
  assert (A : parse_opts (fun _ => true) 0 hookopts_new (match i with Some z => [lit "ifindex=" ++ dec_int z] | None => [] end) = Ok (mkHO i None None None)).
  { destruct i as [z|]; [|reflexivity]. destruct (S1 z eq_refl) as (n & -> & L). cbn [parse_opts]. unfold parse_opt.
    change (lit "ifindex=" ++ dec_int (Z.of_N n)) with (lit "ifindex" ++ 61 :: dec_int (Z.of_N n)). rewrite split_at_app by (cbn; intros X; repeat destruct X as [X|X]; try discriminate X; destruct X).
    change (get_ops (lit "ifindex")) with (Some K_IFINDEX). unfold parse_ifindex. cbn [used ho_ifindex hookopts_new]. rewrite dec_int_of, strtoul0_dec by exact L.
    replace (two31 - 1 <? n) with false by (symmetry; apply N.ltb_ge; unfold two31 in *; lia). reflexivity. }
  refine (eq_trans (parse_app _ _ _ _ _) _). refine (eq_trans (f_equal (fun x => bind x _) A) _). cbn [bind].
  refine (eq_trans (parse_app _ _ _ _ _) _).
  assert (B : forall j, parse_opts (fun _ => true) j (mkHO i None None None) (match c with Some s => [lit "cgpath=" ++ s] | None => [] end) = Ok (mkHO i c None None)).
  { intros j. destruct c as [s|]; [|reflexivity]. cbn [parse_opts]. unfold parse_opt. change (lit "cgpath=" ++ s) with (lit "cgpath" ++ 61 :: s).
    rewrite split_at_app by (cbn; intros X; repeat destruct X as [X|X]; try discriminate X; destruct X). reflexivity. }
  refine (eq_trans (f_equal (fun x => bind x _) (B _)) _). cbn [bind]. destruct p as [(a, b)|]; [|reflexivity]. destruct (S3 a b eq_refl) as (n & m & -> & -> & N1 & M1 & NM).
  cbn [parse_opts]. unfold parse_opt. rewrite !dec_int_of. change (lit "priorities=" ++ dec n ++ 45 :: dec m) with (lit "priorities" ++ 61 :: (dec n ++ 45 :: dec m)).
  rewrite split_at_app by (cbn; intros X; repeat destruct X as [X|X]; try discriminate X; destruct X). change (get_ops (lit "priorities")) with (Some K_PRIORITIES).
  unfold parse_priorities. cbn [used ho_priorities negb]. rewrite split_at_app by (apply (decimal_no 45 _ _ (proj1 (dec_decimal n))); lia).
  rewrite strtoul0_dec by apply N1. destruct (dec m) as [|x y] eqn:E; [exfalso; destruct (dec_decimal m) as ((Q & _) & _); congruence|]. rewrite <- E, strtoul0_dec by apply M1.
  replace (two31 - 1 <? n) with false by (symmetry; apply N.ltb_ge; unfold two31 in *; lia). replace (two31 - 1 <? m) with false by (symmetry; apply N.ltb_ge; unfold two31 in *; lia). cbn [orb].
  destruct (N.eqb_spec n m); [congruence|]. destruct (N.eqb_spec n 0); [lia|]. destruct (N.eqb_spec m 0); [lia|]. reflexivity.
Qed.
Print Assumptions C61_options.

(** *** Cases *)
(** A machine: eth0 is interface 2; IPv6 addresses are written in full. *)
Fixpoint hex_groups (k : nat) (a : list N) : cstr :=
  match a, k with
  | x :: y :: r, S j => [digit_char (x / 16); digit_char (x mod 16); digit_char (y / 16); digit_char (y mod 16)] ++ (match r with [] => [] | _ => [58] end) ++ hex_groups j r
  | _, _ => []
  end.
Fixpoint hex_pairs (s : cstr) : list N :=
  match s with
  | a :: b :: r => match digit_in 16 a, digit_in 16 b with Some x, Some y => (16 * x + y) :: hex_pairs r | _, _ => [] end
  | _ => []
  end.
Definition full_ip6 (s : cstr) : option (list N) :=
  let a := hex_pairs (filter (fun c => negb (c =? 58)) s) in
  if (length a =? 16)%nat && forallb (fun x => x <? 256) a && streq (hex_groups 8 a) s then Some a else None.
Definition ex_ppe : penv := mkPE (fun s => if streq s (lit "eth0") then 2 else 0) full_ip6 percent_of.
Definition ex_se : show_env := mkSE (fun i => if i =? 2 then Some (lit "eth0") else None) (fun a => Some (hex_groups 8 a)) percent_text.
Definition pair_ok (b : N) : bool :=
  let x := digit_char (b / 16) in let y := digit_char (b mod 16) in
  negb (x =? 58) && negb (y =? 58) && ip6_char x && ip6_char y && negb (x =? 46) &&
  match digit_in 16 x, digit_in 16 y with Some p, Some q => 16 * p + q =? b | _, _ => false end.
Lemma pair_all : forall b, b < 256 -> pair_ok b = true.
Proof. assert (A : forallb pair_ok (below 256) = true) by (vm_compute; reflexivity). rewrite forallb_forall in A. intros b L. apply A, below_in, L. Qed.
Lemma groups_back : forall k a, bytes a -> length a = (k + k)%nat -> hex_pairs (filter (fun c => negb (c =? 58)) (hex_groups k a)) = a /\ forallb ip6_char (hex_groups k a) = true /\
  length (hex_groups k a) = (5 * k - 1)%nat.
Proof.
  induction k as [|k IH]; intros a B L; [destruct a; [split; [reflexivity|split; reflexivity]|discriminate L]|].
  destruct a as [|x [|y a]]; [discriminate L| cbn in L; lia|]. inversion B as [|? ? Bx B1]; subst. inversion B1 as [|? ? By B2]; subst. unfold byte in *.
  assert (LA : length a = (k + k)%nat) by (cbn [length] in L; lia). destruct (IH a B2 LA) as (I1 & I2 & I3).
  pose proof (pair_all x Bx) as X. pose proof (pair_all y By) as Y. unfold pair_ok in X, Y. rewrite !andb_true_iff in X, Y.
  destruct X as (((((X1 & X2) & X3) & X4) & X5) & X6). destruct Y as (((((Y1 & Y2) & Y3) & Y4) & Y5) & Y6).
  cbn [hex_groups]. set (p := digit_char (x / 16)) in *. set (q := digit_char (x mod 16)) in *. set (r := digit_char (y / 16)) in *. set (s := digit_char (y mod 16)) in *.
  split; [|split].
  - cbn [app filter]. rewrite X1, X2, Y1, Y2. assert (FA : filter (fun c => negb (c =? 58)) ((match a with [] => [] | _ => [58] end) ++ hex_groups k a) = filter (fun c => negb (c =? 58)) (hex_groups k a))
      by (destruct a; reflexivity). rewrite FA. cbn [hex_pairs]. destruct (digit_in 16 p); [|discriminate]. destruct (digit_in 16 q); [|discriminate]. destruct (digit_in 16 r); [|discriminate].
    destruct (digit_in 16 s); [|discriminate]. apply N.eqb_eq in X6, Y6. rewrite X6, Y6, I1. reflexivity.
  - cbn [app forallb]. rewrite X3, X4, Y3, Y4. cbn [andb]. rewrite forallb_app, I2. destruct a; reflexivity.
  - cbn [app length]. rewrite app_length, I3. destruct a as [|u a]; [cbn in LA; destruct k; [reflexivity|lia]|]. cbn [length] in *. lia.
Qed.
Example C61_ex_env : penv_ok ex_ppe /\ consistent ex_ppe ex_se.
Proof.
  split; [split|split].
  - intros s a H. unfold ex_ppe, full_ip6 in H. cbn [pe_pton6] in H.
    set (h := hex_pairs (filter (fun c => negb (c =? 58)) s)) in H. destruct (length h =? 16)%nat eqn:E1; [|discriminate]. destruct (forallb (fun x => x <? 256) h) eqn:E2; [|discriminate].
    destruct (streq (hex_groups 8 h) s); [|discriminate]. injection H as <-. split; [apply Nat.eqb_eq; exact E1|]. apply Forall_forall. intros x I. rewrite forallb_forall in E2. apply N.ltb_lt. apply E2, I.
  - intros s f H. unfold ex_ppe, percent_of in H. cbn [pe_percent] in H. destruct (strtod s) as [v rest]. destruct rest as [|c rest]; [discriminate|].
    assert (X : f = float_bytes (to_float v)).
    { repeat match type of H with match ?x with _ => _ end = Some _ => destruct x; try discriminate H end. congruence. }
    subst f. unfold float_bytes. split; [apply le_enc_length|apply le_enc_bytes].
  - intros i n H. cbn [ex_se se_ifname] in H. destruct (N.eqb_spec i 2) as [ -> |]; [|discriminate]. injection H as <-. split; [unfold two31; lia|reflexivity].
  - intros i H. cbn [ex_ppe pe_ifindex]. destruct (streq (dec i) (lit "eth0")) eqn:E; [|reflexivity]. exfalso. apply bytes_eqb_eq in E.
    destruct (dec_decimal i) as ((_ & D & _) & _). specialize (D 101). rewrite E in D. specialize (D (or_introl eq_refl)). lia.
  - intros a L B. exists (hex_groups 8 a). destruct (groups_back 8 a B L) as (G1 & G2 & G3). split; [reflexivity|]. split.
    + cbn [ex_ppe pe_pton6]. unfold full_ip6. rewrite G1, L. change (16 =? 16)%nat with true.
      assert (FB : forallb (fun x => x <? 256) a = true) by (apply forallb_forall; intros x I; apply N.ltb_lt; unfold bytes in B; rewrite Forall_forall in B; apply B, I).
      rewrite FB. assert (ST : streq (hex_groups 8 a) (hex_groups 8 a) = true) by (apply bytes_eqb_eq; reflexivity). rewrite ST. reflexivity.
    + split; [intros Z; rewrite Z in G3; discriminate G3|]. split; [rewrite G3; lia|]. split; [exact G2|].
      destruct a as [|x [|y a]]; try discriminate L. cbn [hex_groups app first_char]. inversion B as [|? ? Bx _]; subst. pose proof (pair_all x Bx) as X. unfold pair_ok in X. rewrite !andb_true_iff in X.
      destruct X as (((((_ & _) & _) & _) & X) & _). intros Z. rewrite Z in X. discriminate X.
Qed.
Example C61_ex_values :
  let shown t o raw := match matcher_new_from_raw ex_ppe (Some (repeat 7 24)) t o (lit raw) false, print_of ex_se t o with Ok m, Some p => p (m_pay m) | _, _ => lit "?" end in
  map (fun x => shown (fst (fst x)) (snd (fst x)) (snd x))
    [((M_IFACE, OP_EQ), "2"); ((M_L3_PROTO, OP_EQ), "0x0800"); ((M_L3_PROTO, OP_EQ), "0x8"); ((M_L4_PROTO, OP_EQ), "6"); ((M_TCP_DPORT, OP_RANGE), "080-443");
     ((M_MARK, OP_EQ), "255"); ((M_FLOW_HASH, OP_RANGE), "1-0x20"); ((M_IP4_DNET, OP_IN), "10.1.0.0/016"); ((M_IP6_SNET, OP_EQ), "2001:0db8:0000:0000:0000:0000:0000:0001/64");
     ((M_TCP_FLAGS, OP_ALL), "ack,syn"); ((M_PROBABILITY, OP_EQ), "33.330%"); ((M_IP4_DSCP, OP_EQ), "46"); ((M_ICMP_TYPE, OP_EQ), "8")] =
  map lit ["eth0"; "ipv4"; "0x0008"; "tcp"; "80-443"; "0xff"; "0x1-0x20"; "10.1.0.0/16"; "2001:0db8:0000:0000:0000:0000:0000:0001/64"; "syn,ack"; "33.33%"; "ef"; "echo-request"].
Proof. vm_compute. reflexivity. Qed.
Example C61_ex_set :
  match set_new_from_raw 100 ex_ppe ex_heap (fun i => Some i) (fun _ => true) (Some (lit "s")) (lit "(ip4.saddr,tcp.dport)") (lit "{ 10.0.0.1,080; 10.0.0.2 ,443 }") with
  | Ok u => match set_read u with
            | Ok elems => key_text (u_key u) = lit "(ip4.saddr, tcp.dport)" /\
                          set_text ex_se 8 4 (u_key u) elems = lit "{" ++ [10] ++ lit "        10.0.0.1, 80" ++ [10] ++ lit "        10.0.0.2, 443" ++ [10] ++ lit "    }"
            | Er _ => False
            end
  | Er _ => False
  end.
Proof. vm_compute. split; reflexivity. Qed.
Example C61_ex_rule :
  rate_text 2000000000 = lit "2s" /\ rate_text 1500000000 = lit "1500ms" /\ rate_text 1234 = lit "1234ns" /\ mark_text 32 = lit "0x20" /\ headers_text 3 0 5 = lit "link,transport" /\
  parse_opts (fun _ => true) 0 hookopts_new [lit "family=inet4"; lit "priorities=0x10-9"] = Ok (mkHO None None None (Some (16, 9)%Z)) /\
  opts_text (mkHO None None None (Some (16, 9)%Z)) = [lit "priorities=16-9"].
Proof. repeat split; vm_compute; reflexivity. Qed.
Example C61_ex_empty : good_key [M_TCP_DPORT] /\ exists u, set_new None [M_TCP_DPORT] = Ok u.
Proof.
  assert (G : good_key [M_TCP_DPORT]). { split; [cbn; lia|]. split; [intros t [ <- |[]]; discriminate|]. cbn. lia. }
  split; [exact G|]. apply set_new_iff. exact G.
Qed.

(** Options that carry an address family (they can come from a stored chain)
    show that one: 2 is AF_INET, 10 is AF_INET6. *)
Theorem C61_family : forall o f s, ho_family o = Some f -> f = 2 \/ f = 10 ->
  (In (lit "family=" ++ s) (opts_text o) <-> s = lit (if f =? 2 then "inet4" else "inet6")).
Proof.
  intros [i c f0 p] f s H F. cbn in H. subst f0. unfold opts_text. cbn [ho_ifindex ho_cgpath ho_family ho_priorities]. split.
  - intros X. repeat rewrite in_app_iff in X. destruct X as [X|[X|[X|X]]].
    + destruct i; [|destruct X]. destruct X as [X|[]]. cbn in X. discriminate X.
    + destruct c; [|destruct X]. destruct X as [X|[]]. cbn in X. discriminate X.
    + destruct X as [X|[]]. apply app_inv_head in X. subst s. destruct F as [-> | ->]; reflexivity.
    + destruct p as [(a, b)|]; [|destruct X]. destruct X as [X|[]]. cbn in X. discriminate X.
  - intros ->. repeat rewrite in_app_iff. right. right. left. left. destruct F as [-> | ->]; reflexivity.
Qed.
Print Assumptions C61_family.
Example C61_ex_family : opts_text (mkHO (Some 3%Z) None (Some 2) None) = [lit "ifindex=3"; lit "family=inet4"].
Proof. reflexivity. Qed.
(** Above 100 % nothing is read. *)
Example C61_ex_above : percent_of (lit "100.01%") = None /\ percent_of (lit "101%") = None /\ percent_of (lit "100%") <> None.
Proof. split; [vm_compute; reflexivity|]. split; [vm_compute; reflexivity|]. vm_compute. discriminate. Qed.
