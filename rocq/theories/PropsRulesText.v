(** C60: rulesets written as text, as bfcli reads them. *)
From Coq Require Import String NArith ZArith List Bool Arith Lia.
From Verif Require Import Bytes Types GenModel ChainModel BytesFacts StrModel StrSpec EnumModel ParseModel ParseSpec ParseFacts ParseFacts3 HashModel SetModel
  SetSpec PackSpec PackModel HookModel SetTextModel SetTextSpec SetTextFacts RateModel RateFacts RulesTextModel RulesTextSpec RulesTextFacts
  RulesTextFacts2 RulesTextFacts3 PropsParse PropsSetText.
Import ListNotations.
Local Open Scope string_scope.
Local Open Scope list_scope.
Local Open Scope N_scope.

(** A text that is accepted is a list of chains, and what bfcli gets is, chain by chain,
    what is written: hook, policy, options, sets (those declared, then the literal ones),
    rules with their matchers, log, counter, mark and verdict, in that order. *)
Theorem C60_reads : forall ce l x, ce_ok ce -> parse_ruleset ce l = Ok x ->
  exists a, a <> [] /\ l = concat (map w_chain a) /\ Forall2 (chain_written (ce_pe ce)) a x.
Proof. intros ce l x CO E. exact (p_chains_sound ce CO (length l) (mkP [] 0) l x eq_refl E). Qed.
Print Assumptions C60_reads.

(** No text has two readings. *)
Theorem C60_one_reading : forall a b, concat (map w_chain a) = concat (map w_chain b) -> a = b.
Proof. exact chains_code. Qed.
Print Assumptions C60_one_reading.

(** Chains that say only what the hook can do are accepted, and read as they are
    written.  Missing: sets whose first element is blank ([C59_blank_start_refuted]) and
    the way from the characters to the tokens. *)
Theorem C60_accepts_partial : forall ce a, ce_rich ce -> a <> [] -> Forall (chain_ok (ce_pe ce)) a ->
  exists x, parse_ruleset ce (concat (map w_chain a)) = Ok x /\ Forall2 (chain_written (ce_pe ce)) a x.
Proof.
  intros ce a CR NE OK. destruct (p_chains_rich ce CR a (length (concat (map w_chain a))) (mkP [] 0) NE eq_refl OK) as (x & E).
  { apply concat_len. intros b. unfold w_chain. cbn [length]. lia. }
  exists x. split; [exact E|]. destruct (C60_reads ce _ x (proj1 CR) E) as (b & _ & EQ & F). apply chains_code in EQ. subst b. exact F.
Qed.
Print Assumptions C60_accepts_partial.

(** *** What the numbers are *)

(** "mark N". *)
Theorem C60_mark : forall s n, decimal s n -> (forall r, s = 48 :: r -> r = []) ->
  mark_of s = if n <? two32 then Ok n else Er EINVAL.
Proof.
  intros s n D Z. destruct (scan0_decimal s n D Z) as [A _]. unfold mark_of, strtoll. rewrite A. cbn [andb]. destruct (N.ltb_spec n two32) as [L|L].
  - assert (M : N.min n (two64 / 2 - 1) = n) by (apply N.min_l; unfold two32 in L; change (two64 / 2 - 1) with 9223372036854775807; lia).
    rewrite M. replace (two32 - 1 <? n) with false by (symmetry; apply N.ltb_ge; lia). reflexivity.
  - replace (two32 - 1 <? _) with true; [reflexivity|]. symmetry. apply N.ltb_lt. change (two64 / 2 - 1) with 9223372036854775807. unfold two32 in *. lia.
Qed.
Print Assumptions C60_mark.

(** "REDIRECT iface dir": an interface by its name, or by its number when no interface
    has that name; never number 0. *)
Theorem C60_redirect : forall pe s,
  (forall i, if_index pe s = Ok i -> 0 < i < two32) /\
  (0 < pe_ifindex pe s < two31 -> if_index pe s = Ok (pe_ifindex pe s)) /\
  (forall n, pe_ifindex pe s = 0 -> decimal s n -> if_index pe s = if (0 <? n) && (n <? two32) then Ok n else Er EINVAL).
Proof.
  intros pe s. unfold if_index. split; [|split].
  - intros i. destruct ((0 <? pe_ifindex pe s) && (pe_ifindex pe s <? two31)) eqn:E.
    + intros X. injection X as <-. apply andb_prop in E. destruct E as (A & B). apply N.ltb_lt in A, B. change two32 with (2 * two31). lia.
    + destruct (strtoul 10 s) as [[v rest] er]. destruct rest; [|discriminate]. destruct er; [discriminate|].
      destruct ((0 <? v) && (v <? two32)) eqn:E2; [|discriminate]. intros X. injection X as <-. apply andb_prop in E2. destruct E2 as (A & B). apply N.ltb_lt in A, B. lia.
  - intros (A & B). apply N.ltb_lt in A, B. rewrite A, B. reflexivity.
  - intros n Z D. rewrite Z. cbn [N.ltb N.compare andb]. rewrite (strtoul_all s n D). destruct (N.leb_spec two64 n) as [L|L]; [|reflexivity].
    replace (n <? two32) with false by (symmetry; apply N.ltb_ge; unfold two32, two64 in *; lia). rewrite andb_false_r. reflexivity.
Qed.
Print Assumptions C60_redirect.

(** "every N unit", below 2^52 ns (52 days): exactly that many nanoseconds.  Missing:
    fractions and longer times. *)
Theorem C60_rate_partial : forall s n u k, decimal s n -> In (u, k) [("ns", 1); ("us", 1000); ("ms", 1000000); ("s", 1000000000)] ->
  0 < n -> n * k < 2 ^ 52 -> parse_log_rate (s ++ lit u) = Ok (n * k).
Proof. exact rate_whole. Qed.
Print Assumptions C60_rate_partial.

Lemma dec_text s : negb (bytes_eqb s []) && forallb isdigit s = true -> decimal s (dec_value s).
Proof.
  intros H. apply andb_prop in H. destruct H as (A & B). split; [intros ->; discriminate A|]. split; [|reflexivity].
  intros c I. apply (proj1 (forallb_forall _ _) B) in I. apply isdigit_iff. exact I.
Qed.

(** Above, a time can be off by one nanosecond although a double can hold it. *)
Theorem C60_rate_rounded_refuted : decimal (lit "4503599627370497") 4503599627370497 /\
  nearest 4503599627370497 1 = SpecFloat.S754_finite false 4503599627370497 BinNums.Z0 /\
  parse_log_rate (lit "4503599627370497ns") = Ok 4503599627370498.
Proof. split; [|split; vm_compute; reflexivity]. exact (dec_text (lit "4503599627370497") eq_refl). Qed.
Print Assumptions C60_rate_rounded_refuted.

(** The largest number of nanoseconds that the rule can hold passes the range check, and
    the conversion that follows is undefined behaviour (C11 6.3.1.4). *)
Theorem C60_rate_undefined_refuted : exists s n, decimal s n /\ n < two64 /\ parse_log_rate (s ++ lit "ns") = Er EUB.
Proof.
  exists (lit "18446744073709551615"), 18446744073709551615. split; [exact (dec_text (lit "18446744073709551615") eq_refl)|]. split; [reflexivity|]. vm_compute. reflexivity.
Qed.
Print Assumptions C60_rate_undefined_refuted.

Definition ex_ce : cli_env := mkCE ex_pe (fun _ => ex_heap) (fun _ i => Some i) (fun _ => true) (fun _ => true).
Example C60_ex_rich : ce_rich ex_ce.
Proof.
  split; [split; [exact (proj2 (proj2 (proj2 (proj2 (proj2 C45_ex)))))|]|].
  - intros n i h E. injection E as <-. split; [|vm_compute; lia]. apply Forall_forall. intros x X. apply (repeat_spec 192 7) in X. subst x. reflexivity.
  - split; [discriminate|]. split; [|reflexivity]. intros n. split; [intros i; eauto|]. split; [intros i j E; injection E as ->; reflexivity|reflexivity].
Qed.

(** The same from the ruleset: bfcli does not refuse that rate, it misbehaves... *)
Definition ex_rate (rate payload : cstr) : list token :=
  [T_CHAIN; T_STRING (lit "c"); T_HOOK (lit "BF_HOOK_XDP"); T_VERDICT (lit "ACCEPT");
   T_SET; T_STRING (lit "ports"); T_SET_TYPE (lit "(tcp.dport)"); T_MATCHER_OP (lit "in"); T_SET_PAYLOAD payload;
   T_RULE; T_MATCHER_TYPE (lit "ip4.saddr"); T_PAYLOAD (lit "10.0.0.1"); T_LOG; T_EVERY; T_STRING rate; T_VERDICT (lit "DROP")].
Theorem C60_ruleset_undefined_refuted : exists ce, ce_rich ce /\
  parse_ruleset ce (ex_rate (lit "18446744073709551615ns") (lit "{ 80 }")) = Er EUB /\
  exists x, parse_ruleset ce (ex_rate (lit "18446744073s") (lit "{ 80 }")) = Ok x.
Proof.
  exists ex_ce. split; [exact C60_ex_rich|]. split; [vm_compute; reflexivity|]. eexists. vm_compute. reflexivity.
Qed.
Print Assumptions C60_ruleset_undefined_refuted.

(** ... and a set whose first line is blank keeps it busy for ever. *)
Theorem C60_ruleset_hangs_refuted : exists ce, ce_rich ce /\
  parse_ruleset ce (ex_rate (lit "2s") (lit "{" ++ [10] ++ lit "  " ++ [10] ++ lit "80 }")) = Er EHANG.
Proof. exists ex_ce. split; [exact C60_ex_rich|]. vm_compute. reflexivity. Qed.
Print Assumptions C60_ruleset_hangs_refuted.

(** *** A ruleset *)
(** chain web BF_HOOK_TC_INGRESS{ifindex=2} ACCEPT
      set ports (tcp.dport) in { 80; 443 }
      rule ip4.saddr eq 10.0.0.1 (tcp.dport) in ports (ip4.daddr) not in { 10.0.0.2 }
           log link,transport every 2s counter mark 0x20 DROP
      rule ip4.proto not icmp REDIRECT 3 out *)
Definition ex_text : list token :=
  [T_CHAIN; T_STRING (lit "web"); T_HOOK (lit "BF_HOOK_TC_INGRESS"); T_HOOKOPT (lit "ifindex=2"); T_VERDICT (lit "ACCEPT");
   T_SET; T_STRING (lit "ports"); T_SET_TYPE (lit "(tcp.dport)"); T_MATCHER_OP (lit "in"); T_SET_PAYLOAD (lit "{ 80; 443 }");
   T_RULE; T_MATCHER_TYPE (lit "ip4.saddr"); T_MATCHER_OP (lit "eq"); T_PAYLOAD (lit "10.0.0.1");
     T_SET_TYPE (lit "(tcp.dport)"); T_MATCHER_OP (lit "in"); T_STRING (lit "ports");
     T_SET_TYPE (lit "(ip4.daddr)"); T_NEGATE; T_MATCHER_OP (lit "in"); T_SET_PAYLOAD (lit "{ 10.0.0.2 }");
     T_LOG; T_STRING (lit "link"); T_COMMA; T_STRING (lit "transport"); T_EVERY; T_STRING (lit "2s"); T_COUNTER; T_MARK; T_STRING (lit "0x20");
     T_VERDICT (lit "DROP");
   T_RULE; T_MATCHER_TYPE (lit "ip4.proto"); T_NEGATE; T_PAYLOAD (lit "icmp"); T_REDIRECT; T_IFACE (lit "3"); T_DIR (lit "out")].
Definition ex_ast : a_chain :=
  mkAC (lit "web") (lit "BF_HOOK_TC_INGRESS") [lit "ifindex=2"] (lit "ACCEPT") [mkAS (lit "ports") (lit "(tcp.dport)") (lit "{ 80; 443 }")]
    [mkAR (A_field (lit "ip4.saddr") false (Some (lit "eq")) (lit "10.0.0.1"))
       [A_named (lit "(tcp.dport)") false (lit "ports"); A_literal (lit "(ip4.daddr)") true (lit "{ 10.0.0.2 }")]
       [A_log [lit "link"; lit "transport"] (Some (lit "2s")); A_counter; A_mark (lit "0x20")] (A_verdict (lit "DROP"));
     mkAR (A_field (lit "ip4.proto") true None (lit "icmp")) [] [] (A_redirect (lit "3") (lit "out"))].

Example C60_ex_text : w_chain ex_ast = ex_text.
Proof. vm_compute. reflexivity. Qed.

(** What bfcli sends: rules [r_index] 0 and 1, "ports" is set 0 and the literal is set 1. *)
Example C60_ex_read :
  match parse_ruleset ex_ce ex_text with
  | Ok [(c, Some o)] =>
      nc_name c = lit "web" /\ map u_name (nc_sets c) = [Some (lit "ports"); None] /\
      map set_read (nc_sets c) = [Ok [[0; 80]; [1; 187]]; Ok [[10; 0; 0; 2]]] /\
      c_hook (nc_chain c) = H_TC_INGRESS /\ c_policy (nc_chain c) = V_ACCEPT /\ ho_ifindex o = Some (Zpos 2) /\
      c_rules (nc_chain c) =
        [mkR 0 [mkM M_IP4_SADDR OP_EQ false [10; 0; 0; 1]; mkM M_SET OP_IN false [0; 0; 0; 0]; mkM M_SET OP_IN true [1; 0; 0; 0]]
           5 2000000000 0xFFFFFFFF00000020 true false V_DROP 0 D_INGRESS;
         mkR 1 [mkM M_IP4_PROTO OP_EQ true [1]] 0 0 0 false false V_REDIRECT 3 D_EGRESS]
  | _ => False
  end.
Proof. vm_compute. repeat split. Qed.

(** The same mistakes a user makes: a set that does not exist, a wrong key, two marks. *)
Example C60_ex_refused :
  let rule m := [T_CHAIN; T_STRING (lit "c"); T_HOOK (lit "BF_HOOK_XDP"); T_VERDICT (lit "ACCEPT");
                 T_SET; T_STRING (lit "ports"); T_SET_TYPE (lit "(tcp.dport)"); T_MATCHER_OP (lit "in"); T_SET_PAYLOAD (lit "{ 80 }"); T_RULE] ++ m ++ [T_VERDICT (lit "DROP")] in
  parse_ruleset ex_ce (rule [T_SET_TYPE (lit "(tcp.dport)"); T_MATCHER_OP (lit "in"); T_STRING (lit "port")]) = Er EINVAL /\
  parse_ruleset ex_ce (rule [T_SET_TYPE (lit "(tcp.sport)"); T_MATCHER_OP (lit "in"); T_STRING (lit "ports")]) = Er EINVAL /\
  parse_ruleset ex_ce (rule [T_MATCHER_TYPE (lit "tcp.dport"); T_PAYLOAD (lit "80"); T_COUNTER; T_COUNTER]) = Er EINVAL /\
  (exists x, parse_ruleset ex_ce (rule [T_SET_TYPE (lit "(tcp.dport)"); T_MATCHER_OP (lit "in"); T_STRING (lit "ports"); T_COUNTER]) = Ok x) /\
  parse_ruleset ex_ce (rule [T_SET_TYPE (lit "(tcp.dport)"); T_MATCHER_OP (lit "in"); T_STRING (lit "ports"); T_MARK; T_STRING (lit "1")]) = Er EINVAL.
Proof. cbv zeta. split; [|split; [|split; [|split]]]; try (vm_compute; reflexivity). eexists. vm_compute. reflexivity. Qed.

(** The ruleset above is one that must be accepted. *)
Lemma ex_set_ok key ks payload texts es : key_texts key = map (fun t => match mtype_to_str t with Some s => s | None => [] end) ks ->
  forallb (fun t => match mtype_to_str t with Some _ => true | None => false end) ks = true -> good_key ks ->
  element_texts payload = texts -> Forall2 (element ex_pe ks) texts es -> starts_well payload -> 16 + 4 * N.of_nat (length es) < MAX_CAP ->
  set_ok ex_pe key payload.
Proof.
  intros K N G <- E S M. exists ks, es. split; [|auto]. rewrite K. clear -N. induction ks as [|t ks IH]; cbn [map forallb] in *; [constructor|].
  apply andb_prop in N. destruct N as (N1 & N2). constructor; [|apply IH; exact N2]. destruct (mtype_to_str t); [reflexivity|discriminate N1].
Qed.
Example C60_ex_ok : chain_ok (ce_pe ex_ce) ex_ast.
Proof.
  change (ce_pe ex_ce) with ex_pe. exists H_TC_INGRESS, V_ACCEPT. split; [reflexivity|]. split; [reflexivity|]. split; [left; reflexivity|].
  assert (G : forall t, In t [M_TCP_DPORT; M_IP4_DADDR] -> good_key [t]).
  { intros t [ <- |[ <- |[]]]; (split; [cbn; lia|]); (split; [intros x [ <- |[]]; discriminate|cbn; lia]). }
  assert (VAL : forall t w v old, parser_of ex_pe t OP_IN <> None -> length old = comp_size t -> bytes old -> component_texts w = [w] ->
            (forall p, parser_of ex_pe t OP_IN = Some p -> p old w = Ok v) -> element ex_pe [t] w v).
  { intros t w v old PN L B C P. unfold element. rewrite C. rewrite <- (app_nil_r v). apply V_cons; [|apply V_nil].
    destruct (parser_of ex_pe t OP_IN) as [p|] eqn:Q; [|congruence]. exists p, old. auto. }
  split; [|split; [|split; [|split; [reflexivity|]]]].
  - constructor; [|constructor]. cbn [as_key as_payload].
    apply (ex_set_ok (lit "(tcp.dport)") [M_TCP_DPORT] (lit "{ 80; 443 }") [lit "80"; lit "443"] [[0; 80]; [1; 187]]);
      [reflexivity|reflexivity|apply G; left; reflexivity|vm_compute; reflexivity| | |vm_compute; reflexivity].
    + repeat constructor; (apply (VAL M_TCP_DPORT _ _ [0; 0]); [discriminate|reflexivity|repeat constructor|vm_compute; reflexivity|]);
        intros p E; injection E as <-; vm_compute; reflexivity.
    + intros w ws E. revert E. vm_compute. intros E. injection E as <- _. discriminate.
  - constructor; [|constructor; [|constructor]]; (split; [|split]).
    + constructor; [|constructor; [|constructor; [|constructor]]]; cbn [matcher_ok].
      * exists M_IP4_SADDR, OP_EQ, [0;0;0;0]. eexists. split; [reflexivity|]. split; [reflexivity|]. vm_compute. reflexivity.
      * exists [], (mkAS (lit "ports") (lit "(tcp.dport)") (lit "{ 80; 443 }")), [], [M_TCP_DPORT]. split; [reflexivity|]. split; [reflexivity|].
        split; [intros x []|]. split; [constructor; [reflexivity|constructor]|]. split; [constructor; [reflexivity|constructor]|]. apply G. left. reflexivity.
      * apply (ex_set_ok (lit "(ip4.daddr)") [M_IP4_DADDR] (lit "{ 10.0.0.2 }") [lit "10.0.0.2"] [[10; 0; 0; 2]]);
          [reflexivity|reflexivity|apply G; right; left; reflexivity|vm_compute; reflexivity| | |vm_compute; reflexivity].
        { repeat constructor. apply (VAL M_IP4_DADDR _ _ [0; 0; 0; 0]); [discriminate|reflexivity|repeat constructor|vm_compute; reflexivity|].
          intros p E. injection E as <-. vm_compute. reflexivity. }
        { intros w ws E. revert E. vm_compute. intros E. injection E as <- _. discriminate. }
    + split; [cbn; lia|]. split; [cbn; lia|]. split; [cbn; lia|]. split.
      * intros hs e [E|[]]. injection E as <- <-. split.
        { intros h [ <- |[ <- |[]]]; [exists 0, (lit "link")|exists 2, (lit "transport")]; (split; [cbn; auto|reflexivity]). }
        { intros s E. injection E as <-. eexists. vm_compute. reflexivity. }
      * intros s [ <- |[]]. eexists. vm_compute. reflexivity.
    + exists V_DROP. reflexivity.
    + constructor; [|constructor]. exists M_IP4_PROTO, OP_EQ, [0]. eexists. split; [reflexivity|]. split; [reflexivity|]. vm_compute. reflexivity.
    + split; [cbn; lia|]. split; [cbn; lia|]. split; [cbn; lia|]. split; [intros hs e []|intros s []].
    + split; [exists 3; vm_compute; reflexivity|exists D_EGRESS; reflexivity].
  - constructor; [|constructor; [|constructor]]; (split; [|split]); try (left; reflexivity); try (intros; discriminate).
    + constructor; [|constructor; [|constructor; [|constructor]]].
      * intros ty E. destruct ty; try reflexivity; discriminate E.
      * intros ks t KN I. apply (key_names_fun _ [M_TCP_DPORT]) in KN; [|constructor; [reflexivity|constructor]]. subst ks. destruct I as [ <- |[]]. reflexivity.
      * intros ks t KN I. apply (key_names_fun _ [M_IP4_DADDR]) in KN; [|constructor; [reflexivity|constructor]]. subst ks. destruct I as [ <- |[]]. reflexivity.
    + constructor; [|constructor]. intros ty E. destruct ty; try reflexivity; discriminate E.
  - intros _. eexists. split; vm_compute; reflexivity.
Qed.
