(** C62: from the characters of a ruleset to its chains. *)
From Coq Require Import String NArith ZArith List Bool Arith Lia.
From Verif Require Import Bytes Types GenModel ChainModel BytesFacts StrModel StrSpec EnumModel ParseModel ParseSpec HashModel SetModel
  SetSpec PackSpec PackModel HookModel SetTextModel SetTextSpec RateModel RulesTextModel RulesTextSpec RulesTextFacts LexModel LexSpec LexFacts LexFacts2
  LexFacts3 LexFacts4 LexFacts5 PropsParse PropsSetText PropsRulesText.
Import ListNotations.
Local Open Scope string_scope.
Local Open Scope list_scope.
Local Open Scope N_scope.

(** Every text has tokens, and only those: at each point the longest match, and the
    first rule of the file among those. *)
Theorem C62_scanned : forall s, bytes s -> scans L_INITIAL s (lex s) /\ forall l, scans L_INITIAL s l -> l = lex s.
Proof.
  intros s B. split; [exact (lexed_scans (length s) L_INITIAL s (le_n _) B)|]. intros l S. symmetry. exact (scans_lexed _ _ _ S).
Qed.
Print Assumptions C62_scanned.

(** The longest match is what it says. *)
Theorem C62_longest : forall r s k, longest r s = Some k <->
  (k <= length s)%nat /\ matches r (firstn k s) /\ forall j, (k < j <= length s)%nat -> ~ matches r (firstn j s).
Proof. intros r s k. exact (longest_some s r k). Qed.
Print Assumptions C62_longest.

(** Chains whose words are spelled right are read as they are written, however they are
    laid out: blanks, ends of lines and comments only separate. *)
Theorem C62_words : forall a s, Forall chain_spelled a -> laid_out (concat (map s_chain a)) s -> lex s = concat (map w_chain a).
Proof. exact chains_lexed. Qed.
Print Assumptions C62_words.

(** From the characters to the chains.  Missing: as for [C60_accepts_partial], sets
    whose first element is blank; words that the scanner splits (below). *)
Theorem C62_accepts_partial : forall ce a s, ce_rich ce -> a <> [] -> Forall chain_spelled a -> Forall (chain_ok (ce_pe ce)) a ->
  laid_out (concat (map s_chain a)) s ->
  exists x, parse_text ce s = Ok x /\ Forall2 (chain_written (ce_pe ce)) a x.
Proof.
  intros ce a s CR NE SP OK LO. unfold parse_text. rewrite (C62_words a s SP LO). exact (C60_accepts_partial ce a CR NE OK).
Qed.
Print Assumptions C62_accepts_partial.

(** A text that is accepted and that is laid out as [a] means [a], and nothing else. *)
Theorem C62_reads : forall ce a s x, ce_ok ce -> Forall chain_spelled a -> laid_out (concat (map s_chain a)) s -> parse_text ce s = Ok x ->
  Forall2 (chain_written (ce_pe ce)) a x.
Proof.
  intros ce a s x CO SP LO E. unfold parse_text in E. rewrite (C62_words a s SP LO) in E. destruct (C60_reads ce _ x CO E) as (b & _ & EQ & F).
  apply C60_one_reading in EQ. subst b. exact F.
Qed.
Print Assumptions C62_reads.

(** *** What goes wrong *)

(** A character that is not ASCII (or a NUL) between rules ends the ruleset: bfcli drops
    what follows, whatever it is, and reports no error. *)
Theorem C62_dropped_refuted : forall ce a s c rest, Forall chain_spelled a -> laid_out (concat (map s_chain a)) s -> c = 0 \/ 128 <= c < 256 ->
  parse_text ce (s ++ 32 :: c :: rest) = parse_text ce s.
Proof. intros ce a s c rest F LO H. unfold parse_text. rewrite (cut_lexed a s c rest F LO H). reflexivity. Qed.
Print Assumptions C62_dropped_refuted.

(** A rule as a text. *)
Definition ex_rule_text (s : string) : cstr := lit "chain c BF_HOOK_TC_INGRESS ACCEPT rule " ++ lit s ++ lit " DROP".
(** Interfaces whose names have a dot (VLANs) or an underscore cannot be matched, although
    the parser of payloads takes them; REDIRECT takes the underscore. *)
Theorem C62_interface_refuted : exists ce, ce_rich ce /\ (forall s, In s ["eth0.100"; "veth_0"] -> exists m, pe_ifindex (ce_pe ce) (lit s) = 7 /\
    matcher_new_from_raw (ce_pe ce) (Some [0; 0; 0; 0]) M_IFACE OP_EQ (lit s) false = Ok m) /\
  parse_text ce (ex_rule_text "meta.iface eq eth0.100") = Er EINVAL /\ parse_text ce (ex_rule_text "meta.iface eq veth_0") = Er EINVAL /\
  (exists x, parse_text ce (ex_rule_text "meta.iface eq veth0") = Ok x) /\
  (exists x, parse_text ce (lit "chain c BF_HOOK_TC_INGRESS ACCEPT rule tcp.dport eq 80 REDIRECT veth_0 out") = Ok x) /\
  parse_text ce (lit "chain c BF_HOOK_TC_INGRESS ACCEPT rule tcp.dport eq 80 REDIRECT eth0.100 out") = Er EINVAL.
Proof.
  set (pe := mkPE (fun _ => 7) (pe_pton6 ex_pe) (pe_percent ex_pe)). exists (mkCE pe (fun _ => ex_heap) (fun _ i => Some i) (fun _ => true) (fun _ => true)).
  split; [|split; [|split; [|split; [|split; [|split]]]]].
  - destruct C60_ex_rich as ((P & H) & R). split; [split; [|exact H]|exact R]. exact P.
  - intros s _. eexists. split; [reflexivity|]. vm_compute. reflexivity.
  - vm_compute. reflexivity.
  - vm_compute. reflexivity.
  - eexists. vm_compute. reflexivity.
  - eexists. vm_compute. reflexivity.
  - vm_compute. reflexivity.
Qed.
Print Assumptions C62_interface_refuted.

(** Words of the language cannot be names: no chain "log", no set "in"... *)
Theorem C62_names_refuted : exists ce, ce_rich ce /\
  parse_text ce (lit "chain log BF_HOOK_XDP ACCEPT") = Er EINVAL /\
  (exists x, parse_text ce (lit "chain logs BF_HOOK_XDP ACCEPT") = Ok x) /\
  parse_text ce (lit "chain c BF_HOOK_XDP ACCEPT set in (tcp.dport) in { 80 } rule (tcp.dport) in in DROP") = Er EINVAL /\
  (exists x, parse_text ce (lit "chain c BF_HOOK_XDP ACCEPT set inn (tcp.dport) in { 80 } rule (tcp.dport) in inn DROP") = Ok x).
Proof.
  exists ex_ce. split; [exact C60_ex_rich|]. split; [vm_compute; reflexivity|]. split; [eexists; vm_compute; reflexivity|]. split; [vm_compute; reflexivity|].
  eexists. vm_compute. reflexivity.
Qed.
Print Assumptions C62_names_refuted.

(** *** Examples *)
Definition ex_source : cstr :=
  lit "# what the web server may get" ++ [10] ++
  lit "chain web BF_HOOK_TC_INGRESS{ifindex=2} ACCEPT" ++ [10] ++
  lit "  set ports (tcp.dport) in { 80; 443 }   # http, https" ++ [10] ++
  lit "  rule ip4.saddr eq 10.0.0.1 (tcp.dport) in ports (ip4.daddr) not in { 10.0.0.2 }" ++ [10; 9] ++
  lit "log link,transport every 2s counter mark 0x20 DROP" ++ [10] ++
  lit "  rule ip4.proto not icmp REDIRECT 3 out" ++ [10].
Example C62_ex_lex : lex ex_source = ex_text.
Proof. vm_compute. reflexivity. Qed.

Ltac chars := match goal with |- Forall ?p ?s => let v := eval vm_compute in s in change (Forall p v) end;
  repeat (apply Forall_cons; [unfold name_char, alnum_char, letter, figure; cbn [In]; lia|]); apply Forall_nil.
Ltac nots := cbn [In reserved map]; intros X; repeat (destruct X as [X|X]; [discriminate X|]); destruct X.
Lemma ex_name s : word_of name_char s -> forallb (fun w => negb (bytes_eqb s w)) (lit "in" :: reserved) = true -> bytes_eqb (firstn 8 s) (lit "BF_HOOK_") = false -> name_spelled s.
Proof.
  intros W R H. split; [exact W|]. rewrite forallb_forall in R.
  assert (NI : forall w, In w (lit "in" :: reserved) -> s <> w).
  { intros w I ->. specialize (R w I). rewrite bytes_eqb_refl in R. discriminate. }
  split; [intros I; exact (NI s (or_intror I) eq_refl)|]. split; [apply NI; left; reflexivity|].
  intros (t & ->). change (firstn 8 (lit "BF_HOOK_" ++ t)) with (lit "BF_HOOK_") in H. rewrite bytes_eqb_refl in H. discriminate.
Qed.
Example C62_ex_spelled : chain_spelled ex_ast.
Proof.
  split; [apply ex_name; [split; [discriminate|chars]|reflexivity|reflexivity]|]. split; [exists H_TC_INGRESS; reflexivity|]. split.
  - constructor; [|constructor]. exists (lit "ifindex"), (lit "2"). split; [reflexivity|]. split; (split; [discriminate|chars]).
  - split; [left; reflexivity|].
    assert (K1 : key_spelled (lit "(tcp.dport)")).
    { exists (lit "tcp.dport"). split; [reflexivity|]. apply (Cm_last [] (lit "tcp.dport") []); [constructor| |constructor].
      exists (lit "tcp"), (lit "dport"). split; [reflexivity|]. split; (split; [discriminate|chars]). }
    assert (K2 : key_spelled (lit "(ip4.daddr)")).
    { exists (lit "ip4.daddr"). split; [reflexivity|]. apply (Cm_last [] (lit "ip4.daddr") []); [constructor| |constructor].
      exists (lit "ip4"), (lit "daddr"). split; [reflexivity|]. split; (split; [discriminate|chars]). }
    assert (P : name_spelled (lit "ports")) by (apply ex_name; [split; [discriminate|chars]|reflexivity|reflexivity]).
    assert (IG : forall s, word_of alnum_char s -> integer s) by (intros s W; exists s; auto).
    split; [|constructor; [|constructor; [|constructor]]].
    + constructor; [|constructor]. split; [exact P|]. split; [exact K1|]. exists (lit " 80; 443 "). split; [reflexivity|]. split; [repeat constructor|]. nots.
    + split; [|split; [|exact (or_intror (or_introl eq_refl))]].
      * constructor; [|constructor; [|constructor; [|constructor]]].
        { exists M_IP4_SADDR. split; [reflexivity|]. split; [left; reflexivity|]. exists (lit "10"), (lit "0"), (lit "0"), (lit "1").
          split; [reflexivity|]. repeat split; apply IG; (split; [discriminate|chars]). }
        { split; [exact K1|exact P]. }
        { split; [exact K2|]. exists (lit " 10.0.0.2 "). split; [reflexivity|]. split; [repeat constructor|]. nots. }
      * constructor; [|constructor; [exact Logic.I|constructor; [|constructor]]].
        { split; [apply Forall_cons; [|apply Forall_cons; [|apply Forall_nil]]; (apply ex_name; [split; [discriminate|chars]|reflexivity|reflexivity])|]. exists (lit "2"), (lit "s"). split; [reflexivity|].
          split; [exists (lit "2"); split; [split; [discriminate|chars]|left; reflexivity]|split; [discriminate|chars]]. }
        { split; [apply IG; split; [discriminate|chars]|]. split; [nots|]. split; discriminate. }
    + split; [|split; [constructor|]].
      * constructor; [|constructor]. exists M_IP4_PROTO. split; [reflexivity|]. split; [exact Logic.I|]. split; [split; [discriminate|chars]|]. split; [nots|discriminate].
      * split; [|exact (or_intror (or_introl eq_refl))]. split; [split; [discriminate|chars]|]. split; [nots|]. intros (t & E). discriminate E.
Qed.
Example C62_ex_laid_out : laid_out (concat (map s_chain [ex_ast])) (spaced (concat (map s_chain [ex_ast]))) /\
  firstn 42 (spaced (concat (map s_chain [ex_ast]))) = lit "chain web BF_HOOK_TC_INGRESS {ifindex=2 }A".
Proof. split; [apply spaced_laid_out|vm_compute; reflexivity]. Qed.

(** "caf" and a letter of two bytes, in a rule and in a comment. *)
Example C62_ex_dropped :
  let one := lit "chain c BF_HOOK_XDP ACCEPT rule tcp.dport eq 80 DROP " in
  let two := lit " rule tcp.dport eq 22 DROP" in
  (exists x, parse_text ex_ce (one ++ [195; 169] ++ two) = Ok x /\ parse_text ex_ce one = Ok x) /\
  (exists x, parse_text ex_ce (one ++ two) = Ok x /\ parse_text ex_ce (one ++ lit "# caf" ++ [195; 169; 10] ++ two) = Ok x) /\
  lex (one ++ two) <> lex one.
Proof.
  cbv zeta. split; [|split].
  - eexists. split; vm_compute; reflexivity.
  - eexists. split; vm_compute; reflexivity.
  - vm_compute. discriminate.
Qed.
