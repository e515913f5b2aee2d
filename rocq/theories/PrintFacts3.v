(** Sets are shown as texts that describe them. *)
From Coq Require Import String NArith List Bool Arith Lia.
From Verif Require Import Bytes Types GenModel BytesFacts StrModel StrSpec EnumModel EnumFacts ParseModel ParseSpec ParseFacts ParseFacts2 ParseFacts3 HashModel SetModel SetSpec SetApiFacts SetApiFacts2
  PackSpec SetTextModel SetTextSpec SetTextFacts PrintModel PrintSpec PrintFacts PrintFacts2 NewFacts PackFacts5.
Import ListNotations.
Local Open Scope string_scope.
Local Open Scope list_scope.
Local Open Scope N_scope.
Local Open Scope res_scope.

(** *** One component *)
Lemma write_more old v rest : (length v <= length old)%nat -> write (old ++ rest) v = write old v ++ rest.
Proof. intros L. unfold write. rewrite skipn_app. replace (length v - length old)%nat with 0%nat by lia. cbn [skipn]. symmetry. apply app_assoc_reverse. Qed.
(** A component that was read from a text is shown as a text that reads the same, whatever
    follows it in the element. *)
Lemma back_value pe se t p pr w v : penv_ok pe -> consistent pe se -> parser_of pe t OP_IN = Some p -> print_of se t OP_IN = Some pr ->
  value pe t w v -> length v = comp_size t /\ forall rest, value pe t (pr (v ++ rest)) v.
Proof.
  intros P C A B (p' & old & A' & L & BO & E). rewrite A in A'. injection A' as <-.
  assert (NP : is_percent t = false) by (destruct t; try reflexivity; discriminate A).
  pose proof (back_all _ _ _ _ _ _ P C NP A B) as K.
  assert (SZ : exists n, ops_size t OP_IN = Some n /\ comp_size t = n) by (destruct t; try discriminate A; eexists; split; reflexivity).
  destruct SZ as (n & SZ & CS). destruct (parser_keeps _ _ _ _ _ P A SZ old w v) as (LV & BV); [exact E|congruence|exact BO|].
  split; [lia|]. intros rest. destruct (K _ _ _ E) as (v0 & W & R1 & _).
  assert (L0 : (length v0 <= length old)%nat) by (rewrite W in LV; unfold write in LV; rewrite app_length, skipn_length in LV; lia).
  assert (E2 : p (old ++ rest) w = Ok (v ++ rest)) by (rewrite R1, write_more by exact L0; rewrite W; reflexivity).
  destruct (K _ _ _ E2) as (v1 & W1 & R2 & R3). exists p, old. split; [exact A|]. split; [exact L|]. split; [exact BO|].
  rewrite R3. f_equal. assert (X : Ok (write old v1) = Ok v) by (rewrite <- E, R2; reflexivity). injection X as X. exact X.
Qed.

(** *** Texts without separators *)
Definition tidy_char (c : N) : bool := negb (is_blank c || elem_sep c || comp_sep c || key_sep c).
Definition tidy (s : cstr) : Prop := s <> [] /\ forallb tidy_char s = true.
Lemma tidy_app a b : tidy a -> forallb tidy_char b = true -> tidy (a ++ b).
Proof. intros (N & A) B. split; [destruct a; [congruence|discriminate]|]. rewrite forallb_app, A, B. reflexivity. Qed.
Lemma tidy_dec n : tidy (dec n).
Proof.
  destruct (dec_decimal n) as ((E & D & NE) & _). split; [exact E|]. apply forallb_forall. intros x I. rewrite Forall_forall in D || idtac.
  assert (R : 48 <= x <= 57) by (apply D; exact I). unfold tidy_char, is_blank, elem_sep, comp_sep, key_sep.
  apply negb_true_iff. rewrite !orb_false_iff. rewrite !andb_false_iff. repeat rewrite N.eqb_neq. rewrite !N.leb_gt. lia.
Qed.
Lemma tidy_ntop4 a : tidy (ntop4 a).
Proof.
  unfold ntop4. apply tidy_app; [apply tidy_dec|]. cbn [forallb]. change (tidy_char 46) with true. cbn [andb].
  repeat (rewrite forallb_app, (proj2 (tidy_dec _)); cbn [forallb andb]; change (tidy_char 46) with true; cbn [andb]). apply tidy_dec.
Qed.
Lemma tidy_ip6 s : s <> [] -> forallb ip6_char s = true -> tidy s.
Proof.
  intros N F. split; [exact N|]. rewrite forallb_forall in *. intros c I. specialize (F c I). unfold ip6_char, isdigit in F. unfold tidy_char, is_blank, elem_sep, comp_sep, key_sep.
  apply negb_true_iff. rewrite !orb_false_iff. rewrite !andb_false_iff. repeat rewrite N.eqb_neq. rewrite !N.leb_gt.
  rewrite !orb_true_iff in F. rewrite !andb_true_iff in F. rewrite !N.leb_le, !N.eqb_eq in F. lia.
Qed.
Definition tidyb (s : cstr) : bool := match s with [] => false | _ => forallb tidy_char s end.
Lemma tidyb_ok s : tidyb s = true -> tidy s.
Proof. destruct s; [discriminate|]. intros H. split; [discriminate|exact H]. Qed.
Definition named_tidy (t : table) : bool := forallb (fun v => tidyb (print_named t [v])) (below 256).
Lemma tidy_named t v rest : named_tidy t = true -> bytes v -> (1 <= length v)%nat -> tidy (print_named t (v ++ rest)).
Proof.
  intros H B L. destruct v as [|x v]; [cbn in L; lia|]. inversion B as [|? ? Bx]; subst. unfold byte in Bx.
  replace (print_named t ((x :: v) ++ rest)) with (print_named t [x]) by reflexivity.
  unfold named_tidy in H. rewrite forallb_forall in H. apply tidyb_ok, H, below_in. exact Bx.
Qed.
Lemma named_tidy_all : named_tidy ipproto_strs = true /\ named_tidy icmp_strs = true /\ named_tidy icmpv6_strs = true /\ named_tidy [] = true.
Proof. repeat split; vm_compute; reflexivity. Qed.
Lemma value_bytes pe t w v : penv_ok pe -> value pe t w v -> length v = comp_size t /\ bytes v.
Proof.
  intros P (p & old & A & L & B & E). assert (SZ : exists n, ops_size t OP_IN = Some n /\ comp_size t = n) by (destruct t; try discriminate A; eexists; split; reflexivity).
  destruct SZ as (n & SZ & CS). rewrite CS. apply (parser_keeps _ _ _ _ _ P A SZ old w v E); [congruence|exact B].
Qed.
Lemma firstn_app_le {A} n (a b : list A) : (n <= length a)%nat -> firstn n (a ++ b) = firstn n a.
Proof. intros L. rewrite firstn_app. replace (n - length a)%nat with 0%nat by lia. cbn. apply app_nil_r. Qed.
Lemma skipn_app_le {A} n (a b : list A) : (n <= length a)%nat -> skipn n (a ++ b) = skipn n a ++ b.
Proof. intros L. rewrite skipn_app. replace (n - length a)%nat with 0%nat by lia. reflexivity. Qed.
Lemma tidy_value pe se t pr w v rest : penv_ok pe -> consistent pe se -> print_of se t OP_IN = Some pr -> value pe t w v -> tidy (pr (v ++ rest)).
Proof.
  intros P C B V. destruct (value_bytes _ _ _ _ P V) as (L & Bv). destruct named_tidy_all as (N1 & N2 & N3 & N4).
  assert (A6 : forall l : list N, (16 <= length l)%nat -> bytes l -> exists s, se_ntop6 se (firstn 16 l) = Some s /\ tidy s).
  { intros l Ll Bl. destruct (co_ip6 _ _ C (firstn 16 l)) as (s & S1 & _ & S2 & _ & S3 & _); [apply firstn_len; exact Ll|apply bytes_firstn; exact Bl|].
    exists s. split; [exact S1|]. apply tidy_ip6; assumption. }
  assert (NET : forall s n, tidy s -> tidy (s ++ 47 :: dec n)).
  { intros s n T. apply tidy_app; [exact T|]. cbn [forallb]. change (tidy_char 47) with true. cbn [andb]. apply tidy_dec. }
  destruct t; try discriminate B; injection B as <-; unfold comp_size in L; cbn [ops_size] in L;
    first [ apply tidy_named; [assumption|assumption|lia] | apply tidy_dec | apply tidy_ntop4
          | apply NET, tidy_ntop4 | idtac ].
  all: unfold print_ipv6_addr, print_ipv6_net.
  all: first [ rewrite firstn_app_le by lia; destruct (A6 v) as (s & -> & T); [lia|exact Bv|exact T]
             | rewrite skipn_app_le by lia; rewrite firstn_app_le by (rewrite skipn_length; lia);
               destruct (A6 (skipn 4 v)) as (s & -> & T); [rewrite skipn_length; lia|apply bytes_skipn; exact Bv|apply NET; exact T] ].
Qed.

(** *** Texts without blanks at the ends *)
Definition neat (s : cstr) : Prop := drop_blanks s = s /\ drop_blanks (rev s) = rev s.
Lemma strip_neat s : neat s -> strip s = s.
Proof. intros (A & B). unfold strip. rewrite A, B. apply rev_involutive. Qed.
Lemma drop_spaces k s : drop_blanks (repeat 32 k ++ s) = drop_blanks s.
Proof. induction k as [|k IH]; [reflexivity|exact IH]. Qed.
Lemma strip_spaces k s : strip (repeat 32 k ++ s) = strip s.
Proof. unfold strip. rewrite drop_spaces. reflexivity. Qed.
Lemma strip_blank k : strip (repeat 32 k) = [].
Proof. rewrite <- (app_nil_r (repeat 32 k)), strip_spaces. reflexivity. Qed.
Lemma tidy_char_sep c : tidy_char c = true -> is_blank c = false /\ elem_sep c = false /\ comp_sep c = false /\ key_sep c = false.
Proof. unfold tidy_char. rewrite negb_true_iff, !orb_false_iff. tauto. Qed.
Lemma drop_tidy s t : tidy s -> drop_blanks (s ++ t) = s ++ t.
Proof.
  intros (N & F). destruct s as [|c s]; [congruence|]. cbn [forallb] in F. apply andb_prop in F. destruct F as (F & _). apply tidy_char_sep in F. destruct F as (F & _).
  cbn [app drop_blanks]. rewrite F. reflexivity.
Qed.
Lemma tidy_rev s : tidy s -> tidy (rev s).
Proof.
  intros (N & F). split. { intros E. apply N. rewrite <- (rev_involutive s), E. reflexivity. }
  rewrite forallb_forall in *. intros x I. apply F. apply in_rev. exact I.
Qed.
Lemma neat_tidy s : tidy s -> neat s.
Proof. intros T. split; [rewrite <- (app_nil_r s); apply drop_tidy; exact T|]. rewrite <- (app_nil_r (rev s)). apply drop_tidy, tidy_rev, T. Qed.
Fixpoint join (ws : list cstr) : cstr := match ws with [] => [] | [w] => w | w :: r => w ++ lit ", " ++ join r end.
Lemma join_cons w x r : join (w :: x :: r) = w ++ lit ", " ++ join (x :: r).
Proof. reflexivity. Qed.
Lemma join_neat ws : Forall tidy ws -> ws <> [] -> neat (join ws) /\ join ws <> [].
Proof.
  intros F N. split.
  - split.
    + destruct ws as [|w [|x r]]; [congruence| |]; inversion F; subst; [apply neat_tidy; assumption|]. rewrite join_cons. apply drop_tidy. assumption.
    + induction ws as [|w [|x r] IH]; [congruence| |]; inversion F as [|? ? T R]; subst; [apply neat_tidy; assumption|]. rewrite join_cons. rewrite !rev_app_distr.
      assert (X : exists a b, rev (join (x :: r)) = a :: b /\ is_blank a = false).
      { specialize (IH R ltac:(discriminate)). destruct (rev (join (x :: r))) as [|a b] eqn:E.
        - exfalso. assert (Z : join (x :: r) = []) by (rewrite <- (rev_involutive (join (x :: r))), E; reflexivity). inversion R as [|? ? (T1 & T2) R']; subst.
          destruct r as [|y r]; [cbn in Z; congruence|]. rewrite join_cons in Z. destruct x; [congruence|discriminate Z].
        - exists a, b. split; [reflexivity|]. cbn [drop_blanks] in IH. destruct (is_blank a) eqn:Ea; [|reflexivity]. exfalso.
          assert (L : forall s, (length (drop_blanks s) <= length s)%nat) by (intros s; induction s as [|c s IHs]; cbn [drop_blanks]; [reflexivity|destruct (is_blank c); cbn [length]; lia]).
          pose proof (L b) as Lb. rewrite IH in Lb. cbn [length] in Lb. lia. }
      destruct X as (a & b & X & Ba). rewrite X. cbn [app drop_blanks]. rewrite Ba. reflexivity.
  - destruct ws as [|w r]; [congruence|]. inversion F as [|? ? (T1 & T2) R]; subst. destruct w as [|c w]; [congruence|]. destruct r; discriminate.
Qed.

(** *** Lists of words *)
Lemma pieces_join sep ws : sep 44 = true -> sep 32 = false -> (forall c, tidy_char c = true -> sep c = false) -> Forall tidy ws -> ws <> [] ->
  forall lead tail, match tail with [] => True | c :: r => sep c = true /\ filter nonempty (pieces sep r) = [] end ->
  map strip (filter nonempty (pieces sep (repeat 32 lead ++ join ws ++ tail))) = ws.
Proof.
  intros S44 S32 ST F. assert (W : forall lead w, tidy w -> Forall (fun c => sep c = false) (repeat 32 lead ++ w)).
  { intros lead w (_ & T). apply Forall_forall. intros c I. apply in_app_or in I. destruct I as [I|I]; [apply repeat_spec in I; subst c; exact S32|].
    rewrite forallb_forall in T. apply ST, T, I. }
  assert (NE : forall lead w, tidy w -> nonempty (repeat 32 lead ++ w) = true) by (intros lead w (N & _); destruct lead; [destruct w; [congruence|reflexivity]|reflexivity]).
  induction ws as [|w [|x r] IH]; intros N lead tail TL; [congruence| |]; inversion F as [|? ? T R]; subst.
  - cbn [join]. rewrite app_assoc, pieces_word; [|apply W; exact T|destruct tail; [exact Logic.I|apply TL]]. cbn [filter]. rewrite NE by exact T. cbn [map].
    rewrite strip_spaces, (strip_neat _ (neat_tidy _ T)). destruct tail as [|c r]; [reflexivity|]. destruct TL as (_ & TL). rewrite TL. reflexivity.
  - rewrite join_cons. change (lit ", ") with [44; 32]. rewrite <- !app_assoc. cbn [app]. rewrite app_assoc, pieces_word; [|apply W; exact T|exact S44].
    cbn [filter]. rewrite NE by exact T. cbn [map]. rewrite strip_spaces, (strip_neat _ (neat_tidy _ T)). f_equal.
    apply (IH R ltac:(discriminate) 1%nat tail TL).
Qed.

(** *** Elements *)
Lemma shown_words pe se : penv_ok pe -> consistent pe se -> forall key ws v, values pe key ws v ->
  exists sw, comps_text se key v = join sw /\ Forall tidy sw /\ values pe key sw v.
Proof.
  intros P C. induction 1 as [|t ts w ws v vs V VS IH].
  - exists []. split; [reflexivity|]. split; constructor.
  - destruct IH as (sw & E & T & X). assert (HV := V). destruct HV as (p & old & A & _).
    destruct (printer_there pe se _ _ _ A) as (pr & B). destruct (back_value _ _ _ _ _ _ _ P C A B V) as (L & BK).
    exists (pr (v ++ vs) :: sw). cbn [comps_text]. rewrite B.
    assert (SZ : match ops_size t OP_IN with Some n => n | None => 0%nat end = length v) by (rewrite L; reflexivity). rewrite SZ, skip_app, E.
    split; [|split].
    + inversion X; subst; [cbn [comps_text join]; rewrite app_nil_r; reflexivity|reflexivity].
    + constructor; [exact (tidy_value _ _ _ _ _ _ vs P C B V)|exact T].
    + constructor; [apply BK|exact X].
Qed.
Lemma shown_element pe se key txt e : penv_ok pe -> consistent pe se -> key <> [] -> element pe key txt e ->
  element pe key (comps_text se key e) e /\ neat (comps_text se key e) /\ comps_text se key e <> [] /\
  Forall (fun c => elem_sep c = false) (comps_text se key e).
Proof.
  intros P C K E. destruct (shown_words pe se P C _ _ _ E) as (sw & EQ & T & V). rewrite EQ.
  assert (N : sw <> []) by (intros ->; inversion V; congruence). destruct (join_neat _ T N) as (JN & NE). split; [|split; [exact JN|split; [exact NE|]]].
  - unfold element, component_texts. pose proof (pieces_join comp_sep sw eq_refl eq_refl (fun c H => proj1 (proj2 (proj2 (tidy_char_sep c H)))) T N 0 [] Logic.I) as PJ.
    cbn [repeat app] in PJ. rewrite app_nil_r in PJ. rewrite PJ. exact V.
  - clear -T. induction sw as [|w [|x r] IH]; [constructor| |]; inversion T as [|? ? (_ & A) R]; subst.
    + apply Forall_forall. intros c I. rewrite forallb_forall in A. apply (tidy_char_sep c (A c I)).
    + rewrite join_cons. apply Forall_app. split.
      * apply Forall_forall. intros c I. rewrite forallb_forall in A. apply (tidy_char_sep c (A c I)).
      * apply Forall_app. split; [repeat constructor|apply IH; exact R].
Qed.

(** *** The payload *)
Lemma set_pieces (texts : list cstr) margin close : Forall (fun x => Forall (fun c => elem_sep c = false) x) texts ->
  pieces elem_sep (concat (map (fun x => repeat 32 margin ++ x ++ [10]) texts) ++ repeat 32 close ++ lit "}") =
  map (fun x => repeat 32 margin ++ x) texts ++ [repeat 32 close; []].
Proof.
  assert (SP : forall k, Forall (fun c => elem_sep c = false) (repeat 32 k)) by (intros k; apply Forall_forall; intros c I; apply repeat_spec in I; subst c; reflexivity).
  induction 1 as [|x l F _ IH].
  - cbn [map concat app]. change (lit "}") with [125]. rewrite pieces_word; [reflexivity|apply SP|reflexivity].
  - cbn [map concat]. rewrite <- !app_assoc. rewrite app_assoc. rewrite pieces_word; [|apply Forall_app; split; [apply SP|exact F]|reflexivity].
    cbn [app]. cbv iota. rewrite IH. reflexivity.
Qed.
Lemma shown_set pe se key elems margin close : penv_ok pe -> consistent pe se -> key <> [] -> elems <> [] ->
  Forall (fun e => exists txt, element pe key txt e) elems ->
  Forall2 (element pe key) (element_texts (set_text se margin close key elems)) elems /\ starts_well (set_text se margin close key elems).
Proof.
  intros P C K N F. set (texts := map (comps_text se key) elems).
  assert (A : Forall (fun x => Forall (fun c => elem_sep c = false) x) texts).
  { apply Forall_forall. intros x I. apply in_map_iff in I. destruct I as (e & <- & I). rewrite Forall_forall in F. destruct (F e I) as (txt & E). apply (shown_element _ se _ _ _ P C K E). }
  assert (Q : pieces elem_sep (set_text se margin close key elems) = [] :: [] :: map (fun x => repeat 32 margin ++ x) texts ++ [repeat 32 close; []]).
  { unfold set_text. change (lit "{") with [123]. cbn [app pieces]. change (elem_sep 123) with true. change (elem_sep 10) with true. cbv iota. rewrite <- set_pieces by exact A.
    unfold texts. rewrite map_map. reflexivity. }
  split.
  - unfold element_texts. rewrite Q. cbn [map filter]. change (strip []) with ([] : cstr). cbn [nonempty]. rewrite map_app, filter_app, !map_map.
    cbn [map filter]. rewrite strip_blank. change (strip []) with ([] : cstr). cbn [nonempty]. rewrite app_nil_r.
    unfold texts. rewrite map_map. clear Q A texts. induction elems as [|e l IH]; [constructor|]. inversion F as [|? ? (txt & E) R]; subst.
    destruct (shown_element _ se _ _ _ P C K E) as (S1 & S2 & S3 & _). cbn [map filter]. rewrite strip_spaces, (strip_neat _ S2).
    destruct (comps_text se key e) eqn:Z; [congruence|]. cbn [nonempty]. rewrite <- Z in *. constructor; [exact S1|]. destruct l; [constructor|]. apply IH; [discriminate|exact R].
  - intros w ws H. rewrite Q in H. cbn [filter nonempty] in H. unfold texts in H. destruct elems as [|e l]; [congruence|]. inversion F as [|? ? (txt & E) R]; subst.
    destruct (shown_element _ se _ _ _ P C K E) as (_ & S2 & S3 & _). cbn [map app filter] in H.
    assert (NE : nonempty (repeat 32 margin ++ comps_text se key e) = true) by (destruct margin; [destruct (comps_text se key e); [congruence|reflexivity]|reflexivity]).
    rewrite NE in H. injection H as <- _. rewrite strip_spaces, (strip_neat _ S2). exact S3.
Qed.

(** *** The key *)
Lemma mtype_str_inj a b s : mtype_to_str a = Some s -> mtype_to_str b = Some s -> a = b.
Proof. intros A B. destruct mtype_inverse as (_ & I & _). apply I in A, B. congruence. Qed.
Lemma name_tidy t w : mtype_to_str t = Some w -> tidy w.
Proof. intros H. apply tidyb_ok. destruct t; cbv in H; try discriminate H; injection H as <-; vm_compute; reflexivity. Qed.
Lemma shown_key texts key : key_names texts key -> texts <> [] -> key_names (key_texts (key_text key)) key.
Proof.
  intros K N.
  assert (X : key_list key = join texts /\ Forall tidy texts).
  { clear N. induction K as [|w t ws ts E K IH]; [split; [reflexivity|constructor]|]. destruct IH as (IH & F). cbn [key_list]. rewrite E. split; [|constructor; [exact (name_tidy _ _ E)|exact F]].
    inversion K; subst; [cbn [key_list join]; rewrite app_nil_r; reflexivity|]. rewrite IH. reflexivity. }
  destruct X as (X & F). unfold key_texts, key_text. rewrite X. change (lit "(") with [40]. change (lit ")") with [41].
  rewrite pieces_sep by (repeat constructor).
  pose proof (pieces_join key_sep texts eq_refl eq_refl (fun c H => proj2 (proj2 (proj2 (tidy_char_sep c H)))) F N 0 [41] (conj eq_refl eq_refl)) as PJ.
  cbn [repeat app] in PJ. rewrite PJ. exact K.
Qed.

Lemma key_names_fun ws : forall a b, key_names ws a -> key_names ws b -> a = b.
Proof.
  induction ws as [|w ws IH]; intros a b A B; inversion A; inversion B; subst; [reflexivity|]. f_equal; [|apply IH; assumption].
  eapply mtype_str_inj; eassumption.
Qed.

(** *** Bytes that a text does not fix: the end of an IPv6 network *)
Definition full (t : mtype) : Prop := t <> M_IP6_SNET /\ t <> M_IP6_DNET.
Lemma value_fun pe t w v v' : penv_ok pe -> full t -> value pe t w v -> value pe t w v' -> v' = v.
Proof.
  intros P (F1 & F2) (p & old & A & L & B & E) (p' & old' & A' & L' & B' & E'). rewrite A in A'. injection A' as <-.
  destruct t; try discriminate A; try congruence; cbn in A; injection A as <-; unfold comp_size in *; cbn [ops_size] in *;
  (* one byte *)
  first
    [ unfold parse_l4_proto, parse_icmp_type, parse_icmp_code, parse_icmpv6_type in *; rewrite parse_named_value in E, E'; binv E; apply Ok_inj in E; binv E'; apply Ok_inj in E'; subst v v';
      assert (a = a0) by congruence; subst a0; destruct old as [|x [|]]; try discriminate L; destruct old' as [|x' [|]]; try discriminate L'; reflexivity
    | idtac ].
  all: try (unfold parse_l4_port in E, E'; destruct (strtoul 10 w) as [[q rest] er]; destruct rest; [|discriminate]; destruct (q <=? 65535); [|discriminate];
      apply Ok_inj in E, E'; subst v v'; unfold write; rewrite !skipn_all2 by (rewrite le_enc_length; lia); reflexivity).
  all: try (unfold parse_ipv4_addr in E, E'; destruct (inet_pton4 w) as [q|] eqn:Q; [|discriminate]; apply Ok_inj in E, E'; subst v v';
      apply inet_pton4_iff, dotted_len in Q; unfold write; rewrite !skipn_all2 by lia; reflexivity).
  all: try (unfold parse_ipv6_addr in E, E'; destruct (pe_pton6 pe w) as [q|] eqn:Q; [|discriminate]; apply Ok_inj in E, E'; subst v v';
      destruct (proj1 P _ _ Q); unfold write; rewrite !skipn_all2 by lia; reflexivity).
  all: unfold parse_ipv4_net in E, E'; destruct (isdigit (first_char w)); [|discriminate]; apply parse_net_inv in E; destruct E as (n & a & -> & _ & _ & (s & Q) & R);
      rewrite R in E'; apply Ok_inj in E'; subst v'; apply inet_pton4_iff, dotted_len in Q; unfold write; rewrite !skipn_all2 by (rewrite app_length, le_enc_length; lia); reflexivity.
Qed.
Lemma values_fun pe : penv_ok pe -> forall key ws v, Forall full key -> values pe key ws v -> forall v', values pe key ws v' -> v' = v.
Proof.
  intros P key ws v F V. induction V as [|t ts w ws v vs A V IH]; intros v' V'; inversion V'; subst; [reflexivity|]. inversion F; subst. f_equal; [eapply value_fun; eauto|apply IH; assumption].
Qed.

(** *** Sets *)
Lemma firsts_incl elems : forall e, In e (firsts elems) -> In e elems.
Proof.
  unfold firsts. assert (G : forall l acc e, In e (fold_left (fun a x => if In_bytes a x then a else a ++ [x]) l acc) -> In e acc \/ In e l).
  { induction l as [|x l IH]; intros acc e H; cbn [fold_left] in H; [auto|]. apply IH in H. destruct H as [H|H]; [|right; right; exact H].
    destruct (In_bytes acc x); [auto|]. apply in_app_or in H. destruct H as [H|[H|[]]]; [auto|]. right. left. exact H. }
  intros e H. apply G in H. destruct H as [[]|H]; exact H.
Qed.
Lemma firsts_idem elems : firsts (firsts elems) = firsts elems.
Proof.
  assert (D : forall l acc, NoDup acc -> NoDup (fold_left (fun a x => if In_bytes a x then a else a ++ [x]) l acc)).
  { induction l as [|x l IH]; intros acc N; cbn [fold_left]; [exact N|]. apply IH. destruct (In_bytes acc x) eqn:E; [exact N|].
    assert (NI : ~ In x acc). { intros I. unfold In_bytes in E. apply not_true_iff_false in E. apply E. apply existsb_exists. exists x. split; [exact I|]. apply bytes_eqb_eq. reflexivity. }
    clear -N NI. induction acc as [|y acc IH]; cbn; [repeat constructor; auto|]. inversion N; subst. constructor.
    - intros I. apply in_app_or in I. destruct I as [I|[I|[]]]; [auto|]. subst. apply NI. left. reflexivity.
    - apply IH; [assumption|]. intros I. apply NI. right. exact I. }
  assert (S : forall l acc, NoDup (acc ++ l) -> fold_left (fun a x => if In_bytes a x then a else a ++ [x]) l acc = acc ++ l).
  { induction l as [|x l IH]; intros acc N; cbn [fold_left]; [symmetry; apply app_nil_r|].
    assert (E : In_bytes acc x = false). { apply not_true_iff_false. intros E. unfold In_bytes in E. apply existsb_exists in E. destruct E as (y & I & E). apply bytes_eqb_eq in E. subst y.
      apply NoDup_remove_2 in N. apply N. apply in_or_app. left. exact I. }
    rewrite E, IH; [rewrite <- app_assoc; reflexivity|rewrite <- app_assoc; exact N]. }
  unfold firsts at 1. rewrite S; [reflexivity|]. apply D. constructor.
Qed.
Theorem set_shown fuel pe se heap nd tb name raw_key payload u : penv_ok pe -> consistent pe se -> heap_ok heap ->
  set_new_from_raw fuel pe heap nd tb name raw_key payload = Ok u -> Forall full (u_key u) ->
  exists elems, set_read u = Ok elems /\ (elems <> [] -> forall margin close fuel' heap' nd' tb',
    let txt := set_text se margin close (u_key u) elems in
    heap_ok heap' -> (forall i, heap' i <> None) -> generous nd' tb' -> 16 + 4 * N.of_nat (length elems) < MAX_CAP -> (length txt < fuel')%nat ->
    exists u', set_new_from_raw fuel' pe heap' nd' tb' name (key_text (u_key u)) txt = Ok u' /\ same_set u' u).
Proof.
  intros P C HO H F. destruct (from_raw_sound _ _ _ _ _ _ _ _ _ P HO H) as (key & es & K & E & S). destruct S as (S1 & S2 & S3 & S4 & S5).
  exists (firsts es). split; [exact S5|]. intros N margin close fuel' heap' nd' tb'. cbv zeta. rewrite S2 in *. set (txt := set_text se margin close key (firsts es)). intros HO' HN' G MC L.
  assert (GK : good_key key).
  { unfold set_new_from_raw in H. binv H. binv H. rename a into key', a0 into u0. destruct (new_sized _ _ _ E1) as (_ & GK). apply parse_key_ok in E0.
    destruct E0 as (_ & E0). rewrite (key_names_fun _ _ _ K E0). exact GK. }
  assert (KN : key <> []) by (destruct GK as ((GK & _) & _); destruct key; [cbn in GK; lia|discriminate]).
  assert (FE : Forall (fun e => exists txt, element pe key txt e) (firsts es)).
  { apply Forall_forall. intros e I. apply firsts_incl in I. clear -E I. induction E as [|x y l k A B IH]; [contradiction|]. destruct I as [ <- |I]; eauto. }
  destruct (shown_set pe se key (firsts es) margin close P C KN N FE) as (T1 & T2). fold txt in T1, T2.
  assert (K' : key_names (key_texts (key_text key)) key) by (apply (shown_key _ _ K); intros Z; rewrite Z in K; inversion K; congruence).
  destruct (from_raw_succeeds fuel' pe heap' nd' tb' name (key_text key) txt key (firsts es) P HO' HN' G MC T2 L K' GK T1) as (u' & U).
  exists u'. split; [exact U|]. destruct (from_raw_sound _ _ _ _ _ _ _ _ _ P HO' U) as (key2 & es2 & K2 & E2 & R1 & R2 & R3 & R4 & R5).
  pose proof (key_names_fun _ _ _ K2 K') as KK. rewrite KK in E2, R2, R3, R4.
  assert (es2 = firsts es).
  { clear -P F T1 E2. revert es2 E2. induction T1 as [|x y l k A B IH]; intros es2 E2; inversion E2; subst; [reflexivity|]. f_equal; [|apply IH; assumption].
    match goal with Z : element _ _ x ?q |- ?q = _ => exact (values_fun pe P key _ _ F A _ Z) end. }
  subst es2. unfold same_set. rewrite S1, S2, S3, S5, R1, R2, R3, R5, firsts_idem. repeat split; auto.
  apply eq_true_iff_eq. rewrite S4, R4. reflexivity.
Qed.
