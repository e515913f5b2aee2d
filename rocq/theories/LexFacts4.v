(** The tokens of sentences. *)
From Coq Require Import String NArith List Bool Arith Lia.
From Verif Require Import Bytes Types GenModel BytesFacts StrModel StrFacts EnumModel PrintFacts2 RulesTextModel RulesTextSpec LexModel LexSpec LexFacts LexFacts2 LexFacts3.
Import ListNotations.
Local Open Scope string_scope.
Local Open Scope list_scope.
Local Open Scope N_scope.

(** The rule of state [st] that returns to the initial state: its payload. *)
Definition is_payload (st : lstate) (r : lrule) : bool :=
  match lr_state r, lr_act r with Some s, A_emit _ (Some n) => lstate_beq s st && (lstate_beq n L_INITIAL || lstate_beq n L_REDIRECT_DIR) | _, _ => false end.
Fixpoint find_rule (f : lrule -> bool) (l : list lrule) : nat := match l with [] => O | r :: l' => if f r then O else S (find_rule f l') end.
Definition pay_rule (st : lstate) : nat := find_rule (is_payload st) lrules.
Definition NAME_RULE : nat := length lrules - 2.

Ltac notin := let X := fresh in intros X; cbn [In] in *; repeat match goal with H : _ \/ _ |- _ => destruct H as [H|H] end; try congruence; auto.

Lemma rule_tok st cl except i r hooks mk n w :
  nth_error lrules i = Some r -> active st r = true -> lr_act r = A_emit mk n -> others cl except st i hooks = true ->
  starts w -> Forall (fun x => in_cls cl x = true) w -> ~ In w except -> (hooks = false -> ~ matches hook_pattern w) -> matches (lr_re r) w ->
  tok st w (mk w) (next_state n st).
Proof.
  intros N A E O ST F X H M. apply tok_best; [exact ST|]. rewrite <- E. apply (first_word st cl except i r w hooks); auto; [destruct w; [destruct ST|discriminate]|].
  apply whole_iff. exact M.
Qed.
Lemma word_in (p : N -> Prop) cl w : (forall x, p x -> in_cls cl x = true) -> word_of p w -> Forall (fun x => in_cls cl x = true) w.
Proof. intros H (_ & F). apply Forall_forall. intros x X. rewrite Forall_forall in F. apply H. exact (F x X). Qed.
Lemma word_starts (p : N -> Prop) w t : (forall x, p x -> in_cls word_start x = true) -> word_of p w -> starts (w ++ t).
Proof. intros H (NE & F). destruct w as [|x w]; [congruence|]. cbn [starts app]. apply H. exact (Forall_inv F). Qed.

(** ** Names *)
Lemma name_tok st s : quiet st = true -> name_spelled s -> tok st s (T_STRING s) st.
Proof.
  intros Q (W & R & NI & H). pose proof W as W2. assert (ST : starts s).
  { rewrite <- (app_nil_r s). apply (word_starts name_char); [|exact W]. intros x X. unfold name_char, letter, figure in X. unfold word_start. incls. }
  assert (E : exists r, nth_error lrules NAME_RULE = Some r /\ lr_act r = A_emit T_STRING None /\ lr_re r = name_re /\ lr_state r = None) by (eexists; repeat split).
  destruct E as (r & N & A & RE & SA).
  apply (rule_tok st name_cls (lit "in" :: reserved) NAME_RULE r false T_STRING None); auto.
  - unfold active. rewrite SA. reflexivity.
  - destruct st; try discriminate; vm_compute; reflexivity.
  - apply (word_in name_char); [exact name_char_cls|exact W].
  - intros [X|X]; [apply NI; auto|exact (R X)].
  - intros _ X. exact (H (hook_pattern_like _ X)).
  - rewrite RE. apply name_mt. exact W.
Qed.

(** ** Payloads *)
Definition alnum_cls : cls := [digit; lower; upper].
Lemma alnum_in x : alnum_char x -> in_cls alnum_cls x = true.
Proof. unfold alnum_char, letter, figure, alnum_cls, digit, lower, upper. intros H. incls. Qed.
Lemma int_mt s : integer s -> matches int_re s.
Proof.
  intros (d & W & [ -> | -> ]).
  - change d with ([] ++ d). apply Mt_cat; [apply Mt_left; constructor|]. apply (word_cls alnum_cls alnum_char); [exact alnum_in|exact W].
  - change (45 :: d) with ([45] ++ d). apply Mt_cat; [apply Mt_right; apply Mt_left; apply chr_mt|]. apply (word_cls alnum_cls alnum_char); [exact alnum_in|exact W].
Qed.
Lemma alnum_start x : alnum_char x -> in_cls word_start x = true.
Proof. unfold alnum_char, letter, figure, word_start. intros H. incls. Qed.
Lemma int_starts s t : integer s -> starts (s ++ t).
Proof. intros (d & W & [ -> | -> ]); [apply (word_starts alnum_char); [exact alnum_start|exact W]|reflexivity]. Qed.
(** Letters, digits and [extra]. *)
Definition with_ (extra : list N) : cls := digit :: lower :: upper :: map (fun x => (x, x)) extra.
Lemma with_alnum extra x : alnum_char x -> in_cls (with_ extra) x = true.
Proof. intros H. apply alnum_in in H. unfold with_, in_cls in *. cbn [existsb alnum_cls] in *. rewrite !orb_assoc in *. rewrite orb_false_r in H. rewrite H. reflexivity. Qed.
Lemma with_extra extra x : In x extra -> in_cls (with_ extra) x = true.
Proof. intros H. apply in_cls_iff. exists (x, x). cbn [fst snd]. split; [|lia]. do 3 right. apply in_map_iff. exists x. auto. Qed.
Lemma int_in extra s : In 45 extra -> integer s -> Forall (fun x => in_cls (with_ extra) x = true) s.
Proof.
  intros I (d & W & [ -> | -> ]); [|constructor; [apply with_extra; exact I|]]; apply (word_in alnum_char); auto; intros x X; apply with_alnum; exact X.
Qed.

Lemma ip4_mt s : ip4_spelled s -> matches (R_cat int_re (R_cat dot (R_cat int_re (R_cat dot (R_cat int_re (R_cat dot int_re)))))) s.
Proof.
  intros (a & b & c & d & -> & A & B & C & D). apply Mt_cat; [apply int_mt; exact A|]. change (46 :: b ++ 46 :: c ++ 46 :: d) with ([46] ++ b ++ [46] ++ c ++ [46] ++ d).
  repeat (apply Mt_cat; [first [apply chr_mt|apply int_mt; assumption]|]). apply int_mt. exact D.
Qed.
Lemma ip4_in extra s : In 45 extra -> In 46 extra -> ip4_spelled s -> Forall (fun x => in_cls (with_ extra) x = true) s.
Proof.
  intros I J (a & b & c & d & -> & A & B & C & D).
  repeat (apply Forall_app; split; [apply int_in; assumption|]; constructor; [apply with_extra; exact J|]). apply int_in; assumption.
Qed.
Lemma decimal_mt s : decimal_spelled s -> matches float_re s.
Proof.
  assert (FG : forall x, figure x -> in_cls [digit] x = true) by (unfold figure, digit; intros x X; incls).
  intros (d & W & [ -> |(f & -> & V)]).
  - rewrite <- (app_nil_r d). apply Mt_cat; [apply (word_cls [digit] figure); auto|]. apply Mt_left. constructor.
  - apply Mt_cat; [apply (word_cls [digit] figure); auto|]. apply Mt_right. change (46 :: f) with ([46] ++ f). apply Mt_cat; [apply chr_mt|apply (word_cls [digit] figure); auto].
Qed.
Lemma decimal_in extra s : In 46 extra -> decimal_spelled s -> Forall (fun x => in_cls (with_ extra) x = true) s.
Proof.
  assert (FG : forall x, figure x -> in_cls (with_ extra) x = true) by (intros x X; apply with_alnum; right; exact X).
  intros I (d & W & [ -> |(f & -> & V)]); [apply (word_in figure); auto|]. apply Forall_app. split; [apply (word_in figure); auto|].
  constructor; [apply with_extra; exact I|apply (word_in figure); auto].
Qed.
Lemma decimal_starts s t : decimal_spelled s -> starts (s ++ t).
Proof.
  assert (FG : forall x, figure x -> in_cls word_start x = true) by (intros x X; apply alnum_start; right; exact X).
  intros (d & W & [ -> |(f & -> & _)]); [|rewrite <- app_assoc]; apply (word_starts figure); auto.
Qed.
Lemma flags_mt s : flag_words s -> matches (plus (R_cat (plus (R_cls [lower; upper])) (maybe (text ",")))) s.
Proof.
  assert (LT : forall x, letter x -> in_cls [lower; upper] x = true) by (unfold letter, lower, upper; intros x X; incls).
  assert (W1 : forall w, word_of letter w -> matches (R_cat (plus (R_cls [lower; upper])) (maybe (text ","))) w).
  { intros w W. rewrite <- (app_nil_r w). apply Mt_cat; [apply (word_cls [lower; upper] letter); auto|]. apply Mt_left. constructor. }
  assert (W2 : forall w, word_of letter w -> matches (R_cat (plus (R_cls [lower; upper])) (maybe (text ","))) (w ++ [44])).
  { intros w W. apply Mt_cat; [apply (word_cls [lower; upper] letter); auto|]. apply Mt_right. apply chr_mt. }
  assert (ST : forall r s, matches (plus r) s -> matches (R_star r) s).
  { intros r s0 M. apply mt_cat in M. destruct M as (u & v & -> & A & B). apply Mt_more; assumption. }
  induction 1 as [w W|w W|w s W _ IH].
  - rewrite <- (app_nil_r w). apply Mt_cat; [apply W1; exact W|constructor].
  - rewrite <- (app_nil_r (w ++ [44])). apply Mt_cat; [apply W2; exact W|constructor].
  - change (44 :: s) with ([44] ++ s). rewrite app_assoc. apply Mt_cat; [apply W2; exact W|]. apply ST. exact IH.
Qed.
Lemma flags_in s : flag_words s -> Forall (fun x => in_cls (with_ [44]) x = true) s.
Proof.
  assert (LT : forall w, word_of letter w -> Forall (fun x => in_cls (with_ [44]) x = true) w) by (intros w W; apply (word_in letter); [intros x X; apply with_alnum; left; exact X|exact W]).
  induction 1 as [w W|w W|w s W _ IH]; [auto| |]; (apply Forall_app; split; [auto|]; constructor; [reflexivity|auto]).
Qed.
Lemma flags_starts s : flag_words s -> starts s.
Proof.
  assert (LT : forall w t, word_of letter w -> starts (w ++ t)) by (intros w t W; apply (word_starts letter); [intros x X; apply alnum_start; left; exact X|exact W]).
  intros F. destruct F; [rewrite <- (app_nil_r w)|..]; apply LT; assumption.
Qed.

(** The state that a type of matcher leads to. *)
Definition state_of (t : mtype) : lstate :=
  match t with
  | M_IFACE => L_META_IFACE | M_L3_PROTO => L_META_L3_PROTO | M_L4_PROTO | M_IP4_PROTO | M_IP6_NEXTHDR => L_L4_PROTO
  | M_PROBABILITY | M_FLOW_PROBABILITY => L_META_PROBA | M_MARK => L_META_MARK | M_FLOW_HASH => L_META_FLOW_HASH
  | M_SPORT | M_DPORT | M_TCP_SPORT | M_TCP_DPORT | M_UDP_SPORT | M_UDP_DPORT => L_PORT
  | M_IP4_SADDR | M_IP4_DADDR => L_IPV4_ADDR | M_IP4_SNET | M_IP4_DNET => L_IP4_NET | M_IP4_DSCP => L_IP4_DSCP
  | M_IP6_SADDR | M_IP6_DADDR => L_IP6_ADDR | M_IP6_SNET | M_IP6_DNET => L_IP6_NET | M_IP6_DSCP => L_IP6_DSCP
  | M_ICMP_TYPE | M_ICMPV6_TYPE => L_ICMP_TYPE | M_ICMP_CODE | M_ICMPV6_CODE => L_ICMP_CODE | M_TCP_FLAGS => L_TCP_FLAGS
  | M_SET => L_INITIAL
  end.
Definition payload_re (st : lstate) : re :=
  match nth_error lrules (pay_rule st) with Some r => lr_re r | None => R_none end.
Lemma pay_tok st cl except s : others cl except st (pay_rule st) true = true ->
  (exists r, nth_error lrules (pay_rule st) = Some r /\ lr_state r = Some st /\ lr_act r = A_emit T_PAYLOAD (Some L_INITIAL)) ->
  starts s -> Forall (fun x => in_cls cl x = true) s -> ~ In s except -> matches (payload_re st) s -> tok st s (T_PAYLOAD s) L_INITIAL.
Proof.
  intros O (r & N & SA & A) ST F X M. unfold payload_re in M. rewrite N in M.
  apply (rule_tok st cl except (pay_rule st) r true T_PAYLOAD (Some L_INITIAL)); auto; [|discriminate].
  unfold active. rewrite SA. apply lstate_eqb_iff. reflexivity.
Qed.
(** A few words are taken by every state. *)
Definition dotted_words : list cstr := lit "eq" :: flat_map (fun r => match lr_state r, lang (lr_re r) with None, Some l => l | _, _ => [] end) lrules.

Definition PAY_EXCEPT : list cstr := lit "eq" :: lit "range" :: lit "any" :: lit "all" :: reserved.
Ltac pay cl ex := apply (pay_tok _ cl ex); [vm_compute; reflexivity|eexists; repeat split; reflexivity|..].
Lemma payload_tok ty s : payload_spelled ty s -> tok (state_of ty) s (T_PAYLOAD s) L_INITIAL.
Proof.
  assert (VAL : value_spelled s -> starts s /\ Forall (fun x => in_cls (with_ [45]) x = true) s /\ ~ In s (lit "eq" :: reserved) /\ matches value_re s).
  { intros (W & R & NE).
    assert (H : forall x, alnum_char x \/ x = 45 -> in_cls (with_ [45]) x = true) by (intros x [X|X]; [apply with_alnum; exact X|subst x; reflexivity]).
    assert (H0 : forall x, alnum_char x \/ x = 45 -> in_cls word_start x = true) by (intros x [X|X]; [apply alnum_start; exact X|subst x; reflexivity]).
    split; [rewrite <- (app_nil_r s); apply (word_starts _ s [] H0 W)|].
    split; [apply (word_in _ _ _ H W)|]. split; [intros [X|X]; [apply NE; auto|exact (R X)]|]. apply Mt_right. exact (word_cls _ _ _ H W). }
  assert (INT : integer_spelled s -> starts s /\ Forall (fun x => in_cls (with_ [45]) x = true) s /\ ~ In s (lit "eq" :: lit "range" :: reserved) /\ matches int_re s).
  { intros (I & R & NE & NR). split; [rewrite <- (app_nil_r s); apply int_starts; exact I|]. split; [apply int_in; [left; reflexivity|exact I]|].
    split; [intros [X|[X|X]]; [apply NE; auto|apply NR; auto|exact (R X)]|apply int_mt; exact I]. }
  assert (RNG : range_spelled s -> starts s /\ Forall (fun x => in_cls (with_ [45]) x = true) s /\ ~ In s (lit "eq" :: lit "range" :: reserved) /\
                  matches (R_cat int_re (maybe (R_cat (text "-") int_re))) s).
  { intros [H|(a & b & -> & A & B)].
    - destruct (INT H) as (H1 & H2 & H3 & H4). split; [exact H1|]. split; [exact H2|]. split; [exact H3|]. rewrite <- (app_nil_r s). apply Mt_cat; [exact H4|apply Mt_left; constructor].
    - split; [apply int_starts; exact A|]. split; [apply Forall_app; split; [apply int_in; [left; reflexivity|exact A]|constructor; [reflexivity|apply int_in; [left; reflexivity|exact B]]]|].
      split; [|apply Mt_cat; [apply int_mt; exact A|]; apply Mt_right; change (45 :: b) with ([45] ++ b); apply Mt_cat; [apply chr_mt|apply int_mt; exact B]].
      intros X. assert (I45 : In 45 (a ++ 45 :: b)) by (apply in_or_app; right; left; reflexivity).
      assert (NO : forall w, In w (lit "eq" :: lit "range" :: reserved) -> ~ In 45 w).
      { intros w WI. assert (K : forallb (fun w => negb (existsb (N.eqb 45) w)) (lit "eq" :: lit "range" :: reserved) = true) by reflexivity.
        rewrite forallb_forall in K. specialize (K w WI). intros Z. apply negb_true_iff in K. assert (existsb (N.eqb 45) w = true) by (apply existsb_exists; exists 45; split; [exact Z|reflexivity]). congruence. }
      exact (NO _ X I45). }
  assert (PCT : percent_spelled s -> starts s /\ Forall (fun x => in_cls [digit; (46, 46); (37, 37)] x = true) s /\ ~ In s [] /\ matches (R_cat float_re (text "%")) s).
  { intros (d & -> & D). split; [apply decimal_starts; exact D|]. split; [|split; [intros []|apply Mt_cat; [apply decimal_mt; exact D|apply chr_mt]]].
    assert (FG : forall w, word_of figure w -> Forall (fun x => in_cls [digit; (46, 46); (37, 37)] x = true) w).
    { intros w W. apply (word_in figure); [|exact W]. unfold figure, digit. intros x X. incls. }
    destruct D as (d' & W & [ -> |(f & -> & V)]); repeat (apply Forall_app; split); auto; try (constructor; [reflexivity|auto]). }
  assert (IP4 : ip4_spelled s -> starts s /\ Forall (fun x => in_cls (with_ [45; 46]) x = true) s /\ ~ In s dotted_words /\
                  matches (R_cat int_re (R_cat dot (R_cat int_re (R_cat dot (R_cat int_re (R_cat dot int_re)))))) s).
  { intros H. split; [|split; [apply ip4_in; [cbn; tauto|cbn; tauto|exact H]|split; [|apply ip4_mt; exact H]]].
    - destruct H as (a & b & c & d & -> & A & _). apply int_starts. exact A.
    - destruct H as (a & b & c & d & -> & _). intros X.
      assert (K : forallb (fun w => (length (filter (N.eqb 46) w) <=? 1)%nat) dotted_words = true) by (vm_compute; reflexivity).
      rewrite forallb_forall in K. specialize (K _ X). cbv beta in K. apply Nat.leb_le in K. rewrite !filter_app in K. cbn [filter N.eqb Pos.eqb] in K. rewrite !filter_app in K. cbn [filter N.eqb Pos.eqb] in K. rewrite !filter_app in K. cbn [filter N.eqb Pos.eqb] in K.
      rewrite !app_length in K. cbn [length] in K. rewrite !app_length in K. cbn [length] in K. rewrite !app_length in K. cbn [length] in K. lia. }
  assert (NET : ip4_net_spelled s -> starts s /\ Forall (fun x => in_cls (with_ [45; 46; 47]) x = true) s /\ ~ In s dotted_words /\
                  matches (R_cat int_re (R_cat dot (R_cat int_re (R_cat dot (R_cat int_re (R_cat dot (R_cat int_re (R_cat (text "/") int_re)))))))) s).
  { intros (a & n & -> & A & NI). split; [destruct A as (a1 & b & c & d & -> & A & _); rewrite <- app_assoc; apply int_starts; exact A|].
    split; [apply Forall_app; split; [apply ip4_in; [cbn; tauto|cbn; tauto|exact A]|constructor; [reflexivity|apply int_in; [cbn; tauto|exact NI]]]|]. split.
    - intros X. assert (K : forallb (fun w => negb (existsb (N.eqb 47) w)) dotted_words = true) by (vm_compute; reflexivity).
      rewrite forallb_forall in K. specialize (K _ X). apply negb_true_iff in K. rewrite existsb_app in K. cbn [existsb N.eqb Pos.eqb orb] in K. rewrite orb_true_r in K. discriminate.
    - apply ip4_mt in A. destruct (proj1 (mt_cat _ _ _) A) as (u1 & v1 & -> & M1 & A1). destruct (proj1 (mt_cat _ _ _) A1) as (u2 & v2 & -> & M2 & A2).
      destruct (proj1 (mt_cat _ _ _) A2) as (u3 & v3 & -> & M3 & A3). destruct (proj1 (mt_cat _ _ _) A3) as (u4 & v4 & -> & M4 & A4).
      destruct (proj1 (mt_cat _ _ _) A4) as (u5 & v5 & -> & M5 & A5). destruct (proj1 (mt_cat _ _ _) A5) as (u6 & v6 & -> & M6 & A6).
      rewrite <- !app_assoc. change (47 :: n) with ([47] ++ n). repeat (apply Mt_cat; [first [assumption|apply chr_mt]|]). apply int_mt. exact NI. }
  assert (IP6 : ip6_spelled s -> starts s /\ Forall (fun x => in_cls (with_ [58]) x = true) s /\ ~ In s (lit "eq" :: reserved) /\
                  matches (plus (R_cls [lower; upper; digit; (58, 58)])) s).
  { intros (W & R & NE).
    assert (H : forall x, alnum_char x \/ x = 58 -> in_cls (with_ [58]) x = true) by (intros x [X|X]; [apply with_alnum; exact X|subst x; reflexivity]).
    assert (H1 : forall x, alnum_char x \/ x = 58 -> in_cls [lower; upper; digit; (58, 58)] x = true)
      by (intros x [X|X]; [unfold alnum_char, letter, figure, lower, upper, digit in *; incls|subst x; reflexivity]).
    assert (H0 : forall x, alnum_char x \/ x = 58 -> in_cls word_start x = true) by (intros x [X|X]; [apply alnum_start; exact X|subst x; reflexivity]).
    split; [rewrite <- (app_nil_r s); apply (word_starts _ s [] H0 W)|].
    split; [apply (word_in _ _ _ H W)|]. split; [intros [X|X]; [apply NE; auto|exact (R X)]|exact (word_cls _ _ _ H1 W)]. }
  assert (IP6N : ip6_net_spelled s -> starts s /\ Forall (fun x => in_cls (with_ [58; 47]) x = true) s /\ ~ In s (lit "eq" :: reserved) /\
                  matches (plus (R_cls [lower; upper; digit; (58, 58); (47, 47)])) s).
  { intros (W & R & NE).
    assert (H : forall x, alnum_char x \/ x = 58 \/ x = 47 -> in_cls (with_ [58; 47]) x = true) by (intros x [X|[X|X]]; [apply with_alnum; exact X|subst x; reflexivity|subst x; reflexivity]).
    assert (H1 : forall x, alnum_char x \/ x = 58 \/ x = 47 -> in_cls [lower; upper; digit; (58, 58); (47, 47)] x = true)
      by (intros x [X|[X|X]]; [unfold alnum_char, letter, figure, lower, upper, digit in *; incls|subst x; reflexivity|subst x; reflexivity]).
    assert (H0 : forall x, alnum_char x \/ x = 58 \/ x = 47 -> in_cls word_start x = true) by (intros x [X|[X|X]]; [apply alnum_start; exact X|subst x; reflexivity|subst x; reflexivity]).
    split; [rewrite <- (app_nil_r s); apply (word_starts _ s [] H0 W)|].
    split; [apply (word_in _ _ _ H W)|]. split; [intros [X|X]; [apply NE; auto|exact (R X)]|exact (word_cls _ _ _ H1 W)]. }
  assert (FLG : flags_spelled s -> starts s /\ Forall (fun x => in_cls (with_ [44]) x = true) s /\ ~ In s (lit "eq" :: lit "any" :: lit "all" :: reserved) /\
                  matches (plus (R_cat (plus (R_cls [lower; upper])) (maybe (text ",")))) s).
  { intros (F & R & N1 & N2 & N3). split; [apply flags_starts; exact F|]. split; [apply flags_in; exact F|].
    split; [intros [X|[X|[X|X]]]; [apply N1; auto|apply N2; auto|apply N3; auto|exact (R X)]|apply flags_mt; exact F]. }
  destruct ty; cbn [payload_spelled state_of]; intros H;
    try (destruct (VAL H) as (H1 & H2 & H3 & H4); pay (with_ [45]) (lit "eq" :: reserved); assumption);
    try (destruct (INT H) as (H1 & H2 & H3 & H4); pay (with_ [45]) (lit "eq" :: lit "range" :: reserved); assumption);
    try (destruct (RNG H) as (H1 & H2 & H3 & H4); pay (with_ [45]) (lit "eq" :: lit "range" :: reserved); assumption);
    try (destruct (PCT H) as (H1 & H2 & H3 & H4); pay [digit; (46, 46); (37, 37)] (@nil cstr); assumption);
    try (destruct (IP4 H) as (H1 & H2 & H3 & H4); pay (with_ [45; 46]) dotted_words; assumption);
    try (destruct (NET H) as (H1 & H2 & H3 & H4); pay (with_ [45; 46; 47]) dotted_words; assumption);
    try (destruct (IP6 H) as (H1 & H2 & H3 & H4); pay (with_ [58]) (lit "eq" :: reserved); assumption);
    try (destruct (IP6N H) as (H1 & H2 & H3 & H4); pay (with_ [58; 47]) (lit "eq" :: reserved); assumption);
    try (destruct (FLG H) as (H1 & H2 & H3 & H4); pay (with_ [44]) (lit "eq" :: lit "any" :: lit "all" :: reserved); assumption).
  destruct H.
Qed.

(** ** Given words *)
Ltac known := apply known_tok; vm_compute; repeat split.
Lemma type_tok st ty t : quiet st = true -> ty <> M_SET -> mtype_to_str ty = Some t -> tok st t (T_MATCHER_TYPE t) (state_of ty).
Proof. intros Q NE E. destruct st; try discriminate Q; destruct ty; try congruence; (vm_compute in E; injection E as <-; known). Qed.
Lemma op_tok ty s : ty <> M_SET -> op_spelled ty (Some s) -> tok (state_of ty) s (T_MATCHER_OP s) (state_of ty).
Proof.
  intros NE [ -> |[( -> & I)|(I & -> )]].
  - destruct ty; try congruence; known.
  - cbn [In] in I. repeat (destruct I as [ <- |I]; [known|]). destruct I.
  - cbn [In] in I. repeat (destruct I as [ <- |I]; [known|]). destruct I.
Qed.
Lemma not_tok st : tok st (lit "not") T_NEGATE st.
Proof. destruct st; known. Qed.
Lemma in_tok : tok L_MATCHER_SET (lit "in") (T_MATCHER_OP (lit "in")) L_MATCHER_SET.
Proof. known. Qed.
Lemma keyword_tok st w t : quiet st = true -> In (w, t) [(lit "chain", T_CHAIN); (lit "rule", T_RULE); (lit "set", T_SET); (lit "counter", T_COUNTER); (lit "log", T_LOG)] -> tok st w t st.
Proof. intros Q I. destruct st; try discriminate Q; cbn [In] in I; repeat (destruct I as [E|I]; [injection E as <- <-; known|]); destruct I. Qed.
Lemma mark_tok st : quiet st = true -> tok st (lit "mark") T_MARK L_MARK_OPTS.
Proof. intros Q. destruct st; try discriminate Q; known. Qed.
Lemma every_tok st : quiet st = true -> tok st (lit "every") T_EVERY L_LOG_EVERY.
Proof. intros Q. destruct st; try discriminate Q; known. Qed.
Lemma redirect_tok st : quiet st = true -> tok st (lit "REDIRECT") T_REDIRECT L_REDIRECT_IFACE.
Proof. intros Q. destruct st; try discriminate Q; known. Qed.
Lemma verdict_tok st s : quiet st = true -> In s (map lit ["ACCEPT"; "DROP"; "CONTINUE"; "NEXT"]) -> tok st s (T_VERDICT s) st.
Proof. intros Q I. destruct st; try discriminate Q; cbn [In map] in I; repeat (destruct I as [ <- |I]; [known|]); destruct I. Qed.
Lemma hook_tok st h s : quiet st = true -> hook_to_str h = Some s -> tok st s (T_HOOK s) L_HOOK_OPTS.
Proof. intros Q E. destruct st; try discriminate Q; destruct h; (vm_compute in E; injection E as <-; known). Qed.
Lemma dir_tok d : In d [lit "in"; lit "out"] -> tok L_REDIRECT_DIR d (T_DIR d) L_INITIAL.
Proof. intros [ <- |[ <- |[]]]; known. Qed.

(** ** Other words *)
Lemma iface_tok s : iface_spelled s -> tok L_REDIRECT_IFACE s (T_IFACE s) L_REDIRECT_DIR.
Proof.
  intros (W & R & H).
  assert (HC : forall x, name_char x \/ x = 45 -> in_cls (with_ [45; 95]) x = true)
    by (intros x [[X|[X|X]]|X]; [apply with_alnum; left; exact X|apply with_alnum; right; exact X|subst x; reflexivity|subst x; reflexivity]).
  assert (HS : forall x, name_char x \/ x = 45 -> in_cls word_start x = true)
    by (intros x [[X|[X|X]]|X]; [apply alnum_start; left; exact X|apply alnum_start; right; exact X|subst x; reflexivity|subst x; reflexivity]).
  assert (HM : forall x, name_char x \/ x = 45 -> in_cls [digit; lower; upper; (95, 95); (45, 45)] x = true)
    by (unfold name_char, letter, figure, lower, upper, digit; intros x X; incls).
  assert (E : exists r, nth_error lrules (pay_rule L_REDIRECT_IFACE) = Some r /\ lr_act r = A_emit T_IFACE (Some L_REDIRECT_DIR) /\
    lr_re r = R_alt int_re (plus (R_cls [digit; lower; upper; (95, 95); (45, 45)])) /\ lr_state r = Some L_REDIRECT_IFACE) by (eexists; repeat split).
  destruct E as (r & N & A & RE & SA).
  apply (rule_tok L_REDIRECT_IFACE (with_ [45; 95]) reserved (pay_rule L_REDIRECT_IFACE) r false T_IFACE (Some L_REDIRECT_DIR)); auto.
  - unfold active. rewrite SA. reflexivity.
  - rewrite <- (app_nil_r s). apply (word_starts _ s [] HS W).
  - apply (word_in _ _ _ HC W).
  - intros _ X. exact (H (hook_pattern_like _ X)).
  - rewrite RE. apply Mt_right. exact (word_cls _ _ _ HM W).
Qed.
Lemma mark_value_tok s : integer_spelled s -> tok L_MARK_OPTS s (T_STRING s) L_INITIAL.
Proof.
  intros (I & R & _).
  assert (E : exists r, nth_error lrules (pay_rule L_MARK_OPTS) = Some r /\ lr_act r = A_emit T_STRING (Some L_INITIAL) /\
    lr_re r = int_re /\ lr_state r = Some L_MARK_OPTS) by (eexists; repeat split).
  destruct E as (r & N & A & RE & SA).
  apply (rule_tok L_MARK_OPTS (with_ [45]) reserved (pay_rule L_MARK_OPTS) r true T_STRING (Some L_INITIAL)); auto.
  - unfold active. rewrite SA. reflexivity.
  - rewrite <- (app_nil_r s). apply int_starts. exact I.
  - apply int_in; [left; reflexivity|exact I].
  - discriminate.
  - rewrite RE. apply int_mt. exact I.
Qed.
Lemma rate_tok s : rate_spelled s -> tok L_LOG_EVERY s (T_STRING s) L_INITIAL.
Proof.
  intros (d & u & -> & D & W).
  assert (LW : forall x, 97 <= x <= 122 -> in_cls [lower] x = true) by (unfold lower; intros x X; incls).
  assert (E : exists r, nth_error lrules (pay_rule L_LOG_EVERY) = Some r /\ lr_act r = A_emit T_STRING (Some L_INITIAL) /\
    lr_re r = R_cat float_re (plus (R_cls [lower])) /\ lr_state r = Some L_LOG_EVERY) by (eexists; repeat split).
  destruct E as (r & N & A & RE & SA).
  assert (ST : exists x t, d ++ u = x :: t /\ figure x).
  { destruct D as (d' & (NE & F) & [ -> |(f & -> & _)]); (destruct d' as [|x d']; [congruence|]; exists x; eexists; split; [reflexivity|exact (Forall_inv F)]). }
  apply (rule_tok L_LOG_EVERY (with_ [46]) dotted_words (pay_rule L_LOG_EVERY) r true T_STRING (Some L_INITIAL)); auto.
  - unfold active. rewrite SA. reflexivity.
  - apply decimal_starts. exact D.
  - apply Forall_app. split; [apply decimal_in; [left; reflexivity|exact D]|]. apply (word_in _ _ _ (fun x X => with_alnum [46] x (or_introl (or_intror X))) W).
  - intros X. destruct ST as (x & t & E & FX). rewrite E in X. assert (K : forallb (fun w => match w with x :: _ => negb ((48 <=? x) && (x <=? 57)) | [] => true end) dotted_words = true) by (vm_compute; reflexivity).
    rewrite forallb_forall in K. specialize (K _ X). destruct FX as (F1 & F2). apply N.leb_le in F1, F2. cbv beta iota in K. rewrite F1, F2 in K. discriminate.
  - discriminate.
  - rewrite RE. apply Mt_cat; [apply decimal_mt; exact D|exact (word_cls _ _ _ LW W)].
Qed.
Definition OPT_RULE : nat := 10.
Lemma hookopt_tok s : hookopt_spelled s -> tok L_HOOK_OPTS s (T_HOOKOPT s) L_HOOK_OPTS.
Proof.
  intros (n & v & -> & W & V).
  assert (HC : forall x, name_char x \/ In x [45; 46; 47] -> in_cls (with_ [95; 45; 46; 47; 61]) x = true).
  { intros x [[X|[X|X]]|X]; [apply with_alnum; left; exact X|apply with_alnum; right; exact X|subst x; reflexivity|].
    apply with_extra. cbn [In] in *. tauto. }
  assert (HM : forall x, name_char x \/ In x [45; 46; 47] -> in_cls [lower; upper; digit; (95, 95); (45, 45); (46, 46); (47, 47)] x = true).
  { unfold name_char, letter, figure, lower, upper, digit. cbn [In]. intros x X. repeat (destruct X as [X|X]); subst; try reflexivity; try contradiction; incls. }
  assert (E : exists r, nth_error lrules OPT_RULE = Some r /\ lr_act r = A_emit T_HOOKOPT None /\
    lr_re r = R_cat name_re (R_cat (text "=") (plus (R_cls [lower; upper; digit; (95, 95); (45, 45); (46, 46); (47, 47)]))) /\ lr_state r = Some L_HOOK_OPTS) by (eexists; repeat split).
  destruct E as (r & N & A & RE & SA).
  assert (I61 : In 61 (n ++ 61 :: v)) by (apply in_or_app; right; left; reflexivity).
  apply (rule_tok L_HOOK_OPTS (with_ [95; 45; 46; 47; 61]) reserved OPT_RULE r false T_HOOKOPT None); auto.
  - unfold active. rewrite SA. reflexivity.
  - apply (word_starts name_char); [|exact W]. intros x X. unfold name_char, letter, figure in X. unfold word_start. incls.
  - apply Forall_app. split; [apply (word_in _ _ _ (fun x X => HC x (or_introl X)) W)|]. constructor; [reflexivity|apply (word_in _ _ _ HC V)].
  - intros X. assert (K : forallb (fun w => negb (existsb (N.eqb 61) w)) reserved = true) by reflexivity.
    rewrite forallb_forall in K. specialize (K _ X). apply negb_true_iff in K. assert (existsb (N.eqb 61) (n ++ 61 :: v) = true) by (apply existsb_exists; exists 61; split; [exact I61|reflexivity]). congruence.
  - intros _ X. exact (avoids_in 61 hook_pattern _ eq_refl X I61).
  - rewrite RE. apply Mt_cat; [apply name_mt; exact W|]. change (61 :: v) with ([61] ++ v). apply Mt_cat; [apply chr_mt|exact (word_cls _ _ _ HM V)].
Qed.

(** ** Sentences *)
Lemma run1 st w t st' l ts st2 : tok st w t st' -> no_punct l -> runs st' l ts st2 -> runs st (Wd w :: l) (t :: ts) st2.
Proof. intros T NP R. apply (Ru_word _ _ _ st'); [exact T| |exact R]. destruct l as [|[?|?] ?]; auto; destruct NP. Qed.
Lemma run_one st w t st' : tok st w t st' -> runs st [Wd w] [t] st'.
Proof. intros T. apply (run1 _ _ _ st'); [exact T|exact Logic.I|constructor]. Qed.

Lemma negate_runs st neg l ts st2 : no_punct l -> runs st l ts st2 -> runs st (s_negate neg ++ l) (w_negate neg ++ ts) st2.
Proof. intros NP R. destruct neg; cbn [s_negate w_negate app]; [|exact R]. apply (run1 _ _ _ st); [apply not_tok|exact NP|exact R]. Qed.
Lemma matcher_runs st a : quiet st = true -> matcher_spelled a -> exists st', calm st' /\ runs st (s_matcher a) (w_matcher a) st'.
Proof.
  intros Q H. destruct a as [t neg op p|k neg p|k neg n]; cbn [matcher_spelled s_matcher w_matcher] in *.
  - destruct H as (ty & E & O & P). assert (NE : ty <> M_SET) by (intros ->; exact P). exists L_INITIAL. split; [left; reflexivity|].
    apply (run1 _ _ _ (state_of ty)); [apply type_tok; assumption|destruct neg, op; exact Logic.I|]. apply negate_runs; [destruct op; exact Logic.I|].
    destruct op as [o|]; cbn [w_op app].
    + apply (run1 _ _ _ (state_of ty)); [apply op_tok; assumption|exact Logic.I|]. apply run_one. apply payload_tok. exact P.
    + apply run_one. apply payload_tok. exact P.
  - destruct H as (K & P). exists L_INITIAL. split; [left; reflexivity|]. apply (run1 _ _ _ L_MATCHER_SET); [apply key_tok; exact K|destruct neg; exact Logic.I|].
    apply negate_runs; [exact Logic.I|]. apply (run1 _ _ _ L_MATCHER_SET); [exact in_tok|exact Logic.I|]. apply run_one. apply elements_tok. exact P.
  - destruct H as (K & P). exists L_MATCHER_SET. split; [right; reflexivity|]. apply (run1 _ _ _ L_MATCHER_SET); [apply key_tok; exact K|destruct neg; exact Logic.I|].
    apply negate_runs; [exact Logic.I|]. apply (run1 _ _ _ L_MATCHER_SET); [exact in_tok|exact Logic.I|]. apply run_one. apply name_tok; [reflexivity|exact P].
Qed.
Lemma headers_runs st hs : calm st -> Forall name_spelled hs -> runs st (with_commas hs) (w_headers hs) st.
Proof.
  intros C. induction 1 as [|h hs H F IH]; [constructor|]. destruct hs as [|h2 hs]; cbn [with_commas w_headers].
  - apply run_one. apply name_tok; [apply calm_quiet; exact C|exact H].
  - apply (Ru_word _ _ _ st); [apply name_tok; [apply calm_quiet; exact C|exact H]|apply calm_quiet; exact C|]. apply Ru_comma; [exact C|exact IH].
Qed.
Lemma commas_no_punct l : no_punct (with_commas l).
Proof. destruct l as [|? [|? ?]]; exact Logic.I. Qed.
Lemma option_runs st a : calm st -> option_spelled a -> exists st', calm st' /\ runs st (s_option a) (w_option a) st'.
Proof.
  intros C H. pose proof (calm_quiet _ C) as Q. destruct a as [hs every| |s]; cbn [option_spelled s_option w_option] in *.
  - destruct H as (HS & E). destruct every as [s|].
    + exists L_INITIAL. split; [left; reflexivity|]. apply (run1 _ _ _ st); [apply keyword_tok; [exact Q|cbn; tauto]| |].
      * destruct hs as [|? [|? ?]]; exact Logic.I.
      * apply (runs_app st _ _ st); [apply headers_runs; assumption| |exact Logic.I]. apply (run1 _ _ _ L_LOG_EVERY); [apply every_tok; exact Q|exact Logic.I|].
        apply run_one. apply rate_tok. exact E.
    + exists st. split; [exact C|]. rewrite !app_nil_r. apply (run1 _ _ _ st); [apply keyword_tok; [exact Q|cbn; tauto]|apply commas_no_punct|apply headers_runs; assumption].
  - exists st. split; [exact C|]. apply run_one. apply keyword_tok; [exact Q|cbn; tauto].
  - exists L_INITIAL. split; [left; reflexivity|]. apply (run1 _ _ _ L_MARK_OPTS); [apply mark_tok; exact Q|exact Logic.I|]. apply run_one. apply mark_value_tok. exact H.
Qed.
Lemma verdict_runs st a : quiet st = true -> rule_verdict_spelled a -> exists st', quiet st' = true /\ runs st (s_verdict a) (w_verdict a) st'.
Proof.
  intros Q H. destruct a as [s|i d]; cbn [rule_verdict_spelled s_verdict w_verdict] in *.
  - exists st. split; [exact Q|]. apply run_one. apply verdict_tok; assumption.
  - destruct H as (I & D). exists L_INITIAL. split; [reflexivity|]. apply (run1 _ _ _ L_REDIRECT_IFACE); [apply redirect_tok; exact Q|exact Logic.I|].
    apply (run1 _ _ _ L_REDIRECT_DIR); [apply iface_tok; exact I|exact Logic.I|]. apply run_one. apply dir_tok. exact D.
Qed.
(** Lists of sentences. *)
Lemma list_runs {A} (P : lstate -> Prop) (f : A -> list lexeme) (g : A -> list token) l :
  (forall a st, In a l -> P st -> exists st', P st' /\ runs st (f a) (g a) st') -> (forall a, no_punct (f a)) ->
  forall st, P st -> exists st', P st' /\ runs st (concat (map f l)) (concat (map g l)) st'.
Proof.
  intros H NP. assert (CN : forall l, no_punct (concat (map f l))).
  { intros l0. clear -NP. induction l0 as [|a l0 IH]; cbn [map concat]; [exact Logic.I|]. specialize (NP a). destruct (f a) as [|[?|?] ?]; auto. }
  induction l as [|a l IH]; intros st PS; cbn [map concat]; [exists st; split; [exact PS|constructor]|].
  destruct (H a st (or_introl eq_refl) PS) as (st1 & P1 & R1). destruct (IH (fun b s I => H b s (or_intror I)) st1 P1) as (st2 & P2 & R2).
  exists st2. split; [exact P2|]. exact (runs_app _ _ _ _ _ _ _ R1 R2 (CN l)).
Qed.
Lemma concat_no_punct {A} (f : A -> list lexeme) l : (forall a, no_punct (f a)) -> no_punct (concat (map f l)).
Proof. intros NP. induction l as [|a l IH]; cbn [map concat]; [exact Logic.I|]. specialize (NP a). destruct (f a) as [|[?|?] ?]; auto. Qed.
Lemma app_no_punct a b : no_punct a -> no_punct b -> no_punct (a ++ b).
Proof. destruct a as [|[?|?] ?]; cbn; auto. Qed.
Lemma matcher_no_punct a : no_punct (s_matcher a).
Proof. destruct a; exact Logic.I. Qed.
Lemma option_no_punct a : no_punct (s_option a).
Proof. destruct a; exact Logic.I. Qed.
Lemma verdict_no_punct a : no_punct (s_verdict a).
Proof. destruct a; exact Logic.I. Qed.
Lemma rule_runs st a : quiet st = true -> rule_spelled a -> exists st', quiet st' = true /\ runs st (s_rule a) (w_rule a) st'.
Proof.
  intros Q (M & O & V). rewrite Forall_forall in M, O. unfold s_rule, w_rule.
  destruct (matcher_runs st (ar_first a) Q (M _ (or_introl eq_refl))) as (st1 & C1 & R1).
  destruct (list_runs calm s_matcher w_matcher (ar_more a)) with (st := st1) as (st2 & C2 & R2);
    [intros b s I C; apply matcher_runs; [apply calm_quiet; exact C|apply M; right; exact I]|exact matcher_no_punct|exact C1|].
  destruct (list_runs calm s_option w_option (ar_options a)) with (st := st2) as (st3 & C3 & R3);
    [intros b s I C; apply option_runs; [exact C|apply O; exact I]|exact option_no_punct|exact C2|].
  destruct (verdict_runs st3 (ar_verdict a) (calm_quiet _ C3) V) as (st4 & Q4 & R4). exists st4. split; [exact Q4|].
  assert (N4 : no_punct (concat (map s_option (ar_options a)) ++ s_verdict (ar_verdict a)))
    by (apply app_no_punct; [apply concat_no_punct; exact option_no_punct|apply verdict_no_punct]).
  assert (N3 : no_punct (concat (map s_matcher (ar_matchers a)))) by (apply concat_no_punct; exact matcher_no_punct).
  apply (run1 _ _ _ st); [apply keyword_tok; [exact Q|cbn; tauto]|apply app_no_punct; assumption|].
  apply (runs_app _ _ _ st2); [|apply (runs_app _ _ _ st3); [exact R3|exact R4|apply verdict_no_punct]|exact N4].
  unfold ar_matchers. cbn [map concat]. apply (runs_app _ _ _ st1); [exact R1|exact R2|apply concat_no_punct; exact matcher_no_punct].
Qed.
Lemma set_runs st a : quiet st = true -> name_spelled (as_name a) -> key_spelled (as_key a) -> elements_spelled (as_payload a) ->
  runs st (s_set a) (w_set a) L_INITIAL.
Proof.
  intros Q N K E. unfold s_set, w_set, w_in. cbn [app]. apply (run1 _ _ _ st); [apply keyword_tok; [exact Q|cbn; tauto]|exact Logic.I|].
  apply (run1 _ _ _ st); [apply name_tok; assumption|exact Logic.I|]. apply (run1 _ _ _ L_MATCHER_SET); [apply key_tok; exact K|exact Logic.I|].
  apply (run1 _ _ _ L_MATCHER_SET); [exact in_tok|exact Logic.I|]. apply run_one. apply elements_tok. exact E.
Qed.
Lemma opts_runs l : Forall hookopt_spelled l -> forall r ts st2, runs L_HOOK_OPTS r ts st2 -> match r with Pn _ :: _ => True | _ => l = [] end ->
  runs L_HOOK_OPTS (with_commas l ++ r) (map T_HOOKOPT l ++ ts) st2.
Proof.
  induction 1 as [|o l H F IH]; intros r ts st2 R HD; [exact R|]. destruct l as [|o2 l]; cbn [with_commas map app] in *.
  - apply (Ru_word _ _ _ L_HOOK_OPTS); [apply hookopt_tok; exact H|destruct r as [|[?|?] ?]; auto|exact R].
  - apply (Ru_word _ _ _ L_HOOK_OPTS); [apply hookopt_tok; exact H|reflexivity|]. apply Ru_ignore; [right; left; reflexivity|]. apply IH; [exact R|].
    destruct r as [|[?|?] ?]; auto; discriminate HD.
Qed.
Lemma rule_no_punct a : no_punct (s_rule a).
Proof. exact Logic.I. Qed.
Lemma chain_runs st a : quiet st = true -> chain_spelled a -> exists st', quiet st' = true /\ runs st (s_chain a) (w_chain a) st'.
Proof.
  intros Q (N & (h & H) & O & V & S & R). rewrite Forall_forall in S, R.
  assert (REST : forall st1, quiet st1 = true -> exists st', quiet st' = true /\
            runs st1 (Wd (ac_policy a) :: concat (map s_set (ac_sets a)) ++ concat (map s_rule (ac_rules a)))
                     (T_VERDICT (ac_policy a) :: concat (map w_set (ac_sets a)) ++ concat (map w_rule (ac_rules a))) st').
  { intros st1 Q1. destruct (list_runs (fun st => quiet st = true) s_set w_set (ac_sets a)) with (st := st1) as (st2 & Q2 & R2);
      [intros b s I C; destruct (S b I) as (S1 & S2 & S3); exists L_INITIAL; split; [reflexivity|apply set_runs; assumption]|intros b; exact Logic.I|exact Q1|].
    destruct (list_runs (fun st => quiet st = true) s_rule w_rule (ac_rules a)) with (st := st2) as (st3 & Q3 & R3);
      [intros b s I C; apply rule_runs; [exact C|exact (R b I)]|exact rule_no_punct|exact Q2|].
    exists st3. split; [exact Q3|]. apply (run1 _ _ _ st1); [apply verdict_tok; assumption|apply app_no_punct; apply concat_no_punct; intros b; exact Logic.I|].
    apply (runs_app _ _ _ st2); [exact R2|exact R3|apply concat_no_punct; exact rule_no_punct]. }
  unfold s_chain, w_chain. destruct (ac_opts a) as [|o l] eqn:EO.
  - destruct (REST L_HOOK_OPTS eq_refl) as (st' & Q' & RR). exists st'. split; [exact Q'|]. cbn [s_opts map app].
    apply (run1 _ _ _ st); [apply keyword_tok; [exact Q|cbn; tauto]|exact Logic.I|]. apply (run1 _ _ _ st); [apply name_tok; assumption|exact Logic.I|].
    apply (run1 _ _ _ L_HOOK_OPTS); [apply (hook_tok _ h); assumption|exact Logic.I|exact RR].
  - destruct (REST L_INITIAL eq_refl) as (st' & Q' & RR). exists st'. split; [exact Q'|]. unfold s_opts.
    apply (run1 _ _ _ st); [apply keyword_tok; [exact Q|cbn; tauto]|exact Logic.I|]. apply (run1 _ _ _ st); [apply name_tok; assumption|exact Logic.I|].
    apply (Ru_word _ _ _ L_HOOK_OPTS); [apply (hook_tok _ h); assumption|exact Q|]. cbn [app]. apply Ru_ignore; [left; reflexivity|].
    rewrite <- app_assoc. apply opts_runs; [exact O| |exact Logic.I]. cbn [app]. apply Ru_close. exact RR.
Qed.
Lemma chains_lexed l s : Forall chain_spelled l -> laid_out (concat (map s_chain l)) s -> lex s = concat (map w_chain l).
Proof.
  intros F LO. rewrite Forall_forall in F. destruct (list_runs (fun st => quiet st = true) s_chain w_chain l) with (st := L_INITIAL) as (st' & _ & R);
    [intros b st I Q; apply chain_runs; [exact Q|exact (F b I)]|intros b; exact Logic.I|reflexivity|].
  exact (runs_lexed _ _ _ _ R s LO).
Qed.
