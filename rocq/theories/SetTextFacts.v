(** bf_set_new_from_raw builds the set that its text describes. *)
From Coq Require Import String NArith List Bool Arith Lia.
From Verif Require Import Bytes BytesFacts Types GenModel StrModel StrSpec EnumModel EnumFacts ParseModel ParseFacts2 HashModel SetModel
  SetSpec SetApiFacts SetApiFacts2 PackModel PackSpec PackFacts2 PackFacts3 PackFacts5 NewFacts SetTextModel SetTextSpec.
Import ListNotations.
Local Open Scope list_scope.
Local Open Scope N_scope.
Local Open Scope res_scope.

Lemma f2_len {A B} (R : A -> B -> Prop) l k : Forall2 R l k -> length l = length k.
Proof. induction 1; cbn; congruence. Qed.

(** ** Tokens are the pieces that are not empty. *)
Lemma span_spec b ds s : forall x y, span b ds s = (x, y) -> s = x ++ y /\ Forall (fun c => among ds c = b) x /\
  match y with [] => True | c :: _ => among ds c = negb b end.
Proof.
  induction s as [|c s IH]; intros x y H; cbn [span] in H; [injection H as <- <-; repeat split; constructor|].
  destruct (Bool.eqb (among ds c) b) eqn:E.
  - destruct (span b ds s) as [x' y'] eqn:E'. injection H as <- <-. destruct (IH _ _ eq_refl) as (-> & F & Y).
    apply Bool.eqb_prop in E. split; [reflexivity|]. split; [now constructor|auto].
  - injection H as <- <-. split; [reflexivity|]. split; [constructor|]. apply Bool.eqb_false_iff in E. destruct (among ds c), b; cbn in *; congruence.
Qed.

Lemma pieces_sep sep d s : Forall (fun c => sep c = true) d -> filter nonempty (pieces sep (d ++ s)) = filter nonempty (pieces sep s).
Proof. induction d as [|c d IH]; intros F; [reflexivity|]. inversion F; subst. cbn [app pieces]. rewrite H1. cbn [filter nonempty]. auto. Qed.

Lemma pieces_ne sep s : pieces sep s <> [].
Proof. destruct s; cbn [pieces]; [discriminate|]. destruct (sep n); [discriminate|]. destruct (pieces sep s); discriminate. Qed.

Lemma pieces_word sep t rest : Forall (fun c => sep c = false) t ->
  match rest with [] => True | c :: _ => sep c = true end ->
  pieces sep (t ++ rest) = t :: match rest with [] => [] | _ :: r => pieces sep r end.
Proof.
  induction t as [|c t IH]; intros F R.
  - cbn [app]. destruct rest as [|c r]; cbn [pieces]; [reflexivity|]. now rewrite R.
  - inversion F; subst. cbn [app pieces]. rewrite H1. rewrite IH by auto. reflexivity.
Qed.

Lemma strtok_pieces ds sep s : (forall c, among ds c = sep c) ->
  match strtok_any ds s with
  | None => filter nonempty (pieces sep s) = []
  | Some (skipped, tok, rest) =>
      filter nonempty (pieces sep s) = tok :: filter nonempty (pieces sep rest) /\ tok <> [] /\ (length rest < length s)%nat /\
      Forall (fun c => sep c = true) skipped /\ Forall (fun c => sep c = false) tok
  end.
Proof.
  intros S. unfold strtok_any. destruct (span true ds s) as [sk t] eqn:E1. destruct (span_spec _ _ _ _ _ E1) as (-> & F1 & Y1).
  assert (F1' : Forall (fun c => sep c = true) sk) by (eapply Forall_impl; [|exact F1]; cbn; intros; now rewrite <- S).
  destruct t as [|c t'].
  { rewrite pieces_sep by auto. reflexivity. }
  destruct (span false ds (c :: t')) as [tok rest] eqn:E2. destruct (span_spec _ _ _ _ _ E2) as (Q & F2 & Y2).
  assert (F2' : Forall (fun c => sep c = false) tok) by (eapply Forall_impl; [|exact F2]; cbn; intros; now rewrite <- S).
  assert (N : tok <> []).
  { intros ->. cbn [app] in Q. rewrite <- Q in Y2. cbn in Y1, Y2. congruence. }
  rewrite Q, pieces_sep by auto. split; [|split; [auto|split; [|auto]]].
  - rewrite (pieces_word sep tok rest); [|auto|destruct rest; [exact Logic.I|rewrite <- S; exact Y2]].
    cbn [filter]. destruct tok; [congruence|]. cbn [nonempty]. f_equal. destruct rest; reflexivity.
  - rewrite !app_length. destruct tok; [congruence|]. destruct rest; cbn [length]; lia.
Qed.

Lemma tokens_pieces ds sep : (forall c, among ds c = sep c) -> forall fuel s, (length s <= fuel)%nat ->
  tokens_any fuel ds s = filter nonempty (pieces sep s).
Proof.
  intros S. induction fuel as [|f IH]; intros s L.
  - destruct s; [reflexivity|cbn in L; lia].
  - cbn [tokens_any]. pose proof (strtok_pieces ds sep s S) as T. destruct (strtok_any ds s) as [[[sk t] rest]|]; [|auto].
    destruct T as (-> & _ & Hl & _). f_equal. apply IH. lia.
Qed.

Lemma among_key c : among (lit "(),") c = key_sep c.
Proof. unfold among, key_sep. cbn. rewrite orb_false_r. now rewrite orb_assoc. Qed.
Lemma among_elem c : among payload_delims c = elem_sep c.
Proof. unfold among, elem_sep. cbn. rewrite orb_false_r. now rewrite !orb_assoc. Qed.
Lemma among_comp c : among (lit ",") c = comp_sep c.
Proof. unfold among, comp_sep. cbn. apply orb_false_r. Qed.

Lemma skip_drop s : skip_space s = drop_blanks s.
Proof. induction s as [|c s IH]; [reflexivity|]. cbn. unfold isspace, is_blank. now rewrite IH. Qed.
Lemma trimmed_strip s : trimmed s = strip s.
Proof. unfold trimmed, strip. now rewrite !skip_drop. Qed.

(** ** The key. *)
Lemma key_loop_ok toks : forall room key, key_loop room toks = Ok key <->
  (length toks <= room)%nat /\ Forall2 (fun w t => mtype_from_str (trimmed w) = Ok t) toks key.
Proof.
  induction toks as [|w toks IH]; intros room key; cbn [key_loop].
  - split; [intros H; apply Ok_inj in H as <-; split; [cbn; lia|constructor]|]. intros (_ & H). inversion H; subst. reflexivity.
  - destruct room as [|k]; [split; [discriminate|intros (H & _); cbn in H; lia]|]. split.
    + intros H. binv H. binv H. apply Ok_inj in H as <-. apply IH in E0 as (L & F). split; [cbn; lia|constructor; auto].
    + intros (L & F). inversion F as [|? t ? ts H1 H2]; subst. rewrite H1. cbn [bind].
      assert (key_loop k toks = Ok ts) as ->; [|reflexivity]. apply IH. split; [cbn in L; lia|auto].
Qed.

Lemma parse_key_ok raw key : parse_key raw = Ok key <-> (1 <= length key <= 8)%nat /\ key_names (key_texts raw) key.
Proof.
  unfold parse_key, key_names, key_texts. rewrite (tokens_pieces _ key_sep among_key) by lia.
  set (l := filter nonempty (pieces key_sep raw)).
  assert (K : forall k, Forall2 (fun w t => mtype_from_str (trimmed w) = Ok t) l k <->
                        Forall2 (fun w t => mtype_to_str t = Some w) (map strip l) k).
  { clear. induction l as [|w l IH]; intros k; cbn [map]; (split; intros H; inversion H; subst; constructor; auto).
    - rewrite trimmed_strip in H2. now apply (proj1 (proj2 mtype_inverse)).
    - now apply IH.
    - rewrite trimmed_strip. now apply (proj1 (proj2 mtype_inverse)).
    - now apply IH. }
  split.
  - intros H. binv H. apply key_loop_ok in E as (L & F). destruct a as [|t a]; [discriminate H|]. apply Ok_inj in H as <-.
    split; [|now apply K]. apply f2_len in F. cbn [length] in *. lia.
  - intros (L & F). apply K in F. pose proof (f2_len _ _ _ F) as Q.
    assert (key_loop 8 l = Ok key) as ->. { apply key_loop_ok. split; [lia|auto]. } cbn [bind]. destruct key; [cbn in L; lia|reflexivity].
Qed.

(** ** The components of an element. *)
Lemma comp_size_some t n : ops_size t OP_IN = Some n -> comp_size t = n.
Proof. unfold comp_size. now intros ->. Qed.

Lemma bytes_sub (l : list N) i n : bytes l -> bytes (sub l i n).
Proof. unfold sub. intros H. now apply bytes_firstn, bytes_skipn. Qed.

Lemma sub_len (l : list N) i n : (i + n <= length l)%nat -> length (sub l i n) = n.
Proof. intros H. unfold sub. rewrite firstn_length, skipn_length. lia. Qed.

Lemma comp_loop_sound pe : penv_ok pe -> forall key toks off elem e, bytes elem ->
  length elem = (off + list_sum (map comp_size key))%nat -> comp_loop pe key toks off elem = Ok e ->
  exists vs, values pe key (map strip toks) vs /\ e = firstn off elem ++ vs /\ bytes e /\ length e = length elem.
Proof.
  intros P. induction key as [|t key IH]; intros toks off elem e B L H; destruct toks as [|w toks]; cbn [comp_loop] in H; try discriminate H.
  - apply Ok_inj in H as <-. exists []. split; [constructor|]. cbn in L. rewrite app_nil_r, firstn_all2 by lia. auto.
  - destruct (parser_of pe t OP_IN) as [p|] eqn:Ep; [|discriminate H]. destruct (ops_size t OP_IN) as [n|] eqn:En; [|discriminate H].
    cbn [map list_sum fold_right] in L. rewrite (comp_size_some _ _ En) in L. change (fold_right Nat.add 0%nat) with list_sum in L.
    destruct (Nat.leb_spec (off + n) (length elem)) as [Hb|Hb]; [|lia].
    binv H. rename a into v. rewrite trimmed_strip in E.
    destruct (parser_keeps pe t OP_IN p n P Ep En _ _ _ E (sub_len _ _ _ Hb) (bytes_sub _ _ _ B)) as (Lv & Bv).
    destruct (IH toks (off + n)%nat (firstn off elem ++ v ++ skipn (off + n) elem) e) as (vs & V & -> & B' & L'); auto.
    { apply Forall_app. split; [now apply bytes_firstn|]. apply Forall_app. split; [exact Bv|now apply bytes_skipn]. }
    { rewrite !app_length, firstn_length, skipn_length. lia. }
    exists (v ++ vs). cbn [map]. split.
    { constructor; auto. exists p, (sub elem off n). rewrite (comp_size_some _ _ En). split; [auto|].
      split; [now apply sub_len|]. split; [now apply bytes_sub|auto]. }
    assert (Q : firstn (off + n) (firstn off elem ++ v ++ skipn (off + n) elem) = firstn off elem ++ v).
    { rewrite app_assoc, firstn_app. assert (Z : length (firstn off elem ++ v) = (off + n)%nat) by (rewrite app_length, firstn_length; lia).
      rewrite firstn_all2 by lia. rewrite Z, Nat.sub_diag. cbn [firstn]. apply app_nil_r. }
    rewrite Q in *. split; [now rewrite <- app_assoc|]. split; [exact B'|]. rewrite L'. rewrite !app_length, firstn_length, skipn_length. lia.
Qed.

(** Whether a parser accepts does not depend on the memory it writes to. *)
Definition accepts_any (p : list N -> cstr -> res (list N)) : Prop :=
  forall old w v, p old w = Ok v -> forall old', exists v', p old' w = Ok v'.

Ltac any1 := unfold accepts_any, parse_iface, parse_l3_proto, parse_l4_proto, parse_icmp_type, parse_icmpv6_type, parse_dscp, parse_icmp_code,
  parse_named, parse_l4_port, parse_l4_port_range, parse_probability, parse_mark, parse_u32, parse_u32_range, parse_ipv4_addr,
  parse_ipv6_addr, parse_ipv4_net, parse_ipv6_net, parse_net, parse_tcp_flags;
  let H := fresh "H" in intros ? ? ? H ?; cbv zeta in *;
  repeat (first [discriminate H
                |match type of H with
                 | bind ?x _ = Ok _ => destruct x eqn:?; cbn [bind] in *
                 | context[match ?x with _ => _ end] => destruct x eqn:?; cbn [bind] in *
                 end]); eauto.

Lemma parser_any pe t p : parser_of pe t OP_IN = Some p -> accepts_any p.
Proof.
  intros H. destruct t; cbn in H; try discriminate H; injection H as <-; any1.
Qed.

Lemma comp_loop_complete pe : penv_ok pe -> forall key toks off elem vs, bytes elem ->
  length elem = (off + list_sum (map comp_size key))%nat -> values pe key (map strip toks) vs ->
  (forall t, In t key -> set_capable t) -> exists e, comp_loop pe key toks off elem = Ok e.
Proof.
  intros P. induction key as [|t key IH]; intros toks off elem vs B L V C; inversion V as [|? ? w ws v vs' H1 H2 X1 X2]; subst.
  - destruct toks; [|discriminate]. cbn [comp_loop]. eauto.
  - destruct toks as [|w0 toks]; [discriminate X2|]. cbn [map] in X2. injection X2 as -> ->.
    destruct H1 as (p & old & Ep & Lo & Bo & Ev). cbn [comp_loop]. rewrite Ep.
    destruct (ops_size t OP_IN) as [n|] eqn:En; [|exfalso; apply (C t); [now left|exact En]].
    cbn [map list_sum fold_right] in L. rewrite (comp_size_some _ _ En) in L. change (fold_right Nat.add 0%nat) with list_sum in L.
    destruct (Nat.leb_spec (off + n) (length elem)) as [Hb|Hb]; [|lia].
    rewrite trimmed_strip. destruct (parser_any _ _ _ Ep _ _ _ Ev (sub elem off n)) as (v' & Ev'). rewrite Ev'. cbn [bind].
    destruct (parser_keeps pe t OP_IN p n P Ep En _ _ _ Ev' (sub_len _ _ _ Hb) (bytes_sub _ _ _ B)) as (Lv & Bv).
    apply (IH _ _ _ vs'); auto.
    { apply Forall_app. split; [now apply bytes_firstn|]. apply Forall_app. split; [exact Bv|now apply bytes_skipn]. }
    { rewrite !app_length, firstn_length, skipn_length. lia. }
    { intros t' Ht. apply C. now right. }
Qed.

(** ** One element. *)
Definition sized_key (u : uset) : Prop := u_esize u = list_sum (map comp_size (u_key u)) /\ (u_esize u <= 192)%nat.

Lemma firstn_len {A} n (l : list A) : (n <= length l)%nat -> length (firstn n l) = n.
Proof. intros H. rewrite firstn_length. lia. Qed.

Lemma add_elem_raw_sound pe h nd tb u l raw u' : penv_ok pe -> bytes h -> (192 <= length h)%nat -> urep u l -> sized_key u ->
  add_elem_raw pe (Some h) nd tb u raw = Ok u' ->
  exists e l', element pe (u_key u) raw e /\ length e = u_esize u /\ urep u' l' /\ same_shape u' u /\ map snd l' = step1 (map snd l) e.
Proof.
  intros P B L R (S1 & S2) H. unfold add_elem_raw in H. binv H. rename a into e.
  assert (Q : length (firstn (u_esize u) h) = (0 + list_sum (map comp_size (u_key u)))%nat) by (rewrite firstn_len by lia; exact S1).
  destruct (comp_loop_sound pe P _ _ 0%nat _ _ (bytes_firstn h (u_esize u) B) Q E) as (vs & V & -> & Be & Le).
  cbn [firstn app] in *. rewrite firstn_len in Le by lia. binv H. destruct a as [u1 rc]. cbn [fst snd] in H.
  destruct (N.eqb_spec rc 0) as [->|Hr]; [|discriminate H]. apply Ok_inj in H as <-.
  destruct (set_add_sized true nd tb u l vs R Le) as (u2 & rc2 & l2 & E2 & R2 & K1 & K2 & K3 & K4 & C).
  rewrite E2 in E0. apply Ok_inj in E0. injection E0 as <- ->. exists vs, l2. split.
  { unfold element, component_texts. rewrite (tokens_pieces _ comp_sep among_comp) in V by lia. exact V. }
  split; [auto|]. split; [auto|]. split; [repeat split; congruence|]. unfold step1.
  destruct C as [(_ & -> & ->)|[(_ & -> & p & ->)|(X & _)]]; [reflexivity|rewrite map_app; reflexivity|discriminate X].
Qed.

Lemma add_elem_raw_complete pe h nd tb u l raw e0 : penv_ok pe -> bytes h -> (192 <= length h)%nat -> urep u l -> sized_key u ->
  (forall t, In t (u_key u) -> set_capable t) -> element pe (u_key u) raw e0 ->
  exists e, length e = u_esize u /\ add_elem_raw pe (Some h) nd tb u raw =
    (a <- set_add_elem true nd tb u e ; if snd a =? 0 then Ok (fst a) else Er (snd a)).
Proof.
  intros P B L R (S1 & S2) C V. unfold add_elem_raw. unfold element, component_texts in V.
  rewrite <- (tokens_pieces _ comp_sep among_comp (length raw)) in V by lia.
  assert (Q : length (firstn (u_esize u) h) = (0 + list_sum (map comp_size (u_key u)))%nat) by (rewrite firstn_len by lia; exact S1).
  destruct (comp_loop_complete pe P _ _ 0%nat _ _ (bytes_firstn h (u_esize u) B) Q V C) as (e & Ee). rewrite Ee. cbn [bind].
  destruct (comp_loop_sound pe P _ _ 0%nat _ _ (bytes_firstn h (u_esize u) B) Q Ee) as (vs & _ & _ & _ & Le).
  exists e. rewrite Le, firstn_len by lia. auto.
Qed.

(** ** The loop. *)
Lemma filter_strip l : filter nonempty (map strip (filter nonempty l)) = filter nonempty (map strip l).
Proof.
  induction l as [|w l IH]; [reflexivity|]. destruct w as [|c w]; [exact IH|]. cbn [filter nonempty map]. now rewrite IH.
Qed.

Lemma element_texts_step s :
  match strtok_any payload_delims s with
  | None => element_texts s = []
  | Some (_, tok, rest) => element_texts s = (if nonempty (strip tok) then [strip tok] else []) ++ element_texts rest
  end.
Proof.
  pose proof (strtok_pieces _ elem_sep s among_elem) as T. unfold element_texts.
  destruct (strtok_any payload_delims s) as [[[sk tok] rest]|].
  - destruct T as (T & _). rewrite <- filter_strip, T. cbn [map filter]. rewrite filter_strip. destruct (nonempty (strip tok)); reflexivity.
  - rewrite <- filter_strip, T. reflexivity.
Qed.

Lemma span_app b ds x y : Forall (fun c => among ds c = b) x -> match y with [] => True | c :: _ => among ds c = negb b end ->
  span b ds (x ++ y) = (x, y).
Proof.
  induction x as [|c x IH]; intros F Y.
  - cbn [app]. destruct y as [|c y]; [reflexivity|]. cbn [span]. rewrite Y. destruct b; reflexivity.
  - inversion F; subst. cbn [app span]. rewrite IH by auto. now rewrite Bool.eqb_reflx.
Qed.

Lemma strtok_again ds s sk tok rest : strtok_any ds s = Some (sk, tok, rest) -> strtok_any ds (sk ++ tok) = Some (sk, tok, []).
Proof.
  intros H. pose proof (strtok_pieces ds (among ds) s (fun c => eq_refl)) as T. rewrite H in T. destruct T as (_ & N & _ & F1 & F2).
  unfold strtok_any. rewrite span_app; auto.
  - destruct tok as [|c tok]; [congruence|]. assert (span false ds (c :: tok) = (c :: tok, [])) as ->; [|reflexivity].
    rewrite <- (app_nil_r (c :: tok)) at 1. apply span_app; auto.
  - destruct tok as [|c tok]; [exact Logic.I|]. inversion F2; subst. auto.
Qed.

(** A blank first token: no number of rounds is enough. *)
Lemma loop_hangs pe heap nd tb u i sk tok s : strtok_any payload_delims s = Some (sk, tok, []) -> s = sk ++ tok -> trimmed tok = [] ->
  forall fuel, elems_loop fuel pe heap nd tb i true u s = Er EHANG.
Proof. intros H E T. induction fuel as [|f IH]; [reflexivity|]. cbn [elems_loop]. rewrite H, T, <- E. exact IH. Qed.

Lemma blank_hangs pe heap nd tb u i sk tok rest s : strtok_any payload_delims s = Some (sk, tok, rest) -> trimmed tok = [] ->
  forall fuel, elems_loop fuel pe heap nd tb i true u s = Er EHANG.
Proof.
  intros H T [|f]; [reflexivity|]. cbn [elems_loop]. rewrite H, T.
  eapply (loop_hangs _ _ _ _ _ _ sk tok); [eapply strtok_again; exact H|reflexivity|exact T].
Qed.

Lemma loop_sound pe heap nd tb : penv_ok pe -> heap_ok heap -> forall fuel i first u l s u', urep u l -> sized_key u ->
  elems_loop fuel pe heap nd tb i first u s = Ok u' ->
  exists es l', Forall2 (element pe (u_key u)) (element_texts s) es /\ urep u' l' /\ same_shape u' u /\
    map snd l' = fold_left step1 es (map snd l).
Proof.
  intros P HO. induction fuel as [|f IH]; intros i first u l s u' R S H; [discriminate H|].
  pose proof (element_texts_step s) as T. pose proof H as H0. cbn [elems_loop] in H.
  destruct (strtok_any payload_delims s) as [[[sk tok] rest]|] eqn:Et.
  2:{ apply Ok_inj in H as <-. rewrite T. exists [], l. split; [constructor|]. split; [auto|]. split; [apply shape_refl|reflexivity]. }
  rewrite <- trimmed_strip in T. destruct (trimmed tok) as [|c t] eqn:Em; cbn [nonempty] in T.
  - cbn [app] in T. rewrite T. destruct first.
    + exfalso. rewrite (blank_hangs pe heap nd tb u i sk tok rest s Et Em) in H0. discriminate H0.
    + apply (IH _ _ _ _ _ _ R S H).
  - binv H. rename a into u1. destruct (heap i) as [h|] eqn:Eh; [|discriminate E]. destruct (HO _ _ Eh) as (Bh & Lh).
    destruct (add_elem_raw_sound pe h _ _ _ _ _ _ P Bh Lh R S E) as (e & l1 & V & Le & R1 & (S1 & S2 & S3 & S4) & M).
    assert (SK : sized_key u1) by (unfold sized_key in *; rewrite S2, S3; exact S).
    destruct (IH _ _ _ _ _ _ R1 SK H) as (es & l' & F & R' & (Z1 & Z2 & Z3 & Z4) & M'). rewrite S2 in F.
    exists (e :: es), l'. rewrite T. split; [constructor; auto|]. split; [auto|]. split; [repeat split; congruence|].
    cbn [fold_left]. rewrite M', M. reflexivity.
Qed.

Lemma starts_well_rest s sk tok rest : strtok_any payload_delims s = Some (sk, tok, rest) -> starts_well s -> trimmed tok <> [].
Proof.
  intros H W. pose proof (strtok_pieces _ elem_sep s among_elem) as T. rewrite H in T. destruct T as (T & _). rewrite trimmed_strip. eapply W, T.
Qed.

(** All texts have values: the loop ends, and only memory can make it fail. *)
Lemma loop_complete pe heap nd tb : penv_ok pe -> heap_ok heap -> (forall i, heap i <> None) ->
  forall fuel i first u l s es, urep u l -> sized_key u -> (forall t, In t (u_key u) -> set_capable t) ->
  (first = true -> starts_well s) -> (length s < fuel)%nat -> Forall2 (element pe (u_key u)) (element_texts s) es ->
  (exists u', elems_loop fuel pe heap nd tb i first u s = Ok u') \/ elems_loop fuel pe heap nd tb i first u s = Er ENOMEM.
Proof.
  intros P HO HN. induction fuel as [|f IH]; intros i first u l s es R S C W L F; [lia|].
  pose proof (element_texts_step s) as T. pose proof (strtok_pieces _ elem_sep s among_elem) as TP. cbn [elems_loop].
  destruct (strtok_any payload_delims s) as [[[sk tok] rest]|] eqn:Et; [|left; eauto].
  destruct TP as (_ & _ & Hl & _). rewrite <- trimmed_strip in T. destruct (trimmed tok) as [|c t] eqn:Em; cbn [nonempty] in T.
  - cbn [app] in T. destruct first.
    + exfalso. exact (starts_well_rest _ _ _ _ Et (W eq_refl) Em).
    + rewrite T in F. apply (IH i false u l rest es); auto; [discriminate|lia].
  - cbn [app] in T. rewrite T in F. inversion F as [|? e ? es' V F']; subst.
    destruct (heap i) as [h|] eqn:Eh; [|exfalso; exact (HN _ Eh)]. destruct (HO _ _ Eh) as (Bh & Lh).
    destruct (add_elem_raw_complete pe h (nd i) tb u l _ _ P Bh Lh R S C V) as (e1 & Le & Q).
    destruct (set_add_sized true (nd i) tb u l e1 R Le) as (u2 & rc2 & l2 & E2 & R2 & K1 & K2 & K3 & K4 & CC).
    rewrite Q, E2. cbn [bind fst snd]. destruct (N.eqb_spec rc2 0) as [Hr|Hr].
    + cbn [bind]. apply (IH _ _ _ l2 rest es'); auto.
      * unfold sized_key in *. rewrite K1, K2. exact S.
      * rewrite K1. exact C.
      * discriminate.
      * lia.
      * rewrite K1. exact F'.
    + right. cbn [bind]. destruct CC as [(X & _)|[(X & _)|(-> & _)]]; congruence.
Qed.

(** The outcomes. *)
Definition textE := [EINVAL; E2BIG; ENOTSUP; ENOMEM].

Definition parseE := [EINVAL].
Lemma parse_text : incl parseE textE.
Proof. intros e [<-|[]]. cbn. auto. Qed.

Lemma from_str_err eq t s : errs parseE (from_str eq t s).
Proof. induction t as [|[v n] t IH]; cbn [from_str]; [e1|]. destruct (eq n s); [apply errs_ok|exact IH]. Qed.
Lemma strtoul2_err s : errs parseE (strtoul2 s).
Proof.
  unfold strtoul2. destruct s; [e1|]. repeat match goal with |- errs _ (match ?x with _ => _ end) => destruct x end; try apply errs_ok; e1.
Qed.
Lemma bounded_err m r : errs parseE r -> errs parseE (bounded m r).
Proof. intros H. unfold bounded. apply errs_bind; [auto|]. intros v _. destruct (v <=? m); [apply errs_ok|e1]. Qed.

Lemma parser_err pe t p old w : parser_of pe t OP_IN = Some p -> errs parseE (p old w).
Proof.
  intros H. destruct t; cbn in H; try discriminate H; injection H as <-;
  unfold parse_iface, parse_l3_proto, parse_l4_proto, parse_icmp_type, parse_icmpv6_type, parse_dscp, parse_icmp_code,
  parse_named, parse_l4_port, parse_ipv4_addr, parse_ipv6_addr, parse_ipv4_net, parse_ipv6_net, parse_net; cbv zeta;
  repeat match goal with
  | |- errs _ (Ok _) => apply errs_ok
  | |- errs _ (Er _) => e1
  | |- errs _ (bind (bounded _ _) _) => apply errs_bind; [apply bounded_err, strtoul2_err|intros]
  | |- errs _ (bind _ _) => apply errs_bind; [|intros]
  | |- errs _ (match ?x with _ => _ end) => destruct x eqn:?
  | |- errs _ (strtoul2 _) => apply strtoul2_err
  end.
Qed.

Lemma mtype_err s : errs textE (mtype_from_str s).
Proof.
  intros e H. destruct mtype_inverse as (_ & I2 & I3). rewrite I3 in H; [injection H as <-; cbn; auto|].
  intros a Ha. apply I2 in Ha. congruence.
Qed.
Lemma key_err raw : errs textE (parse_key raw).
Proof.
  unfold parse_key. apply errs_bind.
  - generalize 8%nat. induction (tokens_any _ _ _) as [|t l IH]; intros room; cbn [key_loop]; [apply errs_ok|]. destruct room; [e1|].
    apply errs_bind; [apply mtype_err|intros]. apply errs_bind; [apply IH|intros]. apply errs_ok.
  - intros [|t l] _; [e1|apply errs_ok].
Qed.
Lemma comp_err pe : penv_ok pe -> forall key toks off elem, bytes elem ->
  length elem = (off + list_sum (map comp_size key))%nat -> errs parseE (comp_loop pe key toks off elem).
Proof.
  intros P. induction key as [|t key IH]; intros toks off elem B L; destruct toks as [|w toks]; cbn [comp_loop]; try e1; [apply errs_ok|].
  destruct (parser_of pe t OP_IN) as [p|] eqn:Ep; [|e1]. destruct (ops_size t OP_IN) as [n|] eqn:En; [|e1].
  cbn [map list_sum fold_right] in L. rewrite (comp_size_some _ _ En) in L. change (fold_right Nat.add 0%nat) with list_sum in L.
  destruct (Nat.leb_spec (off + n) (length elem)) as [Hb|Hb]; [|lia].
  apply errs_bind; [eapply parser_err; exact Ep|]. intros v Ev.
  destruct (parser_keeps pe t OP_IN p n P Ep En _ _ _ Ev (sub_len _ _ _ Hb) (bytes_sub _ _ _ B)) as (Lv & Bv).
  apply IH.
  - apply Forall_app. split; [now apply bytes_firstn|]. apply Forall_app. split; [exact Bv|now apply bytes_skipn].
  - rewrite !app_length, firstn_length, skipn_length. lia.
Qed.
Lemma loop_err pe heap nd tb : penv_ok pe -> heap_ok heap -> forall fuel i first u l s, urep u l -> sized_key u ->
  (first = true -> starts_well s) -> (length s < fuel)%nat -> errs textE (elems_loop fuel pe heap nd tb i first u s).
Proof.
  intros P HO. induction fuel as [|f IH]; intros i first u l s R S W L; [lia|].
  pose proof (strtok_pieces _ elem_sep s among_elem) as TP. cbn [elems_loop].
  destruct (strtok_any payload_delims s) as [[[sk tok] rest]|] eqn:Et; [|apply errs_ok].
  destruct TP as (_ & _ & Hl & _). destruct (trimmed tok) as [|c t] eqn:Em.
  - destruct first; [exfalso; exact (starts_well_rest _ _ _ _ Et (W eq_refl) Em)|]. apply (IH _ _ _ l); auto; [discriminate|lia].
  - destruct (heap i) as [h|] eqn:Eh; [|e1]. destruct (HO _ _ Eh) as (Bh & Lh).
    apply errs_bind.
    + unfold add_elem_raw. apply errs_bind.
      * eapply errs_weaken; [|exact parse_text]. apply comp_err; [auto|now apply bytes_firstn|]. rewrite firstn_len by (destruct S; lia). cbn. exact (proj1 S).
      * intros e Ee. assert (Q : length (firstn (u_esize u) h) = (0 + list_sum (map comp_size (u_key u)))%nat)
          by (rewrite firstn_len by (destruct S; lia); exact (proj1 S)).
        destruct (comp_loop_sound pe P _ _ 0%nat _ _ (bytes_firstn h (u_esize u) Bh) Q Ee) as (vs & _ & _ & _ & Le).
        rewrite firstn_len in Le by (destruct S; lia).
        destruct (set_add_sized true (nd i) tb u l e R Le) as (u2 & rc2 & l2 & E2 & R2 & K1 & K2 & K3 & K4 & CC).
        rewrite E2. cbn [bind fst snd]. destruct (N.eqb_spec rc2 0) as [Hr|Hr]; [apply errs_ok|].
        destruct CC as [(X & _)|[(X & _)|(-> & _)]]; [congruence|congruence|e1].
    + intros u1 E1. destruct (add_elem_raw_sound pe h _ _ _ _ _ _ P Bh Lh R S E1) as (e & l1 & V & Le & R1 & (S1 & S2 & S3 & S4) & M).
      apply (IH _ _ _ l1); auto; [unfold sized_key in *; rewrite S2, S3; exact S|discriminate|lia].
Qed.

(** ** bf_set_new_from_raw. *)
Lemma comp_size_le t : (comp_size t <= 24)%nat.
Proof. destruct t; cbn; lia. Qed.
Lemma key_small key : (length key <= 8)%nat -> (list_sum (map comp_size key) <= 192)%nat.
Proof.
  intros H. assert (list_sum (map comp_size key) <= 24 * length key)%nat; [|lia].
  clear H. induction key as [|t key IH]; [cbn; lia|]. change (comp_size t + list_sum (map comp_size key) <= 24 * length (t :: key))%nat.
  pose proof (comp_size_le t). cbn [length]. lia.
Qed.
Lemma new_sized name key u : set_new name key = Ok u -> sized_key u /\ good_key key.
Proof.
  intros H. assert (G : good_key key) by (apply (set_new_iff name); eauto). split; [|auto].
  destruct (set_new_result _ _ _ H) as (_ & K & S & _). unfold sized_key. rewrite K, S. split; [auto|]. apply key_small. apply G.
Qed.

Theorem from_raw_sound fuel pe heap nd tb name raw_key payload u : penv_ok pe -> heap_ok heap ->
  set_new_from_raw fuel pe heap nd tb name raw_key payload = Ok u ->
  exists key elems, key_names (key_texts raw_key) key /\ Forall2 (element pe key) (element_texts payload) elems /\ set_is u name key elems.
Proof.
  intros P HO H. unfold set_new_from_raw in H. binv H. binv H. rename a into key, a0 into u0.
  destruct (new_sized _ _ _ E0) as (S & G). destruct (set_new_result _ _ _ E0) as (N1 & N2 & N3 & N4 & _).
  destruct (loop_sound pe heap nd tb P HO _ _ _ _ _ _ _ (urep_new _ _ _ E0) S H) as (es & l & F & R & (S1 & S2 & S3 & S4) & M).
  exists key, es. split; [now apply parse_key_ok in E|]. rewrite N2 in F. split; [exact F|].
  unfold set_is. rewrite S1, S2, S3, S4, N1, N2, N3. split; [auto|]. split; [auto|]. split; [auto|]. split; [auto|].
  rewrite (set_read_ok _ _ R), M. reflexivity.
Qed.

Theorem from_raw_complete fuel pe heap nd tb name raw_key payload key elems : penv_ok pe -> heap_ok heap -> (forall i, heap i <> None) ->
  starts_well payload -> (length payload < fuel)%nat -> key_names (key_texts raw_key) key -> good_key key ->
  Forall2 (element pe key) (element_texts payload) elems ->
  (exists u, set_new_from_raw fuel pe heap nd tb name raw_key payload = Ok u) \/
  set_new_from_raw fuel pe heap nd tb name raw_key payload = Er ENOMEM.
Proof.
  intros P HO HN W L K G F. unfold set_new_from_raw.
  assert (parse_key raw_key = Ok key) as -> by (apply parse_key_ok; split; [apply G|exact K]). cbn [bind].
  destruct (proj2 (set_new_iff name key) G) as (u & E). rewrite E. cbn [bind].
  destruct (new_sized _ _ _ E) as (S & _). destruct (set_new_result _ _ _ E) as (_ & N2 & _).
  apply (loop_complete pe heap nd tb P HO HN fuel 0%nat true u [] payload elems); auto.
  - exact (urep_new _ _ _ E).
  - rewrite N2. apply G.
  - now rewrite N2.
Qed.

Theorem from_raw_errors fuel pe heap nd tb name raw_key payload : penv_ok pe -> heap_ok heap -> starts_well payload ->
  (length payload < fuel)%nat -> errs textE (set_new_from_raw fuel pe heap nd tb name raw_key payload).
Proof.
  intros P HO W L. unfold set_new_from_raw. apply errs_bind; [apply key_err|]. intros key _. apply errs_bind.
  - intros e H. destruct (set_new_error _ _ _ H) as [(_ & ->)|[(_ & ->)|[(_ & _ & ->)|(_ & _ & _ & ->)]]]; cbn; auto 6.
  - intros u E. destruct (new_sized _ _ _ E) as (S & _). apply (loop_err pe heap nd tb P HO _ _ _ _ []); auto. exact (urep_new _ _ _ E).
Qed.

Theorem from_raw_hangs pe heap nd tb name raw_key payload key w ws : key_names (key_texts raw_key) key -> good_key key ->
  filter nonempty (pieces elem_sep payload) = w :: ws -> strip w = [] ->
  forall fuel, set_new_from_raw fuel pe heap nd tb name raw_key payload = Er EHANG.
Proof.
  intros K G Hp Hw fuel. unfold set_new_from_raw.
  assert (parse_key raw_key = Ok key) as -> by (apply parse_key_ok; split; [apply G|exact K]). cbn [bind].
  destruct (proj2 (set_new_iff name key) G) as (u & E). rewrite E. cbn [bind].
  pose proof (strtok_pieces _ elem_sep payload among_elem) as T. destruct (strtok_any payload_delims payload) as [[[sk tok] rest]|] eqn:Et.
  - destruct T as (T & _). rewrite Hp in T. injection T as -> _. eapply blank_hangs; [exact Et|]. now rewrite trimmed_strip.
  - rewrite Hp in T. discriminate T.
Qed.

(** With memory. *)
Lemma loop_generous pe heap nd tb : penv_ok pe -> heap_ok heap -> (forall i, heap i <> None) -> generous nd tb ->
  forall fuel i first u l s, urep u l -> sized_key u ->
  (forall a, In a (map fst l) -> exists j, (j < i)%nat /\ nd j = Some a) ->
  h_used (u_elems u) <= N.of_nat i -> h_cap (u_elems u) <= 16 + 4 * N.of_nat i ->
  16 + 4 * N.of_nat (i + length (element_texts s)) < MAX_CAP -> (first = true -> starts_well s) ->
  elems_loop fuel pe heap nd tb i first u s <> Er ENOMEM.
Proof.
  intros P HO HN (G1 & G2 & G3). induction fuel as [|f IH]; intros i first u l s R S Hin Hu Hc Hk W; [discriminate|].
  pose proof (element_texts_step s) as T. cbn [elems_loop].
  destruct (strtok_any payload_delims s) as [[[sk tok] rest]|] eqn:Et; [|discriminate].
  rewrite <- trimmed_strip in T. destruct (trimmed tok) as [|c t] eqn:Em; cbn [nonempty] in T.
  - destruct first; [exfalso; exact (starts_well_rest _ _ _ _ Et (W eq_refl) Em)|].
    cbn [app] in T. rewrite T in Hk. apply (IH _ _ _ l); auto. discriminate.
  - cbn [app] in T. rewrite T in Hk. cbn [length] in Hk. destruct (heap i) as [h|] eqn:Eh; [|exfalso; exact (HN _ Eh)]. destruct (HO _ _ Eh) as (Bh & Lh).
    unfold add_elem_raw.
    assert (Q : length (firstn (u_esize u) h) = (0 + list_sum (map comp_size (u_key u)))%nat)
      by (rewrite firstn_len by (destruct S; lia); exact (proj1 S)).
    destruct (comp_loop pe (u_key u) (tokens_any (length (c :: t)) (lit ",") (c :: t)) 0 (firstn (u_esize u) h)) as [e|x] eqn:Ee; cbn [bind].
    2:{ intros X. injection X as ->. pose proof (comp_err pe P _ _ _ _ (bytes_firstn h (u_esize u) Bh) Q _ Ee) as [X|[]]. discriminate X. }
    destruct (comp_loop_sound pe P _ _ 0%nat _ _ (bytes_firstn h (u_esize u) Bh) Q Ee) as (vs & _ & _ & _ & He).
    rewrite firstn_len in He by (destruct S; lia).
    destruct (set_add_generous (nd i) tb u l e R He) as (u1 & l1 & E & R1 & C); [|auto|lia|].
    { destruct (G1 i) as (a & Ea). exists a. split; auto. intros Hi. destruct (Hin a Hi) as (j & Hj & Ej). assert (i = j) by (apply G2; congruence). lia. }
    pose proof (add_small _ _ _ _ _ _ _ R He E) as (B1 & B2).
    destruct (set_add_sized true (nd i) tb u l e R He) as (u2 & rc2 & l2 & E2 & R2 & K1 & K2 & K3 & K4 & CC).
    rewrite E in E2. apply Ok_inj in E2. injection E2 as <- <-.
    rewrite E. cbn [bind fst snd]. apply (IH _ _ _ l1); auto.
    + unfold sized_key in *. rewrite K1, K2. exact S.
    + intros a Ha. destruct C as [->|(a' & Ea & ->)].
      * destruct (Hin a Ha) as (j & Hj & Ej). exists j. split; [lia|auto].
      * rewrite map_app in Ha. apply in_app_iff in Ha as [Ha|[<-|[]]].
        -- destruct (Hin a Ha) as (j & Hj & Ej). exists j. split; [lia|auto].
        -- exists i. split; [lia|auto].
    + lia.
    + lia.
    + lia.
    + discriminate.
Qed.

Theorem from_raw_succeeds fuel pe heap nd tb name raw_key payload key elems : penv_ok pe -> heap_ok heap -> (forall i, heap i <> None) ->
  generous nd tb -> 16 + 4 * N.of_nat (length elems) < MAX_CAP ->
  starts_well payload -> (length payload < fuel)%nat -> key_names (key_texts raw_key) key -> good_key key ->
  Forall2 (element pe key) (element_texts payload) elems ->
  exists u, set_new_from_raw fuel pe heap nd tb name raw_key payload = Ok u.
Proof.
  intros P HO HN G Hk W L K GK F.
  destruct (from_raw_complete fuel pe heap nd tb name raw_key payload key elems) as [H|H]; auto. exfalso. revert H.
  unfold set_new_from_raw.
  assert (parse_key raw_key = Ok key) as -> by (apply parse_key_ok; split; [apply GK|exact K]). cbn [bind].
  destruct (proj2 (set_new_iff name key) GK) as (u & E). rewrite E. cbn [bind]. destruct (new_sized _ _ _ E) as (S & _).
  apply (loop_generous pe heap nd tb P HO HN G _ _ _ _ []); auto.
  - exact (urep_new _ _ _ E).
  - intros a [].
  - destruct (set_new_inv _ _ _ E) as (_ & _ & ->). cbn. lia.
  - destruct (set_new_inv _ _ _ E) as (_ & _ & ->). cbn. lia.
  - rewrite (f2_len _ _ _ F). exact Hk.
Qed.
