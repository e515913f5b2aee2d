(** The MessagePack parser and writer of MpackModel against the format of MpackSpec. *)
From Coq Require Import NArith ZArith List Bool Arith Lia.
From Verif Require Import Bytes BytesFacts GenModel PackModel NewFacts MpackModel MpackSpec.
Import ListNotations.
Local Open Scope N_scope.
Local Open Scope list_scope.

Ltac nif := match goal with
  | |- context [if ?b then _ else _] => let E := fresh "E" in destruct b eqn:E
  | H : context [if ?b then _ else _] |- _ => let E := fresh "E" in destruct b eqn:E
  end.

(** ** Reading *)
Lemma rd_ok d o n : (o + n <= length d)%nat -> rd d o n = Ok (sub d o n).
Proof. intros H. unfold rd. rewrite (proj2 (Nat.leb_le _ _) H). reflexivity. Qed.

Lemma reserve_ok l g x : g + x <= l -> reserve l g x = Ok (g + x).
Proof. intros H. unfold reserve. rewrite (proj2 (N.leb_le _ _) H). reflexivity. Qed.

Lemma reserve_cases l g x : (reserve l g x = Ok (g + x) /\ g + x <= l) \/ reserve l g x = Er EINVAL.
Proof. unfold reserve. destruct (g + x <=? l) eqn:E; [left; split; [reflexivity|apply N.leb_le; exact E]|right; reflexivity]. Qed.

Lemma sub_shift c d o n : sub (c ++ d) (length c + o) n = sub d o n.
Proof. unfold sub. rewrite skipn_app, skipn_all2 by lia. cbn [app]. do 2 f_equal. lia. Qed.

Lemma rd_shift c d o n : rd (c ++ d) (length c + o) n = rd d o n.
Proof.
  unfold rd. rewrite app_length, sub_shift.
  destruct (o + n <=? length d)%nat eqn:E.
  - apply Nat.leb_le in E. rewrite (proj2 (Nat.leb_le _ _)) by lia. reflexivity.
  - apply Nat.leb_gt in E. rewrite (proj2 (Nat.leb_gt _ _)) by lia. reflexivity.
Qed.

Lemma contents_shift c d left : parse_contents (c ++ d) (length c) left = parse_contents d 0 left.
Proof.
  assert (R : forall o n, rd (c ++ d) (length c + o) n = rd d o n) by (intros; apply rd_shift).
  assert (L : forall w, load (c ++ d) (length c) w = load d 0 w).
  { intros w. unfold load. replace (S (length c)) with (length c + 1)%nat by lia. rewrite R. reflexivity. }
  assert (B : forall got len mk, parse_bytes (c ++ d) (length c) left got len mk = parse_bytes d 0 left got len mk).
  { intros. unfold parse_bytes. destruct (reserve left got len); [|reflexivity]. cbn [bind].
    replace (length c + N.to_nat got + 1)%nat with (length c + (0 + N.to_nat got + 1))%nat by lia. rewrite R. reflexivity. }
  unfold parse_contents. replace (rd (c ++ d) (length c) 1) with (rd d 0 1) by (rewrite <- R; f_equal; lia).
  destruct (rd d 0 1) as [tb|]; [|reflexivity]. cbn [bind].
  rewrite !L, !B. 
  set (t := byte_at tb 0). clearbody t.
  repeat (destruct (_ <=? t); [reflexivity|] || destruct (t <=? _); [reflexivity|]).
  destruct t as [|t]; [reflexivity|].
  assert (G : forall w (k k' : N -> N -> res (started * N)), (forall a b, k a b = k' a b) ->
     bind (reserve left 0 (N.of_nat w)) (fun got => bind (load d 0 w) (fun len => k got len)) =
     bind (reserve left 0 (N.of_nat w)) (fun got => bind (load d 0 w) (fun len => k' got len))).
  { intros w k k' E. destruct (reserve left 0 (N.of_nat w)); [|reflexivity]. cbn [bind]. destruct (load d 0 w); [|reflexivity]. apply E. }
  repeat match goal with |- context [match ?p with xI _ => _ | xO _ => _ | xH => _ end] => destruct p end; try reflexivity; apply G; intros; apply B.
Qed.

Lemma firstn_add {A} n m : forall l : list A, firstn (n + m) l = firstn n l ++ firstn m (skipn n l).
Proof. induction n; intros l; [reflexivity|]. destruct l; [rewrite skipn_nil, !firstn_nil; reflexivity|]. cbn. f_equal. apply IHn. Qed.

(** ** One type byte *)
Definition total (m : bool) (cnt : N) : N := if m then cnt * 2 else cnt.
Definition head (m : bool) : list N -> N -> Prop := if m then map_head else arr_head.
Definition leaf (n : node) : bool := match n with NArr _ | NMap _ => false | _ => true end.

Inductive outcome (t : N) (d : list N) (left : N) : res (started * N) -> Prop :=
| O_bad : outcome t d left (Er EINVAL)
| O_node n got : got <= left -> leaf n = true -> msgpack (t :: firstn (N.to_nat got) d) n -> outcome t d left (Ok (S_node n, got))
| O_open m cnt w : N.of_nat w + total m cnt <= left -> head m (t :: firstn w d) cnt ->
    outcome t d left (Ok (S_open m (total m cnt), N.of_nat w + total m cnt)).

Lemma to_signed_signed (d : list N) w : (0 < w)%nat -> length (firstn w d) = w ->
  to_signed (8 * Z.of_nat w) (be_dec (firstn w d)) = signed (firstn w d).
Proof.
  intros W H. unfold to_signed, signed. rewrite H. cbv zeta.
  replace (2 ^ (8 * Z.of_nat w))%Z with (2 * 2 ^ (8 * Z.of_nat w - 1))%Z
    by (rewrite <- Z.pow_succ_r by lia; f_equal; lia).
  destruct (Z.of_N _ <? _)%Z eqn:E; [apply Z.ltb_lt in E; rewrite (proj2 (Z.ltb_lt _ _)) by lia; reflexivity|].
  apply Z.ltb_ge in E. rewrite (proj2 (Z.ltb_ge _ _)) by lia. reflexivity.
Qed.

Section Byte.
  Variables (t : N) (d : list N) (left : N).
  Hypothesis L : left <= N.of_nat (length d).

  Lemma load_ok w : N.of_nat w <= left -> load (t :: d) 0 w = Ok (be_dec (firstn w d)).
  Proof using L.
    intros H. unfold load. rewrite rd_ok by (cbn [length]; lia). cbn [bind]. reflexivity.
  Qed.

  Lemma number_out w mk : (N.of_nat w <= left -> leaf (mk (be_dec (firstn w d))) = true /\ msgpack (t :: firstn w d) (mk (be_dec (firstn w d)))) ->
    outcome t d left (bind (reserve left 0 (N.of_nat w)) (fun got => bind (load (t :: d) 0 w) (fun v => Ok (S_node (mk v), got)))).
  Proof using L.
    intros H. destruct (reserve_cases left 0 (N.of_nat w)) as [[E B]|E]; rewrite E; cbn [bind]; [|constructor].
    rewrite N.add_0_l in B. rewrite load_ok by exact B. cbn [bind]. destruct (H B) as [A C].
    constructor; [lia|exact A|]. rewrite N.add_0_l, Nnat.Nat2N.id. exact C.
  Qed.

  Lemma bytes_out w (mk : list N -> node) (hd_ : list N -> N -> Prop) len :
    N.of_nat w <= left -> (forall s, leaf (mk s) = true) ->
    (forall h s, hd_ h (N.of_nat (length s)) -> msgpack (h ++ s) (mk s)) -> hd_ (t :: firstn w d) len ->
    outcome t d left (parse_bytes (t :: d) 0 left (N.of_nat w) len mk).
  Proof using L.
    intros B LF G H. unfold parse_bytes.
    destruct (reserve_cases left (N.of_nat w) len) as [[E B2]|E]; rewrite E; cbn [bind]; [|constructor].
    rewrite rd_ok by (cbn [length]; rewrite Nnat.Nat2N.id; lia). cbn [bind].
    constructor; [exact B2|apply LF|].
    rewrite Nnat.Nat2N.id. cbn [Nat.add]. replace (w + 1)%nat with (S w) by lia.
    change (sub (t :: d) (S w) (N.to_nat len)) with (sub d w (N.to_nat len)).
    replace (t :: firstn (N.to_nat (N.of_nat w + len)) d) with ((t :: firstn w d) ++ sub d w (N.to_nat len)).
    - apply G. replace (N.of_nat (length (sub d w (N.to_nat len)))) with len; [exact H|].
      unfold sub. rewrite firstn_length, skipn_length. lia.
    - cbn [app]. f_equal. unfold sub. replace (N.to_nat (N.of_nat w + len)) with (w + N.to_nat len)%nat by lia.
      symmetry. apply firstn_add.
  Qed.

  Lemma children_out w m cnt : head m (t :: firstn w d) cnt -> outcome t d left (parse_children left (N.of_nat w) cnt m).
  Proof using.
    intros H. unfold parse_children.
    change (if m then cnt * 2 else cnt) with (total m cnt).
    destruct (reserve_cases left (N.of_nat w) (total m cnt)) as [[E B]|E]; rewrite E; cbn [bind]; [|constructor].
    constructor; assumption.
  Qed.

  Lemma sized_out w k : (N.of_nat w <= left -> outcome t d left (k (N.of_nat w) (be_dec (firstn w d)))) ->
    outcome t d left (bind (reserve left 0 (N.of_nat w)) (fun got => bind (load (t :: d) 0 w) (fun v => k got v))).
  Proof using L.
    intros H. destruct (reserve_cases left 0 (N.of_nat w)) as [[E B]|E]; rewrite E; cbn [bind]; [|constructor].
    rewrite N.add_0_l in *. rewrite load_ok by exact B. cbn [bind]. exact (H B).
  Qed.

  Lemma firstn_len w : N.of_nat w <= left -> length (firstn w d) = w.
  Proof using L. intros. apply firstn_length_le. lia. Qed.

  Lemma long_head base room long w : In (t, w) long -> N.of_nat w <= left -> announces base room long (t :: firstn w d) (be_dec (firstn w d)).
  Proof using L. intros I B. right. exists t, w, (firstn w d). split; [exact I|]. split; [apply firstn_len; exact B|]. split; reflexivity. Qed.

  Lemma short_head base room long n : n < room -> t = base + n -> announces base room long (t :: firstn 0 d) n.
  Proof using. intros R ->. left. split; [exact R|reflexivity]. Qed.

End Byte.

Lemma contents_out t d left : byte t -> left <= N.of_nat (length d) -> outcome t d left (parse_contents (t :: d) 0 left).
Proof.
  intros T L. unfold parse_contents. rewrite rd_ok by (cbn [length]; lia). cbn [bind]. change (byte_at (sub (t :: d) 0 1) 0) with t.
  unfold byte in T.
  destruct (t <=? 0x7f) eqn:E1; [apply N.leb_le in E1; constructor; [lia|reflexivity|constructor; lia]|apply N.leb_gt in E1].
  destruct (t <=? 0x8f) eqn:E2; [apply N.leb_le in E2|apply N.leb_gt in E2].
  { apply (children_out t d left 0%nat true). apply short_head; lia. }
  destruct (t <=? 0x9f) eqn:E3; [apply N.leb_le in E3|apply N.leb_gt in E3].
  { apply (children_out t d left 0%nat false). apply short_head; lia. }
  destruct (t <=? 0xbf) eqn:E4; [apply N.leb_le in E4|apply N.leb_gt in E4].
  { apply (bytes_out t d left L 0%nat NStr str_head); [lia|reflexivity|intros; constructor; assumption|apply short_head; lia]. }
  destruct (0xe0 <=? t) eqn:E5; [apply N.leb_le in E5|apply N.leb_gt in E5].
  { constructor; [lia|reflexivity|]. cbn [N.to_nat firstn].
    replace (to_signed 8 t) with (signed [t]); [constructor; lia|].
    symmetry. apply (to_signed_signed [t] 1); [lia|reflexivity]. }
  assert (C : In t (map N.of_nat (seq 192 32))).
  { apply in_map_iff. exists (N.to_nat t). split; [apply Nnat.N2Nat.id|]. apply in_seq. lia. }
  assert (NU : forall w, In (t, w) [(0xcc, 1%nat); (0xcd, 2%nat); (0xce, 4%nat); (0xcf, 8%nat)] ->
    outcome t d left (bind (reserve left 0 (N.of_nat w)) (fun got => bind (load (t :: d) 0 w) (fun v => Ok (S_node (NUint v), got))))).
  { intros w I. apply (number_out t d left L w NUint). intros B. split; [reflexivity|]. apply P_uint with w; [exact I|apply firstn_len with left; assumption]. }
  assert (NF : forall w, In (t, w) [(0xca, 4%nat); (0xcb, 8%nat)] ->
    outcome t d left (bind (reserve left 0 (N.of_nat w)) (fun got => bind (load (t :: d) 0 w) (fun v => Ok (S_node NOther, got))))).
  { intros w I. apply (number_out t d left L w (fun _ => NOther)). intros B. split; [reflexivity|]. apply P_float with w; [exact I|apply firstn_len with left; assumption]. }
  assert (NI : forall w, In (t, w) [(0xd0, 1%nat); (0xd1, 2%nat); (0xd2, 4%nat); (0xd3, 8%nat)] ->
    outcome t d left (bind (reserve left 0 (N.of_nat w)) (fun got => bind (load (t :: d) 0 w) (fun v => Ok (S_node (NInt (to_signed (8 * Z.of_nat w) v)), got))))).
  { intros w I. apply (number_out t d left L w (fun v => NInt (to_signed (8 * Z.of_nat w) v))). intros B. split; [reflexivity|].
    rewrite to_signed_signed; [|destruct I as [I|[I|[I|[I|[]]]]]; injection I as _ <-; lia|apply firstn_len with left; assumption].
    apply P_int with w; [exact I|apply firstn_len with left; assumption]. }
  assert (SB : forall w, In (t, w) [(0xc4, 1%nat); (0xc5, 2%nat); (0xc6, 4%nat)] ->
    outcome t d left (bind (reserve left 0 (N.of_nat w)) (fun got => bind (load (t :: d) 0 w) (fun len => parse_bytes (t :: d) 0 left got len NBin)))).
  { intros w I. apply (sized_out t d left L w (fun got len => parse_bytes (t :: d) 0 left got len NBin)). intros B.
    apply (bytes_out t d left L w NBin bin_head); [exact B|reflexivity|intros; constructor; assumption|]. apply long_head with left; assumption. }
  assert (SS : forall w, In (t, w) [(0xd9, 1%nat); (0xda, 2%nat); (0xdb, 4%nat)] ->
    outcome t d left (bind (reserve left 0 (N.of_nat w)) (fun got => bind (load (t :: d) 0 w) (fun len => parse_bytes (t :: d) 0 left got len NStr)))).
  { intros w I. apply (sized_out t d left L w (fun got len => parse_bytes (t :: d) 0 left got len NStr)). intros B.
    apply (bytes_out t d left L w NStr str_head); [exact B|reflexivity|intros; constructor; assumption|]. apply long_head with left; assumption. }
  assert (SC : forall m w, In (t, w) (if m : bool then [(0xde, 2%nat); (0xdf, 4%nat)] else [(0xdc, 2%nat); (0xdd, 4%nat)]) ->
    outcome t d left (bind (reserve left 0 (N.of_nat w)) (fun got => bind (load (t :: d) 0 w) (fun len => parse_children left got len m)))).
  { intros m w I. apply (sized_out t d left L w (fun got len => parse_children left got len m)). intros B.
    apply children_out. destruct m; apply long_head with left; assumption. }
  vm_compute in C.
  repeat (destruct C as [C|C]; [subst t;
    first [ solve [constructor]
          | solve [constructor; [lia|reflexivity|constructor]]
          | apply NU; cbn; tauto | apply NF; cbn; tauto | apply (NI 1%nat); cbn; tauto | apply (NI 2%nat); cbn; tauto | apply (NI 4%nat); cbn; tauto | apply (NI 8%nat); cbn; tauto
          | apply SB; cbn; tauto | apply SS; cbn; tauto | apply (SC true); cbn; tauto | apply (SC false); cbn; tauto ]|]).
  destruct C.
Qed.

(** ** The same, the other way *)
Lemma load_app t b d w : length b = w -> load (t :: b ++ d) 0 w = Ok (be_dec b).
Proof.
  intros H. unfold load. rewrite rd_ok by (cbn [length]; rewrite app_length; lia). cbn [bind].
  change (sub (t :: b ++ d) 1 w) with (sub (b ++ d) 0 w). unfold sub. cbn [skipn]. rewrite firstn_app, H, Nat.sub_diag, firstn_all2 by lia.
  rewrite app_nil_r. reflexivity.
Qed.

Lemma number_in left t b d w (mk : N -> node) : length b = w -> N.of_nat w <= left ->
  bind (reserve left 0 (N.of_nat w)) (fun got => bind (load (t :: b ++ d) 0 w) (fun v => Ok (S_node (mk v), got))) =
  Ok (S_node (mk (be_dec b)), N.of_nat w).
Proof. intros H B. rewrite reserve_ok by lia. cbn [bind]. rewrite load_app by exact H. reflexivity. Qed.

Lemma sized_in left t b d w k : length b = w -> N.of_nat w <= left ->
  bind (reserve left 0 (N.of_nat w)) (fun got => bind (load (t :: b ++ d) 0 w) (fun v => k got v)) = k (N.of_nat w) (be_dec b) :> res (started * N).
Proof. intros H B. rewrite reserve_ok by lia. cbn [bind]. rewrite load_app by exact H. cbn [bind]. f_equal. Qed.

Lemma bytes_in h s d left mk : (0 < length h)%nat -> N.of_nat (length h - 1) + N.of_nat (length s) <= left ->
  parse_bytes (h ++ s ++ d) 0 left (N.of_nat (length h - 1)) (N.of_nat (length s)) mk =
  Ok (S_node (mk s), N.of_nat (length (h ++ s) - 1)).
Proof.
  intros H B. unfold parse_bytes. rewrite reserve_ok by exact B. cbn [bind].
  rewrite !Nnat.Nat2N.id. replace (0 + (length h - 1) + 1)%nat with (length h + 0)%nat by lia.
  rewrite rd_shift, rd_ok by (rewrite app_length; lia). cbn [bind]. unfold sub. cbn [skipn].
  rewrite firstn_app, Nat.sub_diag, firstn_all. rewrite app_nil_r. do 2 f_equal. rewrite app_length. lia.
Qed.

Lemma contents_head m h cnt d left : head m h cnt -> N.of_nat (length h - 1) + total m cnt <= left ->
  parse_contents (h ++ d) 0 left = Ok (S_open m (total m cnt), N.of_nat (length h - 1) + total m cnt).
Proof.
  intros H B.
  assert (PC : forall got, got + total m cnt <= left -> parse_children left got cnt m = Ok (S_open m (total m cnt), got + total m cnt)).
  { intros got G. unfold parse_children. change (if m then cnt * 2 else cnt) with (total m cnt). rewrite reserve_ok by exact G. reflexivity. }
  assert (H' : (cnt < 16 /\ h = [(if m then 0x80 else 0x90) + cnt]) \/
    (exists t w b, In (t, w) (if m then [(0xde, 2%nat); (0xdf, 4%nat)] else [(0xdc, 2%nat); (0xdd, 4%nat)]) /\ length b = w /\ h = t :: b /\ cnt = be_dec b))
    by (destruct m; exact H).
  destruct H' as [[R ->]|(t & w & b & I & W & -> & V)].
  - cbn [length Nat.sub] in *. change (N.of_nat 0) with 0 in *.
    unfold parse_contents. rewrite rd_ok by (cbn [app length]; lia). cbn [bind].
    change (byte_at (sub ([(if m then 0x80 else 0x90) + cnt] ++ d) 0 1) 0) with ((if m then 0x80 else 0x90) + cnt).
    rewrite (proj2 (N.leb_gt _ 0x7f)) by (destruct m; lia).
    destruct m.
    + rewrite (proj2 (N.leb_le _ 0x8f)) by lia. replace (0x80 + cnt - 0x80) with cnt by lia. apply PC. exact B.
    + rewrite (proj2 (N.leb_gt _ 0x8f)) by lia. rewrite (proj2 (N.leb_le _ 0x9f)) by lia. replace (0x90 + cnt - 0x90) with cnt by lia. apply PC. exact B.
  - cbn [length] in *. replace (S (length b) - 1)%nat with w in * by lia. cbn [app].
    assert (E : parse_contents (t :: b ++ d) 0 left = bind (reserve left 0 (N.of_nat w)) (fun got => bind (load (t :: b ++ d) 0 w) (fun len => parse_children left got len m))).
    { destruct m; destruct I as [I|[I|[]]]; injection I as <- <-; reflexivity. }
    rewrite E, sized_in by (assumption || (destruct m; cbn [total] in B; lia)). rewrite <- V. apply PC. exact B.
Qed.

Lemma contents_leaf p n d left : msgpack p n -> leaf n = true -> N.of_nat (length p - 1) <= left ->
  parse_contents (p ++ d) 0 left = Ok (S_node n, N.of_nat (length p - 1)).
Proof.
  intros H LF B. destruct H as [| | |v V|t w b I W|v V V'|t w b I W|t w b I W|h s H|h s H|h b l H M|h b l H M]; try discriminate LF.
  - reflexivity.
  - reflexivity.
  - reflexivity.
  - unfold parse_contents. rewrite rd_ok by (cbn [app length]; lia). cbn [bind]. change (byte_at (sub ([v] ++ d) 0 1) 0) with v.
    rewrite (proj2 (N.leb_le v 0x7f)) by lia. reflexivity.
  - cbn [app length] in *. replace (S (length b) - 1)%nat with w in * by lia.
    transitivity (bind (reserve left 0 (N.of_nat w)) (fun got => bind (load (t :: b ++ d) 0 w) (fun v => Ok (S_node (NUint v), got)))).
    { destruct I as [I|[I|[I|[I|[]]]]]; injection I as <- <-; reflexivity. }
    apply (number_in left t b d w NUint); assumption.
  - unfold parse_contents. rewrite rd_ok by (cbn [app length]; lia). cbn [bind]. change (byte_at (sub ([v] ++ d) 0 1) 0) with v.
    rewrite (proj2 (N.leb_gt v 0x7f)), (proj2 (N.leb_gt v 0x8f)), (proj2 (N.leb_gt v 0x9f)), (proj2 (N.leb_gt v 0xbf)), (proj2 (N.leb_le 0xe0 v)) by lia.
    replace (signed [v]) with (to_signed 8 v); [reflexivity|]. apply (to_signed_signed [v] 1); [lia|reflexivity].
  - cbn [app length] in *. replace (S (length b) - 1)%nat with w in * by lia.
    transitivity (bind (reserve left 0 (N.of_nat w)) (fun got => bind (load (t :: b ++ d) 0 w) (fun v => Ok (S_node (NInt (to_signed (8 * Z.of_nat w) v)), got)))).
    { destruct I as [I|[I|[I|[I|[]]]]]; injection I as <- <-; reflexivity. }
    rewrite (number_in left t b d w (fun v => NInt (to_signed (8 * Z.of_nat w) v))) by assumption.
    pose proof (to_signed_signed b w) as S. rewrite firstn_all2 in S by lia. rewrite S; [reflexivity| |exact W].
    destruct I as [I|[I|[I|[I|[]]]]]; injection I as _ <-; lia.
  - cbn [app length] in *. replace (S (length b) - 1)%nat with w in * by lia.
    transitivity (bind (reserve left 0 (N.of_nat w)) (fun got => bind (load (t :: b ++ d) 0 w) (fun v => Ok (S_node NOther, got)))).
    { destruct I as [I|[I|[]]]; injection I as <- <-; reflexivity. }
    apply (number_in left t b d w (fun _ => NOther)); assumption.
  - rewrite <- app_assoc. destruct H as [[R ->]|(t & w & b & I & W & -> & V)].
    + rewrite <- (bytes_in [0xa0 + N.of_nat (length s)] s d left NStr) by (cbn [length app] in *; lia).
      unfold parse_contents. rewrite rd_ok by (cbn [app length]; lia). cbn [bind].
      change (byte_at (sub ([0xa0 + N.of_nat (length s)] ++ s ++ d) 0 1) 0) with (0xa0 + N.of_nat (length s)).
      rewrite (proj2 (N.leb_gt _ 0x7f)), (proj2 (N.leb_gt _ 0x8f)), (proj2 (N.leb_gt _ 0x9f)), (proj2 (N.leb_le _ 0xbf)) by lia.
      replace (0xa0 + N.of_nat (length s) - 0xa0) with (N.of_nat (length s)) by lia. reflexivity.
    + rewrite app_length in B. cbn [length] in B.
      rewrite <- (bytes_in (t :: b) s d left NStr) by (cbn [length]; lia).
      replace (length (t :: b) - 1)%nat with w by (cbn [length]; lia).
      transitivity (bind (reserve left 0 (N.of_nat w)) (fun got => bind (load (t :: b ++ s ++ d) 0 w) (fun len => parse_bytes (t :: b ++ s ++ d) 0 left got len NStr))).
      { destruct I as [I|[I|[I|[]]]]; injection I as <- <-; reflexivity. }
      rewrite (sized_in left t b (s ++ d) w (fun got len => parse_bytes (t :: b ++ s ++ d) 0 left got len NStr)) by (assumption || lia).
      rewrite V. reflexivity.
  - rewrite <- app_assoc. destruct H as [[R ->]|(t & w & b & I & W & -> & V)]; [lia|].
      rewrite app_length in B. cbn [length] in B.
      rewrite <- (bytes_in (t :: b) s d left NBin) by (cbn [length]; lia).
      replace (length (t :: b) - 1)%nat with w by (cbn [length]; lia).
      transitivity (bind (reserve left 0 (N.of_nat w)) (fun got => bind (load (t :: b ++ s ++ d) 0 w) (fun len => parse_bytes (t :: b ++ s ++ d) 0 left got len NBin))).
      { destruct I as [I|[I|[I|[]]]]; injection I as <- <-; reflexivity. }
      rewrite (sized_in left t b (s ++ d) w (fun got len => parse_bytes (t :: b ++ s ++ d) 0 left got len NBin)) by (assumption || lia).
      rewrite V. reflexivity.
Qed.
