(** The parse loop of MpackModel accepts exactly the format of MpackSpec. *)
From Coq Require Import NArith ZArith List Bool Arith Lia.
From Verif Require Import Bytes BytesFacts GenModel PackModel NewFacts MpackModel MpackSpec MpackFacts.
Import ListNotations.
Local Open Scope N_scope.
Local Open Scope list_scope.

Definition pending (st : list frame) : N := fold_right (fun f a => f_left f + a) 0 st.

(** The stack against the bytes consumed; [b]: a child of the top level is open. *)
Definition khead (k : kind) (h : list N) (n : N) : Prop :=
  match k with
  | K_root => False
  | K_arr => exists cnt, arr_head h cnt /\ n = total false cnt
  | K_map => exists cnt, map_head h cnt /\ n = total true cnt
  end.
Inductive opened : bool -> list frame -> list N -> Prop :=
| Op_root b : opened b [mkF K_root (if b then 0 else 1) []] []
| Op_in (b : bool) k l d st c h cs n : opened true st c -> khead k h n -> msgpacks cs (rev d) ->
    l + N.of_nat (length d) + (if b then 1 else 0) = n -> (b = false -> 0 < l) ->
    opened b (mkF k l d :: st) (c ++ h ++ cs).

Lemma msgpacks_snoc a l p n : msgpacks a l -> msgpack p n -> msgpacks (a ++ p) (l ++ [n]).
Proof.
  intros H P. induction H as [|a b m l Hm _ IH].
  - cbn [app]. rewrite <- (app_nil_r p). apply P_more; [exact P|constructor].
  - rewrite <- app_assoc. cbn [app]. apply P_more; assumption.
Qed.

Lemma pairs_spec cnt : forall l, length l = (2 * cnt)%nat -> length (pairs l) = cnt /\ flat (pairs l) = l.
Proof.
  induction cnt as [|cnt IH]; intros l H.
  - destruct l; [split; reflexivity|discriminate H].
  - destruct l as [|a [|b l]]; try (cbn in H; lia). cbn [pairs length flat map concat fst snd app].
    destruct (IH l) as [A B]; [cbn [length] in H; lia|]. split; [rewrite A; reflexivity|]. unfold flat in B. rewrite B. reflexivity.
Qed.

Lemma close_ok k h n cs d : khead k h n -> msgpacks cs (rev d) -> N.of_nat (length d) = n -> msgpack (h ++ cs) (close (mkF k 0 d)).
Proof.
  intros K M L. destruct k; [destruct K| |]; destruct K as [cnt [H E]]; unfold close; cbn [f_kind f_done].
  - cbn [total] in E. apply P_arr; [|exact M]. rewrite rev_length, L, E. exact H.
  - cbn [total] in E. destruct (pairs_spec (N.to_nat cnt) (rev d)) as [A B]; [rewrite rev_length; lia|].
    apply P_map; [|rewrite B; exact M]. rewrite A, Nnat.N2Nat.id. exact H.
Qed.

Lemma pop_ok r : forall g c p n, opened true (g :: r) c -> msgpack p n ->
  match pop (add n g) r with
  | inl n' => msgpack (c ++ p) n'
  | inr st => opened false st (c ++ p) /\ pending st = pending (g :: r)
  end.
Proof.
  induction r as [|g' r IH]; intros g c p n O P; inversion O as [b0 E0|b0 k l d st c0 h cs total O' K M L LB Eb Est Ec]; subst.
  - cbn. exact P.
  - inversion O'.
  - unfold add. cbn [f_kind f_left f_done pop]. destruct (l =? 0) eqn:E.
    + apply N.eqb_eq in E. subst l.
      assert (C : msgpack (h ++ cs ++ p) (close (mkF k 0 (n :: d)))).
      { apply (close_ok k h _ (cs ++ p) (n :: d) K); [cbn [rev]; apply msgpacks_snoc; assumption|cbn [length]; lia]. }
      specialize (IH g' c0 _ _ O' C). rewrite <- !app_assoc.
      destruct (pop (add (close (mkF k 0 (n :: d))) g') r) as [n'|st]; [exact IH|].
      destruct IH as [IH1 IH2]. split; [exact IH1|]. rewrite IH2. cbn. lia.
    + apply N.eqb_neq in E. split; [|reflexivity]. rewrite <- !app_assoc.
      apply Op_in with (l + N.of_nat (length d) + 1); [exact O'|exact K|cbn [rev]; apply msgpacks_snoc; assumption|cbn [length]; lia|lia].
Qed.

Lemma opened_start f below c : opened false (f :: below) c ->
  0 < f_left f /\ opened true (mkF (f_kind f) (f_left f - 1) (f_done f) :: below) c.
Proof.
  intros O. inversion O as [b0 E0|b0 k l d st c0 h cs total O' K M L LB Eb Est Ec]; subst; cbn [f_kind f_left f_done].
  - split; [lia|constructor].
  - specialize (LB eq_refl). split; [exact LB|]. apply Op_in with (l + N.of_nat (length d) + 0); try assumption; [lia|discriminate].
Qed.

Lemma head_nonempty m h n : head m h n -> exists t b, h = t :: b.
Proof. intros H. destruct m; destruct H as [[_ ->]|(t & w & b & _ & _ & -> & _)]; eexists; eexists; reflexivity. Qed.

Lemma loop_sound fuel : forall data size left stack, bytes data -> (size <= length data)%nat ->
  opened false stack (firstn size data) -> left + pending stack = N.of_nat (length data - size) -> (length data - size <= fuel)%nat ->
  parse_loop fuel data size left stack = Er EINVAL \/
  exists n sz, parse_loop fuel data size left stack = Ok (n, sz) /\ (sz <= length data)%nat /\ msgpack (firstn sz data) n.
Proof.
  induction fuel as [|fuel IH]; intros data size left stack B SZ O P F.
  - assert (Q : pending stack = 0) by lia. inversion O; subst; cbn in Q; [lia|].
    assert (0 < l) by auto. lia.
  - destruct stack as [|f below]; [inversion O|].
    destruct (opened_start _ _ _ O) as [FL OT]. cbn [pending fold_right] in P. fold (pending below) in P.
    assert (SL : (size < length data)%nat) by lia.
    set (c := firstn size data) in *.
    assert (LC : length c = size) by (apply firstn_length_le; lia).
    assert (ED : data = c ++ skipn size data) by (symmetry; apply firstn_skipn).
    assert (LS : length (skipn size data) = (length data - size)%nat) by apply skipn_length.
    destruct (skipn size data) as [|t d] eqn:ES; [cbn [length] in LS; lia|].
    assert (BT : byte t).
    { unfold bytes in B. rewrite ED in B. apply Forall_app in B. destruct B as [_ B]. inversion B; assumption. }
    cbn [length] in LS.
    assert (EC : parse_contents data size left = parse_contents (t :: d) 0 left).
    { rewrite ED at 1. rewrite <- LC. apply contents_shift. }
    cbn [parse_loop]. rewrite EC.
    assert (LL : left <= N.of_nat (length d)) by lia.
    assert (FST : forall w, (w <= length d)%nat -> firstn (size + 1 + w) data = c ++ t :: firstn w d).
    { intros w W. rewrite ED, <- LC. rewrite <- Nat.add_assoc. rewrite firstn_app_2. reflexivity. }
    pose proof (contents_out t d left BT LL) as OC. revert OC. generalize (parse_contents (t :: d) 0 left). intros res OC.
    set (f' := mkF (f_kind f) (f_left f - 1) (f_done f)) in *.
    (* a finished child *)
    assert (DONE : forall w n got, (w <= length d)%nat -> got = N.of_nat w -> got <= left -> msgpack (t :: firstn w d) n ->
      match pop (add n f') below with
      | inl n' => Ok (n', (size + 1 + w)%nat)
      | inr st => parse_loop fuel data (size + 1 + w) (left - got) st
      end = Er EINVAL \/
      exists n0 sz, match pop (add n f') below with
      | inl n' => Ok (n', (size + 1 + w)%nat)
      | inr st => parse_loop fuel data (size + 1 + w) (left - got) st
      end = Ok (n0, sz) /\ (sz <= length data)%nat /\ msgpack (firstn sz data) n0).
    { intros w n got W EG GL M. pose proof (pop_ok below f' c _ _ OT M) as PO.
      destruct (pop (add n f') below) as [n'|st].
      - right. exists n', (size + 1 + w)%nat. split; [reflexivity|]. split; [lia|]. rewrite FST by exact W. exact PO.
      - destruct PO as [PO1 PO2]. apply IH; [exact B|lia|rewrite FST by exact W; exact PO1| |lia].
        rewrite PO2. cbn [pending fold_right]. fold (pending below). unfold f'. cbn [f_left]. lia. }
    destruct OC as [|n got GL LF M|m cnt w GL H]; cbn [bind].
    + left. reflexivity.
    + rewrite N.sub_0_r. apply DONE; [lia|lia|exact GL|exact M].
    + replace (N.of_nat w + total m cnt - total m cnt) with (N.of_nat w) by lia. rewrite Nnat.Nat2N.id.
      destruct (total m cnt) as [|tot] eqn:ET.
      * rewrite N.add_0_r in *. assert (cnt = 0) by (destruct m; cbn [total] in ET; lia). subst cnt.
        apply DONE; [lia|reflexivity|lia|].
        rewrite <- (app_nil_r (t :: firstn w d)).
        destruct m; [apply (P_map _ [] [])|apply (P_arr _ [] [])]; cbn [length flat map concat]; try exact H; constructor.
      * cbn [pop f_left N.eqb]. apply IH; [exact B|lia| | |lia].
        -- rewrite FST by lia. rewrite <- (app_nil_r (t :: firstn w d)).
           apply Op_in with (N.pos tot); [exact OT| |constructor|cbn [length]; lia|lia].
           destruct m; cbn [khead]; exists cnt; split; solve [exact H|symmetry; exact ET].
        -- cbn [pending fold_right f_left]. fold (pending below). unfold f'. cbn [f_left]. lia.
Qed.

(** ** Every object of the format is parsed *)
Definition cont (fuel : nat) (data : list N) (size : nat) (left : N) (x : node + list frame) : res (node * nat) :=
  match x with inl n => Ok (n, size) | inr st => parse_loop fuel data size left st end.

Definition takes (p : list N) (n : node) : Prop :=
  forall c t k l d below left fuel, 0 < l ->
  left + l + pending below = N.of_nat (length p + length t) -> l - 1 + pending below <= N.of_nat (length t) ->
  (length p + length t <= fuel)%nat ->
  exists fuel', (length t <= fuel')%nat /\
  parse_loop fuel (c ++ p ++ t) (length c) left (mkF k l d :: below) =
  cont fuel' (c ++ p ++ t) (length (c ++ p)) (N.of_nat (length t) - (l - 1) - pending below) (pop (mkF k (l - 1) (n :: d)) below).

Definition takes_all (p : list N) (ns : list node) : Prop :=
  forall c t k d below left fuel, ns <> [] ->
  left + N.of_nat (length ns) + pending below = N.of_nat (length p + length t) -> pending below <= N.of_nat (length t) ->
  (length p + length t <= fuel)%nat ->
  exists fuel', (length t <= fuel')%nat /\
  parse_loop fuel (c ++ p ++ t) (length c) left (mkF k (N.of_nat (length ns)) d :: below) =
  cont fuel' (c ++ p ++ t) (length (c ++ p)) (N.of_nat (length t) - pending below) (pop (mkF k 0 (rev ns ++ d)) below).

Lemma pop_open f below : f_left f <> 0 -> pop f below = inr (f :: below).
Proof. intros H. apply N.eqb_neq in H. destruct below; cbn [pop]; rewrite H; reflexivity. Qed.

Lemma msgpack_nonempty p n : msgpack p n -> (0 < length p)%nat.
Proof.
  intros H. destruct H; cbn; try lia; rewrite app_length;
    match goal with H : ?P ?h _ |- (0 < length ?h + _)%nat => destruct H as [[_ ->]|(? & ? & ? & _ & _ & -> & _)] end; cbn; lia.
Qed.
Lemma msgpacks_len p l : msgpacks p l -> (length l <= length p)%nat.
Proof. intros H. induction H as [|a b n l H _ IH]; [cbn; lia|]. apply msgpack_nonempty in H. rewrite app_length. cbn. lia. Qed.

Lemma takes_leaf p n : msgpack p n -> leaf n = true -> takes p n.
Proof.
  intros M LF c t k l d below left fuel L0 BL PB F.
  pose proof (msgpack_nonempty _ _ M) as NE.
  destruct fuel as [|fuel]; [lia|]. exists fuel. split; [lia|].
  cbn [parse_loop]. rewrite contents_shift, (contents_leaf p n t left M LF) by lia. cbn [bind f_kind f_left f_done].
  rewrite N.sub_0_r, Nnat.Nat2N.id. unfold add. cbn [f_kind f_left f_done]. unfold cont.
  replace (length c + 1 + (length p - 1))%nat with (length (c ++ p)) by (rewrite app_length; lia).
  replace (left - N.of_nat (length p - 1)) with (N.of_nat (length t) - (l - 1) - pending below) by lia.
  reflexivity.
Qed.

Lemma takes_open m h cnt b ns n : head m h cnt -> N.of_nat (length ns) = total m cnt -> msgpacks b ns -> takes_all b ns ->
  n = close (mkF (if m then K_map else K_arr) 0 (rev ns)) -> takes (h ++ b) n.
Proof.
  intros H LN M TA EN c t k l d below left fuel L0 BL PB F.
  destruct (head_nonempty _ _ _ H) as (t0 & h0 & Eh). assert (NE : (0 < length h)%nat) by (rewrite Eh; cbn; lia). clear Eh t0 h0.
  pose proof (msgpacks_len _ _ M) as ML. rewrite app_length in BL, F.
  destruct fuel as [|fuel]; [lia|]. cbn [parse_loop].
  rewrite <- (app_assoc h b t), contents_shift, (contents_head m h cnt (b ++ t) left H) by lia. cbn [bind f_kind f_left f_done].
  replace (N.of_nat (length h - 1) + total m cnt - total m cnt) with (N.of_nat (length h - 1)) by lia. rewrite Nnat.Nat2N.id.
  replace (length c + 1 + (length h - 1))%nat with (length (c ++ h)) by (rewrite app_length; lia).
  replace (left - (N.of_nat (length h - 1) + total m cnt)) with (N.of_nat (length b + length t) - total m cnt - (l - 1) - pending below) by lia.
  destruct ns as [|n0 ns].
  - inversion M; subst b. cbn [length] in LN. rewrite <- LN. cbn [N.of_nat]. exists fuel. split; [cbn [length] in *; lia|].
    unfold add. cbn [f_kind f_left f_done]. replace (if m then NMap [] else NArr []) with n by (subst n; destruct m; reflexivity).
    cbn [length app Nat.add]. rewrite app_nil_r, N.sub_0_r. reflexivity.
  - destruct (total m cnt) as [|tot] eqn:ET; [cbn [length] in LN; lia|].
    cbn [pop f_left N.eqb].
    destruct (TA (c ++ h) t (if m then K_map else K_arr) [] (mkF k (l - 1) d :: below)
      (N.of_nat (length b + length t) - N.pos tot - (l - 1) - pending below) fuel) as (fuel' & F' & E).
    { discriminate. }
    { rewrite LN. cbn [pending fold_right f_left]. fold (pending below). lia. }
    { cbn [pending fold_right f_left]. fold (pending below). lia. }
    { lia. }
    exists fuel'. split; [exact F'|]. rewrite LN in E.
    replace (c ++ h ++ b ++ t) with ((c ++ h) ++ b ++ t) by (rewrite <- !app_assoc; reflexivity).
    rewrite E. clear E.
    replace ((c ++ h) ++ b) with (c ++ h ++ b) by (rewrite <- !app_assoc; reflexivity).
    rewrite app_nil_r. cbn [pop f_left N.eqb]. rewrite <- EN.
    cbn [pending fold_right f_left]. fold (pending below). rewrite N.sub_add_distr. reflexivity.
Qed.

Lemma all_taken : forall p n, msgpack p n -> takes p n.
Proof.
  apply (msgpack_mind (fun p n _ => takes p n) (fun p ns _ => takes_all p ns)).
  1-10: intros; apply takes_leaf; [econstructor; eassumption|reflexivity].
  - intros h b l H M TA. apply (takes_open false h (N.of_nat (length l)) b l); try assumption; [reflexivity|].
    unfold close. cbn [f_kind f_done]. rewrite rev_involutive. reflexivity.
  - intros h b l H M TA.
    assert (LF : length (flat l) = (2 * length l)%nat).
    { unfold flat. clear. induction l as [|x l IH]; [reflexivity|]. cbn [map concat app length]. rewrite IH. lia. }
    apply (takes_open true h (N.of_nat (length l)) b (flat l)); try assumption.
    + rewrite LF. cbn [total]. lia.
    + unfold close. cbn [f_kind f_done]. rewrite rev_involutive. f_equal. clear. induction l as [|[x y] l IH]; [reflexivity|].
      cbn [flat map concat app pairs fst snd]. f_equal. exact IH.
  - intros c t k d below left fuel NE. destruct (NE eq_refl).
  - intros a b n l HM T HMS TA c t k d below left fuel _ BL PB F.
    pose proof (msgpacks_len _ _ HMS) as ML. rewrite app_length in BL, F. cbn [length] in *.
    destruct (T c (b ++ t) k (N.of_nat (S (length l))) d below left fuel) as (f1 & F1 & E1).
    { lia. } { rewrite app_length. lia. } { rewrite app_length. lia. } { rewrite app_length. lia. }
    rewrite <- (app_assoc a b t). rewrite E1. clear E1.
    replace (N.of_nat (S (length l)) - 1) with (N.of_nat (length l)) by lia.
    destruct l as [|n1 l].
    + inversion HMS; subst b. cbn [app length] in *. exists f1. split; [exact F1|]. rewrite app_nil_r, N.sub_0_r. reflexivity.
    + rewrite pop_open by (cbn [f_left length]; lia). cbn [cont].
      destruct (TA (c ++ a) t k (n :: d) below (N.of_nat (length (b ++ t)) - N.of_nat (length (n1 :: l)) - pending below) f1) as (f2 & F2 & E2).
      { discriminate. } { rewrite app_length. cbn [length] in *. lia. } { exact PB. } { rewrite app_length in F1. exact F1. }
      exists f2. split; [exact F2|].
      replace (c ++ a ++ b ++ t) with ((c ++ a) ++ b ++ t) by (rewrite <- !app_assoc; reflexivity).
      rewrite E2. replace ((c ++ a) ++ b) with (c ++ a ++ b) by (rewrite <- !app_assoc; reflexivity).
      cbn [rev]. rewrite <- !app_assoc. reflexivity.
Qed.

(** ** The parser *)
Theorem parse_sound data : bytes data ->
  parse_tree data = Er EINVAL \/
  exists n sz, parse_tree data = Ok (n, sz) /\ (sz <= length data)%nat /\ msgpack (firstn sz data) n.
Proof.
  intros B. unfold parse_tree. destruct (reserve_cases (N.of_nat (length data)) 0 1) as [[E L]|E]; rewrite E; cbn [bind]; [|left; reflexivity].
  apply loop_sound; [exact B|lia|constructor|cbn [pending fold_right f_left]; lia|lia].
Qed.

Theorem parse_complete p n t : msgpack p n -> parse_tree (p ++ t) = Ok (n, length p).
Proof.
  intros M. pose proof (msgpack_nonempty _ _ M) as NE. unfold parse_tree.
  rewrite reserve_ok by (rewrite app_length; lia). cbn [bind].
  destruct (all_taken p n M [] t K_root 1 [] [] (N.of_nat (length (p ++ t)) - 1) (length (p ++ t))) as (f & F & E).
  { lia. } { rewrite app_length. cbn [pending fold_right]. lia. } { cbn [pending fold_right]. lia. } { rewrite app_length. lia. }
  cbn [app length] in E. rewrite E. reflexivity.
Qed.
