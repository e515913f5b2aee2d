(** bf_set_new, and the contents of reachable sets. *)
From Coq Require Import NArith List Bool Arith Lia.
From Verif Require Import Bytes Types GenModel ListSpec ListModel ListFacts HashSpec HashModel HashFacts
  HashFacts2 VecModel VecFacts SetModel SetSpec SetApiFacts.
Import ListNotations.
Local Open Scope res_scope.
Local Open Scope N_scope.

Lemma is_net_iff t : is_net t = true <-> network t.
Proof. unfold network. destruct t; cbn; split; intros H; try discriminate H; auto 6;
  repeat (destruct H as [H|H]; try discriminate H); discriminate H.
Qed.

Lemma key_size_iff key : (exists n, key_size key = Ok n) <-> (forall t, In t key -> set_capable t).
Proof.
  induction key as [|t r IH]; cbn [key_size].
  - split; [intros _ t []|eauto].
  - split.
    + intros [n E]. destruct (ops_size t OP_IN) as [k|] eqn:Eo; [|discriminate E].
      destruct (key_size r) as [m|] eqn:Er; [|discriminate E].
      intros u [<-|Hu]; [unfold set_capable; congruence|]. apply IH; eauto.
    + intros H. pose proof (H t (or_introl eq_refl)) as Ht. unfold set_capable in Ht.
      destruct (ops_size t OP_IN) as [k|]; [|congruence].
      destruct (proj2 IH) as [n ->]; [intros u Hu; apply H; now right|]. cbn. eauto.
Qed.

Lemma key_size_sum key n : key_size key = Ok n -> n = list_sum (map comp_size key).
Proof.
  revert n. induction key as [|t r IH]; cbn [key_size]; intros n E; [inversion E; reflexivity|].
  cbn [map list_sum fold_right]. unfold comp_size at 1.
  destruct (ops_size t OP_IN) as [k|]; [|discriminate E].
  destruct (key_size r) as [m|] eqn:Er; [|discriminate E]. cbn in E. inversion E; subst.
  f_equal. now apply IH.
Qed.

Lemma key_size_err key e : key_size key = Er e -> e = ENOTSUP.
Proof.
  induction key as [|t r IH]; cbn [key_size]; [discriminate|].
  destruct (ops_size t OP_IN) as [k|]; [|congruence].
  destruct (key_size r) as [m|]; cbn; [discriminate|exact IH].
Qed.

Lemma existsb_net key : existsb is_net key = true <-> exists t, In t key /\ network t.
Proof.
  rewrite existsb_exists. split; intros (t & H1 & H2); exists t; split; auto; now apply is_net_iff.
Qed.

Lemma set_new_iff name key : (exists u, set_new name key = Ok u) <-> good_key key.
Proof.
  unfold set_new, good_key. destruct key as [|t r].
  { split; [intros [u E]; discriminate E|intros [[H _] _]; cbn in H; lia]. }
  set (key := t :: r). assert (1 <= length key)%nat by (unfold key; cbn; lia). clearbody key.
  destruct (Nat.ltb_spec 8 (length key)) as [H8|H8].
  { split; [intros [u E]; discriminate E|intros [[_ H2] _]; lia]. }
  pose proof (key_size_iff key) as K. destruct (key_size key) as [n|e].
  2:{ split; [intros [u E]; discriminate E|]. intros (_ & H1 & _). apply K in H1 as [n E]. discriminate E. }
  cbn [bind]. assert (C : forall t, In t key -> set_capable t) by (apply K; eauto).
  pose proof (existsb_net key) as X. destruct (existsb is_net key).
  - destruct (Nat.ltb_spec 1 (length key)) as [H1|H1]; cbn [andb].
    + split; [intros [u E]; discriminate E|]. intros (_ & _ & H2).
      destruct (proj1 X eq_refl) as (x & Hx & Nx). exfalso. exact (H2 H1 x Hx Nx).
    + split; [|eauto]. intros _. split; [lia|]. split; [assumption|]. intros H2. lia.
  - rewrite andb_false_r. split; [|eauto]. intros _. split; [lia|]. split; [assumption|].
    intros _ x Hx Nx. assert (false = true) by (apply X; eauto). discriminate.
Qed.

Lemma set_new_result name key u : set_new name key = Ok u ->
  u_name u = name /\ u_key u = key /\ u_esize u = list_sum (map comp_size key) /\
  (u_trie u = true <-> exists t, key = [t] /\ network t) /\ set_read u = Ok [].
Proof.
  intros E. pose proof (urep_new _ _ _ E) as R. pose proof (set_read_ok _ _ R) as Rd.
  destruct (set_new_inv _ _ _ E) as (E1 & E2 & _).
  assert (G : good_key key) by (apply (set_new_iff name); eauto).
  split; [|split; [assumption|split; [now apply key_size_sum|split; [|exact Rd]]]].
  - clear -E. unfold set_new in E. destruct key as [|t r]; [discriminate E|].
    destruct (8 <? _)%nat; [discriminate E|]. destruct (key_size _); [|discriminate E]. cbn [bind] in E.
    destruct ((1 <? _)%nat && _); inversion E; reflexivity.
  - assert (T : u_trie u = (length key =? 1)%nat && existsb is_net key).
    { clear -E. unfold set_new in E. destruct key as [|t r]; [discriminate E|].
      destruct (8 <? _)%nat; [discriminate E|]. destruct (key_size _); [|discriminate E]. cbn [bind] in E.
      destruct ((1 <? _)%nat && _); inversion E; reflexivity. }
    rewrite T, andb_true_iff, Nat.eqb_eq, existsb_net. split.
    + intros [H1 (t & Ht & Nt)]. destruct key as [|a [|b r]]; try discriminate H1.
      destruct Ht as [<-|[]]. eauto.
    + intros (t & -> & Nt). split; [reflexivity|]. exists t. split; [now left|assumption].
Qed.

(** How a refusal is reported. *)
Lemma set_new_error name key e : set_new name key = Er e ->
  (key = [] /\ e = EINVAL) \/
  ((8 < length key)%nat /\ e = E2BIG) \/
  ((1 <= length key <= 8)%nat /\ (exists t, In t key /\ ~ set_capable t) /\ e = ENOTSUP) \/
  ((1 < length key <= 8)%nat /\ (forall t, In t key -> set_capable t) /\
   (exists t, In t key /\ network t) /\ e = EINVAL).
Proof.
  unfold set_new. destruct key as [|t r]; [intros E; inversion E; auto|].
  set (key := t :: r). assert (1 <= length key)%nat by (unfold key; cbn; lia). clearbody key. clear t r.
  destruct (Nat.ltb_spec 8 (length key)) as [H8|H8]; [intros E; inversion E; auto|].
  pose proof (key_size_iff key) as K. destruct (key_size key) as [n|e'] eqn:Ek; cbn [bind].
  - destruct (Nat.ltb_spec 1 (length key)) as [H1|H1]; cbn [andb]; [|discriminate].
    destruct (existsb is_net key) eqn:X; [|discriminate]. intros E. inversion E.
    right. right. right. split; [lia|]. split; [apply K; eauto|]. split; [|reflexivity]. now apply existsb_net.
  - intros E. inversion E. subst e'. right. right. left. split; [lia|]. split; [|now apply key_size_err in Ek].
    clear -K. assert (H : ~ forall t, In t key -> set_capable t).
    { intros H. apply K in H as [n E]. discriminate E. }
    clear K. induction key as [|t r IH]; [exfalso; apply H; intros t []|].
    destruct (ops_size t OP_IN) as [k|] eqn:Eo.
    + destruct IH as (x & Hx & Nx); [|exists x; split; [now right|assumption]].
      intros C. apply H. intros u [<-|Hu]; [unfold set_capable; congruence|now apply C].
    + exists t. split; [now left|]. unfold set_capable. congruence.
Qed.

Lemma distinct_nodup n l : Forall (fun e => length e = n) l -> distinct (elem_eqb n) l -> NoDup l.
Proof.
  induction 1 as [|x r Hx Hr IH]; cbn [distinct]; [constructor|]. intros [D1 D2]. constructor; [|auto].
  intros C. rewrite Forall_forall in Hr. pose proof (D1 x C) as E.
  rewrite elem_eqb_sized, (proj2 (beqb_iff x x) eq_refl) in E by assumption. discriminate E.
Qed.

Lemma urep_contents u l : urep u l ->
  set_read u = Ok (map snd l) /\ NoDup (map snd l) /\ Forall (fun e => length e = u_esize u) (map snd l).
Proof.
  intros R. split; [now apply set_read_ok|].
  assert (S : Forall (fun e => length e = u_esize u) (map snd l)).
  { apply Forall_map. exact (ur_sized _ _ R). }
  split; [|exact S]. apply (distinct_nodup (u_esize u)); [exact S|]. exact (hr_dist _ _ _ _ (ur_rep _ _ R)).
Qed.

Lemma urep_empty u l : urep u l -> set_is_empty u = match l with [] => true | _ => false end.
Proof.
  intros R. unfold set_is_empty. rewrite (rep_len _ _ (hr_list _ _ _ _ (ur_rep _ _ R))).
  destruct l; reflexivity.
Qed.

Lemma in_bytes_iff l e : In_bytes l e = true <-> In e l.
Proof.
  unfold In_bytes. rewrite existsb_exists. split.
  - intros (x & Hx & E). apply beqb_iff in E. now subst.
  - intros H. exists e. split; [assumption|]. now apply beqb_iff.
Qed.

(** Everything but the contents is fixed at construction. *)
Definition same_shape (a b : uset) : Prop :=
  u_name a = u_name b /\ u_key a = u_key b /\ u_esize a = u_esize b /\ u_trie a = u_trie b.
Lemma shape_with u h : same_shape (with_elems u h) u.
Proof. repeat split; reflexivity. Qed.
Lemma shape_refl u : same_shape u u.
Proof. repeat split; reflexivity. Qed.
Lemma add_many_shape nd tb d s d' s' rc : set_add_many nd tb d s = Ok (d', s', rc) -> same_shape d' d.
Proof.
  unfold set_add_many. destruct (negb _); [intros E; inversion E; apply shape_refl|].
  match goal with |- bind ?m _ = _ -> _ => destruct m as [[[x y] z]|] end; cbn [bind]; [|discriminate].
  destruct (z =? 0); intros E; inversion E; apply shape_with.
Qed.
Lemma remove_many_shape d s d' s' rc : set_remove_many d s = Ok (d', s', rc) -> same_shape d' d.
Proof.
  unfold set_remove_many. destruct (negb _); [intros E; inversion E; apply shape_refl|].
  match goal with |- bind ?m _ = _ -> _ => destruct m as [[[x y] z]|] end; cbn [bind]; [|discriminate].
  destruct (z =? 0); intros E; inversion E; apply shape_with.
Qed.
