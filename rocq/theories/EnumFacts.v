From Coq Require Import NArith List Bool Arith Lia.
From Verif Require Import Bytes Types GenModel ChainModel StrModel StrSpec EnumModel.
Import ListNotations.
Local Open Scope N_scope.

Lemma streq_iff a b : streq a b = true <-> a = b.
Proof.
  unfold streq. revert b; induction a as [|x a IH]; destruct b; cbn; split; intros; try discriminate; auto.
  - apply andb_prop in H as (H1 & H2). apply N.eqb_eq in H1 as ->. f_equal. now apply IH.
  - injection H as -> ->. rewrite N.eqb_refl. now apply IH.
Qed.

Lemma streq_i_iff a b : streq_i a b = true <-> map tolower a = map tolower b.
Proof. apply streq_iff. Qed.

(** A table is unambiguous for an equality when no two rows have equal names. *)
Fixpoint distinct_names (eq : cstr -> cstr -> bool) (t : table) : bool :=
  match t with
  | [] => true
  | (_, n) :: r => forallb (fun p => negb (eq n (snd p))) r && distinct_names eq r
  end.
Fixpoint distinct_vals (t : table) : bool :=
  match t with
  | [] => true
  | (v, _) :: r => forallb (fun p => negb (v =? fst p)) r && distinct_vals r
  end.

Lemma from_str_in eq t s v : from_str eq t s = Ok v -> exists n, In (v, n) t /\ eq n s = true.
Proof.
  induction t as [|(w, n) t IH]; cbn; [discriminate|].
  destruct (eq n s) eqn:E; intros H.
  - injection H as ->. eauto.
  - destruct (IH H) as (m & ? & ?). eauto.
Qed.

Lemma from_str_unknown eq t s : (exists e, from_str eq t s = Er e) <-> (forall v n, In (v, n) t -> eq n s = false).
Proof.
  induction t as [|(w, n) t IH]; cbn.
  - split; intros; eauto. contradiction.
  - destruct (eq n s) eqn:E.
    + split; [intros (e & H); discriminate|]. intros H. rewrite (H w n) in E by auto. discriminate.
    + rewrite IH. split; intros H v m; [intros [A|A]|intros A]; eauto. now injection A as -> ->.
Qed.

Lemma from_str_err eq t s e : from_str eq t s = Er e -> e = EINVAL.
Proof. induction t as [|(w, n) t IH]; cbn; [congruence|]. destruct (eq n s); [discriminate|auto]. Qed.

Lemma from_str_row eq t v n s : (forall a, eq a a = true) ->
  (forall a b c, eq a b = true -> eq c b = true -> eq a c = true) ->
  distinct_names eq t = true -> In (v, n) t -> eq n s = true -> from_str eq t s = Ok v.
Proof.
  intros Hrefl Htr. induction t as [|(w, m) t IH]; cbn; [contradiction|].
  intros D [H|H] E; apply andb_prop in D as (D1 & D2).
  - injection H as -> ->. now rewrite E.
  - destruct (eq m s) eqn:Em; [|auto]. exfalso.
    rewrite forallb_forall in D1. specialize (D1 _ H). cbn in D1. rewrite (Htr m s n) in D1; auto. discriminate.
Qed.

Lemma to_str_in t v n : to_str t v = Some n -> In (v, n) t.
Proof.
  induction t as [|(w, m) t IH]; cbn; [discriminate|]. destruct (N.eqb_spec v w); [|auto].
  intros H; injection H as ->. subst. auto.
Qed.

Lemma to_str_row t v n : distinct_vals t = true -> In (v, n) t -> to_str t v = Some n.
Proof.
  induction t as [|(w, m) t IH]; cbn; [contradiction|].
  intros D [H|H]; apply andb_prop in D as (D1 & D2).
  - injection H as -> ->. now rewrite N.eqb_refl.
  - destruct (N.eqb_spec v w); [|auto]. subst w. rewrite forallb_forall in D1. specialize (D1 _ H). cbn in D1.
    rewrite N.eqb_refl in D1. discriminate.
Qed.

Lemma streq_refl a : streq a a = true. Proof. now apply streq_iff. Qed.
Lemma streq_tr a b c : streq a b = true -> streq c b = true -> streq a c = true.
Proof. rewrite !streq_iff. congruence. Qed.
Lemma streq_i_refl a : streq_i a a = true. Proof. now apply streq_i_iff. Qed.
Lemma streq_i_tr a b c : streq_i a b = true -> streq_i c b = true -> streq_i a c = true.
Proof. rewrite !streq_i_iff. congruence. Qed.

(** Round trips, exact and case-insensitive tables. *)
Lemma to_from t v n : distinct_names streq t = true -> to_str t v = Some n -> from_str streq t n = Ok v.
Proof.
  intros D H. eapply from_str_row; eauto using streq_refl, streq_tr, to_str_in.
Qed.
Lemma from_to t v s : distinct_vals t = true -> from_str streq t s = Ok v -> to_str t v = Some s.
Proof.
  intros D H. apply from_str_in in H as (n & Hi & E). apply streq_iff in E as ->. now apply to_str_row.
Qed.
Lemma to_from_i t v n s : distinct_names streq_i t = true -> to_str t v = Some n ->
  map tolower s = map tolower n -> from_str streq_i t s = Ok v.
Proof.
  intros D H E. eapply from_str_row; eauto using streq_i_refl, streq_i_tr, to_str_in. now apply streq_i_iff.
Qed.
Lemma from_to_i t v s : distinct_vals t = true -> from_str streq_i t s = Ok v ->
  exists n, to_str t v = Some n /\ map tolower s = map tolower n.
Proof.
  intros D H. apply from_str_in in H as (n & Hi & E). apply streq_i_iff in E. exists n. split; auto. now apply to_str_row.
Qed.

Lemma enum_inverse_intro {A} (t : table) (id : A -> N) (of_id : N -> option A) :
  distinct_names streq t = true -> distinct_vals t = true ->
  (forall a, of_id (id a) = Some a) -> (forall i a, of_id i = Some a -> id a = i) ->
  (forall a, exists s, to_str t (id a) = Some s) ->
  (forall v n, In (v, n) t -> exists a, of_id v = Some a) ->
  enum_inverse (fun a => to_str t (id a)) (fun s => bind (from_str streq t s) (fun i => option_res (of_id i) EUB)).
Proof.
  intros Dn Dv I1 I2 Tot Cov.
  assert (K : forall s a, bind (from_str streq t s) (fun i => option_res (of_id i) EUB) = Ok a <-> to_str t (id a) = Some s).
  { intros s a. split.
    - destruct (from_str streq t s) as [i|e] eqn:E; cbn; [|discriminate].
      destruct (of_id i) as [b|] eqn:Eb; cbn; [|discriminate]. intros H; injection H as ->.
      rewrite (I2 _ _ Eb). now apply from_to.
    - intros H. rewrite (to_from _ _ _ Dn H). cbn. now rewrite I1. }
  split; [|split]; auto.
  - intros a. destruct (Tot a) as (s & H). exists s. split; auto. now apply K.
  - intros s H. destruct (from_str streq t s) as [i|e] eqn:E; cbn.
    + destruct (from_str_in _ _ _ _ E) as (n & Hi & Hs). destruct (Cov _ _ Hi) as (a & Ha). rewrite Ha. cbn.
      exfalso. apply (H a). rewrite (I2 _ _ Ha). now apply from_to.
    + f_equal. eapply from_str_err; eauto.
Qed.

Ltac id_inv l := let i := fresh in let a := fresh in let H := fresh in
  intros i a H; destruct (N.ltb_spec i (N.of_nat (length l)));
  [ let n := fresh in let E := fresh in remember (N.to_nat i) as n eqn:E; assert (i = N.of_nat n) by lia; subst i;
    clear E; repeat (destruct n as [|n]; [injection H as <-; reflexivity|]); exfalso; cbn in *; lia
  | exfalso; unfold hook_of_id, verdict_of_id, rdir_of_id, mtype_of_id, mop_of_id in H;
    assert (nth_error l (N.to_nat i) = None) as K by (apply nth_error_None; lia); rewrite K in H; discriminate ].

Ltac rows := let H := fresh in
  intros ? ? H; cbn in H; repeat (destruct H as [H|H]; [injection H as <- <-; eexists; reflexivity|]); contradiction.

Lemma hook_inverse : enum_inverse hook_to_str hook_from_str.
Proof.
  apply enum_inverse_intro; try reflexivity.
  - now intros [].
  - intros i a H. unfold hook_of_id in H.
    destruct (N.ltb_spec i 14).
    + remember (N.to_nat i) as n eqn:E. assert (i = N.of_nat n) by lia. subst i.
      do 14 (destruct n as [|n]; [injection H as <-; reflexivity|]). exfalso; lia.
    + rewrite (proj2 (nth_error_None hooks (N.to_nat i))) in H; [discriminate|cbn; lia].
  - intros []; eexists; reflexivity.
  - rows.
Qed.

Lemma verdict_inverse : enum_inverse verdict_to_str verdict_from_str.
Proof.
  apply enum_inverse_intro; try reflexivity.
  - now intros [].
  - intros i a H. unfold verdict_of_id in H.
    destruct (N.ltb_spec i 5).
    + remember (N.to_nat i) as n eqn:E. assert (i = N.of_nat n) by lia. subst i.
      do 5 (destruct n as [|n]; [injection H as <-; reflexivity|]). exfalso; lia.
    + rewrite (proj2 (nth_error_None verdicts (N.to_nat i))) in H; [discriminate|cbn; lia].
  - intros []; eexists; reflexivity.
  - rows.
Qed.

Lemma rdir_inverse : enum_inverse rdir_to_str rdir_from_str.
Proof.
  apply enum_inverse_intro; try reflexivity.
  - now intros [].
  - intros i a H. unfold rdir_of_id in H.
    destruct (N.ltb_spec i 2).
    + remember (N.to_nat i) as n eqn:E. assert (i = N.of_nat n) by lia. subst i.
      do 2 (destruct n as [|n]; [injection H as <-; reflexivity|]). exfalso; lia.
    + rewrite (proj2 (nth_error_None rdirs (N.to_nat i))) in H; [discriminate|cbn; lia].
  - intros []; eexists; reflexivity.
  - rows.
Qed.

Lemma mtype_of_id_inv i a : mtype_of_id i = Some a -> mtype_id a = i.
Proof.
  intros H. unfold mtype_of_id in H.
  destruct (N.ltb_spec i 31).
  - remember (N.to_nat i) as n eqn:E. assert (i = N.of_nat n) by lia. subst i.
    do 31 (destruct n as [|n]; [injection H as <-; reflexivity|]). exfalso; lia.
  - rewrite (proj2 (nth_error_None mtypes (N.to_nat i))) in H; [discriminate|cbn; lia].
Qed.

Lemma mtype_inverse : enum_inverse mtype_to_str mtype_from_str.
Proof.
  apply enum_inverse_intro; try reflexivity.
  - now intros [].
  - apply mtype_of_id_inv.
  - intros []; eexists; reflexivity.
  - rows.
Qed.

Lemma mop_of_id_inv i a : mop_of_id i = Some a -> mop_id a = i.
Proof.
  intros H. unfold mop_of_id in H.
  destruct (N.ltb_spec i 5).
  - remember (N.to_nat i) as n eqn:E. assert (i = N.of_nat n) by lia. subst i.
    do 5 (destruct n as [|n]; [injection H as <-; reflexivity|]). exfalso; lia.
  - rewrite (proj2 (nth_error_None mops (N.to_nat i))) in H; [discriminate|cbn; lia].
Qed.

Lemma mop_inverse : enum_inverse mop_to_str mop_from_str.
Proof.
  apply enum_inverse_intro; try reflexivity.
  - now intros [].
  - apply mop_of_id_inv.
  - intros []; eexists; reflexivity.
  - rows.
Qed.

(** The case-insensitive tables of protocol, ICMP and TCP flag names. *)
Lemma table_inverse_i_intro t : distinct_names streq_i t = true -> distinct_vals t = true ->
  names_inverse (to_str t) (from_str streq_i t).
Proof.
  intros Dn Dv. split; [|split].
  - eauto using to_from_i.
  - eauto using from_to_i.
  - intros s H. destruct (from_str streq_i t s) as [v|e] eqn:E.
    + destruct (from_to_i _ _ _ Dv E) as (n & Hn & Hl). now elim (H _ _ Hn).
    + f_equal. eapply from_str_err; eauto.
Qed.
