(** The options of a command and the chain that is picked. *)
From Coq Require Import String NArith ZArith List Bool Arith Lia.
From Verif Require Import Bytes Types GenModel StrModel BytesFacts NewFacts StrSpec HookModel HookFacts PackModel CliModel CliSpec.
Import ListNotations.
Local Open Scope N_scope.

Lemma has_iff l k : has l k = true <-> In k l.
Proof. unfold has. destruct (in_dec oid_eq_dec k l); split; auto; discriminate. Qed.
Lemma valid_iff c k : has (valid_opts c) k = taken c k.
Proof. destruct c, k; reflexivity. Qed.
Lemma args_app k a b : args_of k (a ++ b) = args_of k a ++ args_of k b.
Proof. unfold args_of. rewrite filter_app, map_app. reflexivity. Qed.
Lemma args_one k j a : args_of k [(j, a)] = if oid_eq_dec j k then [a] else [].
Proof. unfold args_of. cbn. destruct (oid_eq_dec j k); reflexivity. Qed.
Lemma last_app k j a l : last_arg k (l ++ [(j, a)]) = if oid_eq_dec j k then Some a else last_arg k l.
Proof. unfold last_arg. rewrite args_app, args_one. destruct (oid_eq_dec j k); [rewrite rev_app_distr|rewrite app_nil_r]; reflexivity. Qed.
Lemma given_app k j a l : given k (l ++ [(j, a)]) <-> given k l \/ j = k.
Proof.
  unfold given. split.
  - intros (b & I). apply in_app_or in I. destruct I as [I|[I|[]]]; [left; eauto|right; congruence].
  - intros [(b & I)| ->]; [exists b; apply in_or_app; auto|exists a; apply in_or_app; right; left; reflexivity].
Qed.
Lemma parse_opts_end l : forall i o s, parse_opts (fun _ => true) i o (l ++ [s]) =
  bind (parse_opts (fun _ => true) i o l) (fun h => parse_opt true h s).
Proof.
  induction l as [|x l IH]; intros i o s; cbn [app parse_opts].
  - cbn [bind]. destruct (parse_opt true o s); reflexivity.
  - destruct (parse_opt true o x); cbn [bind]; [apply IH|reflexivity].
Qed.

Ltac given1 := intros kk; cbn [o_given]; rewrite in_app_iff, given_app; cbn [In];
  match goal with H : means_opts _ _ |- _ => rewrite (mo_given _ _ H kk) end; tauto.

(** One option more. *)
Lemma means_step pre o k a o1 : means_opts pre o -> take_option o k a = Ok o1 -> means_opts (pre ++ [(k, a)]) o1.
Proof.
  intros M T. pose proof M as [G S F N H SN A R D B].
  destruct k; cbn [take_option] in T;
    try (destruct a as [|c a]; [discriminate T|]);
    try (destruct (parse_opt true (o_hook o) _) as [h|] eqn:P; [|discriminate T]);
    apply Ok_inj in T; subst o1; constructor; try given1;
    cbn [o_str o_file o_name o_hook o_set_name o_adds o_removes o_dry o_brief];
    rewrite ?last_app, ?args_app, ?args_one, ?given_app;
    repeat match goal with |- context[oid_eq_dec ?x ?y] => let q := fresh in destruct (oid_eq_dec x y) as [q|q]; try discriminate q; try congruence end;
    rewrite ?app_nil_r, ?parse_opts_end; try congruence; try (rewrite D || rewrite B; split; [tauto|intros [?|?]; [assumption|discriminate]]; fail);
    try (split; [intros _; auto|reflexivity]); try (rewrite H; cbn [bind]; assumption).
Qed.

Lemma take_sound c : forall l pre o o', means_opts pre o -> take_options c o l = Ok o' -> means_opts (pre ++ l) o' /\
  (forall k a, In (k, a) l -> taken c k = true) /\ (forall k, In k [O_name; O_set_name; O_add; O_remove] -> ~ In (k, []) l).
Proof.
  induction l as [|[k a] l IH]; intros pre o o' M T; cbn [take_options] in T.
  - apply Ok_inj in T. subst. rewrite app_nil_r. split; [exact M|]. split; [intros k a []|intros k _ []].
  - destruct (has (valid_opts c) k) eqn:V; [|discriminate T]. rewrite valid_iff in V. binv T. rename a0 into o1.
    pose proof (means_step _ _ _ _ _ M E) as M1. destruct (IH _ _ _ M1 T) as (X & Y & Z). rewrite <- app_assoc in X. cbn [app] in X.
    split; [exact X|]. split.
    + intros k0 a0 [Q|Q]; [injection Q as <- <-; exact V|eapply Y; eauto].
    + intros k0 K [Q|Q]; [|exact (Z _ K Q)]. injection Q as -> ->.
      cbn [In] in K. destruct K as [<-|[<-|[<-|[<-|[]]]]]; discriminate E.
Qed.

Lemma take_complete c : forall l o, (forall k a, In (k, a) l -> taken c k = true) ->
  (forall k, In k [O_name; O_set_name; O_add; O_remove] -> ~ In (k, []) l) ->
  (exists i h, parse_opts (fun _ => true) i (o_hook o) (args_of O_option l) = Ok h) -> exists o', take_options c o l = Ok o'.
Proof.
  induction l as [|[k arg] l IH]; intros o T NE (i & h & P); cbn [take_options]; [eauto|].
  rewrite valid_iff, (T k arg) by (left; reflexivity).
  assert (NE1 : In k [O_name; O_set_name; O_add; O_remove] -> arg <> []).
  { intros K ->. apply (NE _ K). left. reflexivity. }
  assert (STEP : exists o1, take_option o k arg = Ok o1 /\ exists i h, parse_opts (fun _ => true) i (o_hook o1) (args_of O_option l) = Ok h).
  { change ((k, arg) :: l) with ([(k, arg)] ++ l) in P. rewrite args_app, args_one in P.
    destruct k; cbn [take_option]; destruct (oid_eq_dec _ O_option) as [Q|Q]; try discriminate Q; try congruence; cbn [app] in P;
      try (destruct arg as [|x arg]; [solve [exfalso; apply NE1; cbn; auto 6]|]); try (eexists; split; [reflexivity|exists i, h; exact P]).
    all: cbn [parse_opts] in P; destruct (parse_opt true (o_hook o) arg) as [h1|] eqn:E; [|discriminate P]; cbn [bind] in P; eexists; split; [reflexivity|]; cbn [o_hook]; eauto. }
  destruct STEP as (o1 & -> & P1). cbn [bind]. apply IH; [| |exact P1].
  - intros k0 a0 I. apply (T k0 a0). right. exact I.
  - intros k0 K I. apply (NE _ K). right. exact I.
Qed.

Lemma means_default : means_opts [] opts_default.
Proof.
  constructor; try reflexivity; unfold given; cbn.
  - intros k. split; [intros []|intros (a & [])].
  - split; [discriminate|intros (a & [])].
  - split; [discriminate|intros (a & [])].
Qed.

Lemma given_dec k l : given k l \/ ~ given k l.
Proof.
  induction l as [|[j a] l IH]; [right; intros (a & [])|].
  destruct (oid_eq_dec j k) as [->|N]; [left; exists a; left; reflexivity|].
  destruct IH as [(b & I)|NG]; [left; exists b; right; exact I|]. right. intros (b & [Q|Q]); [congruence|apply NG; exists b; exact Q].
Qed.

Lemma clash_iff g : clashing g = true <-> In O_from_str g /\ In O_from_file g.
Proof.
  unfold clashing. rewrite existsb_exists. split.
  - intros (k & K & E). apply existsb_exists in E. destruct E as (j & J & E). apply has_iff in E.
    destruct k; cbn in J; destruct J as [<-|[]] || destruct J; auto.
  - intros (A & B). exists O_from_str. split; [exact A|]. cbn. apply has_iff in B. rewrite B. reflexivity.
Qed.
Lemma missing_iff c g : missing c g = false <->
  (takes_source c = true -> In O_from_str g \/ In O_from_file g) /\ (needs_name c = true -> In O_name g) /\ (c = C_chain_update_set -> In O_set_name g).
Proof.
  unfold missing.
  assert (Q : forall k, has g k = false <-> ~ In k g).
  { intros k. rewrite <- has_iff. destruct (has g k); split; congruence || auto. }
  destruct c; cbn [required_opts existsb rejects takes_source needs_name];
    rewrite ?orb_false_r, ?andb_true_r, ?orb_false_iff, ?andb_false_iff, ?negb_false_iff, ?has_iff; cbn [negb];
    intuition (auto; try discriminate; try congruence).
Qed.

Lemma options_iff c l o : read_options c l = Ok o -> acceptable c l /\ means_opts l o.
Proof.
  intros H. unfold read_options in H. binv H. rename a into o1.
  destruct (missing c (o_given o1)) eqn:M; [discriminate H|]. destruct (clashing (o_given o1)) eqn:C; [discriminate H|].
  apply Ok_inj in H. subst o1. destruct (take_sound c l [] _ _ means_default E) as (MO & T & NE). cbn [app] in MO.
  split; [|exact MO]. apply missing_iff in M. destruct M as (M1 & M2 & M3).
  rewrite !(mo_given _ _ MO) in M1. rewrite (mo_given _ _ MO) in M2, M3.
  unfold acceptable. repeat (split; [solve [eauto using mo_hook]|]).
  rewrite <- !(mo_given _ _ MO). rewrite <- clash_iff. rewrite C. discriminate.
Qed.
Lemma options_accepted c l : acceptable c l -> exists o, read_options c l = Ok o.
Proof.
  intros (T & NE & (h & P) & A & B & D & X).
  destruct (take_complete c l opts_default T NE) as (o & E); [exists 0%nat, h; exact P|].
  destruct (take_sound c l [] _ _ means_default E) as (MO & _). cbn [app] in MO.
  exists o. unfold read_options. rewrite E. cbn [bind].
  assert (M : missing c (o_given o) = false) by (apply missing_iff; rewrite !(mo_given _ _ MO); auto).
  rewrite M. destruct (clashing (o_given o)) eqn:C; [|reflexivity].
  apply clash_iff in C. rewrite !(mo_given _ _ MO) in C. destruct (X C).
Qed.

(** The chain. *)
Lemma find_first n (l : list parsed) x : find (fun y => bytes_eqb (nc_name (fst y)) n) l = Some x <->
  exists before after, l = before ++ x :: after /\ nc_name (fst x) = n /\ forall y, In y before -> nc_name (fst y) <> n.
Proof.
  induction l as [|z l IH]; cbn [find].
  - split; [discriminate|]. intros ([|? b] & a & Q & _); discriminate Q.
  - destruct (bytes_eqb (nc_name (fst z)) n) eqn:E.
    + apply bytes_eqb_eq in E. split.
      * intros Q. injection Q as <-. exists [], l. split; [reflexivity|]. split; [exact E|intros y []].
      * intros ([|w b] & a & Q & N1 & N2); cbn [app] in Q; injection Q as Q1 Q2; [congruence|]. subst w. destruct (N2 z); [left; reflexivity|exact E].
    + rewrite IH. split; intros (b & a & Q & N1 & N2).
      * exists (z :: b), a. subst l. split; [reflexivity|]. split; [exact N1|].
        intros y [<-|Y]; [|auto]. intros Q. rewrite <- bytes_eqb_eq in Q. congruence.
      * destruct b as [|w b]; cbn [app] in Q; injection Q as Q1 Q2.
        { subst z. rewrite <- bytes_eqb_eq in N1. congruence. }
        subst w. exists b, a. split; [exact Q2|]. split; [exact N1|]. intros y Y. apply N2. right. exact Y.
Qed.
Lemma pick_iff name l x : pick name l = Ok x <-> meant name l x.
Proof.
  unfold pick, meant. destruct l as [|z l].
  - split; [discriminate|]. destruct name; [|discriminate]. intros ([|? b] & a & Q & _); discriminate Q.
  - destruct name as [n|].
    + pose proof (find_first n (z :: l) x) as FF. unfold parsed in *. rewrite <- FF.
      destruct (find _ (z :: l)); split; intros Q; congruence.
    + destruct l; split; intros Q; try discriminate Q; congruence.
Qed.
