(** What a command does to the machine. *)
From Coq Require Import String NArith ZArith List Bool Arith Lia.
From Verif Require Import Bytes Types GenModel StrModel BytesFacts NewFacts StrSpec ParseModel HashModel SetModel SetSpec SetApiFacts SetApiFacts2 PackSpec PackFacts2 PackFacts3 PackFacts5 SetTextModel SetTextSpec SetTextFacts
  RulesTextModel LexModel HookModel HookFacts PackModel World KernModel LockModel CtlModel SysSpec CliModel CliSpec CliFacts UpdSetFacts.
Import ListNotations.
Local Open Scope N_scope.

Lemma ends_pbind {A B} F p (f : A -> prog B) : forall (m : prog A) k b k', ends F p (pbind m f) k b k' ->
  exists a k1, ends F p m k a k1 /\ ends F p (f a) k1 b k'.
Proof.
  induction m as [a|c g IH]; intros k b k' H; cbn [pbind] in H.
  - exists a, k. split; [constructor|exact H].
  - inversion H; subst. match goal with X : ends _ _ (pbind _ _) _ _ _ |- _ => destruct (IH _ _ _ _ X) as (a & k1 & P & Q) end.
    exists a, k1. split; [econstructor; eauto|exact Q].
Qed.
Lemma ends_ret {A} F p (a b : A) k k' : ends F p (Ret a) k b k' -> b = a /\ k' = k.
Proof. intros H. inversion H; subst. auto. Qed.

Lemma source_iff ce files o l : (o_str o <> None \/ o_file o <> None) -> (chain_source ce files o = Ok l <-> source_says ce files o l).
Proof.
  intros G. unfold chain_source, source_says, parse_file. destruct (o_str o) as [s|].
  - split; [intros H; exists s; auto|]. intros (t & [Q|(Q & _)] & H); congruence.
  - destruct (o_file o) as [f|]; [|destruct G; congruence]. destruct (files f) as [s|] eqn:E.
    + split; [intros H; exists s; split; [right; split; [reflexivity|exists f; auto]|exact H]|].
      intros (t & [Q|(_ & g & Q1 & Q2)] & H); congruence.
    + split; [discriminate|]. intros (t & [Q|(_ & g & Q1 & Q2)] & H); congruence.
Qed.
Lemma ruleset_source_iff ce files l0 o l : acceptable C_ruleset_set l0 -> means_opts l0 o ->
  (ruleset_source ce files o = Ok l <-> source_says ce files o l).
Proof.
  intros (_ & _ & _ & A & _ & _ & X) M. unfold ruleset_source, source_says, parse_file.
  assert (L : forall k, last_arg k l0 <> None <-> given k l0).
  { intros k. unfold last_arg, given. split.
    - intros Q. destruct (args_of k l0) as [|a r] eqn:E; [cbn in Q; congruence|]. exists a.
      assert (I : In a (args_of k l0)) by (rewrite E; left; reflexivity). unfold args_of in I. apply in_map_iff in I.
      destruct I as ((j, b) & <- & I). apply filter_In in I. cbn in I. destruct I as (I & D). destruct (oid_eq_dec j k); [subst; exact I|discriminate].
    - intros (a & I) Q. assert (IN : In a (args_of k l0)).
      { unfold args_of. apply in_map_iff. exists (k, a). split; [reflexivity|]. apply filter_In. cbn. destruct (oid_eq_dec k k); [auto|congruence]. }
      apply in_rev in IN. destruct (rev (args_of k l0)); [destruct IN|discriminate Q]. }
  rewrite (mo_str _ _ M), (mo_file _ _ M). specialize (A eq_refl). rewrite <- !L in A, X.
  destruct (last_arg O_from_file l0) as [f|] eqn:EF; destruct (last_arg O_from_str l0) as [s|] eqn:ES.
  - destruct X. split; congruence.
  - destruct (files f) as [t|] eqn:E.
    + split; [intros H; exists t; split; [right; split; [reflexivity|exists f; auto]|exact H]|].
      intros (u & [Q|(_ & g & Q1 & Q2)] & H); congruence.
    + split; [discriminate|]. intros (u & [Q|(_ & g & Q1 & Q2)] & H); congruence.
  - split; [intros H; exists s; auto|]. intros (t & [Q|(Q & _)] & H); congruence.
  - destruct A; congruence.
Qed.
Lemma last_given k l : last_arg k l <> None <-> given k l.
Proof.
  unfold last_arg, given. split.
  - intros Q. destruct (args_of k l) as [|a r] eqn:E; [cbn in Q; congruence|]. exists a.
    assert (I : In a (args_of k l)) by (rewrite E; left; reflexivity). unfold args_of in I. apply in_map_iff in I.
    destruct I as ((j, b) & <- & I). apply filter_In in I. cbn in I. destruct I as (I & D). destruct (oid_eq_dec j k); [subst; exact I|discriminate].
  - intros (a & I) Q. assert (IN : In a (args_of k l)).
    { unfold args_of. apply in_map_iff. exists (k, a). split; [reflexivity|]. apply filter_In. cbn. destruct (oid_eq_dec k k); [auto|congruence]. }
    apply in_rev in IN. destruct (rev (args_of k l)); [destruct IN|discriminate Q].
Qed.

(** With a source. *)
Definition library_call (m : cli_mem) (c : cmd) (x : parsed) : option (prog (res unit)) :=
  match c with
  | C_chain_set => Some (chain_set (cm_a m 0) (cm_a m 1) (fst x) (snd x))
  | C_chain_load => Some (chain_load (cm_a m 0) (fst x))
  | C_chain_update => Some (chain_update (cm_a m 0) (cm_a m 1) (fst x))
  | _ => None
  end.
Lemma source_cmd F p ce files m ms c args k r k' : (exists x, library_call m c x <> None) -> acceptable c args ->
  ends F p (bfcli ce files m ms c args) k r k' ->
  exists o, means_opts args o /\
  ((exists l x call, source_says ce files o l /\ meant (o_name o) l x /\ library_call m c x = Some call /\
      ((given O_dry_run args /\ r = Ok tt /\ k' = k) \/ (~ given O_dry_run args /\ ends F p call k r k'))) \/
   (k' = k /\ (exists e, r = Er e) /\ ~ exists l x, source_says ce files o l /\ meant (o_name o) l x)).
Proof.
  intros LC AC H. destruct (options_accepted _ _ AC) as (o & RO). destruct (options_iff _ _ _ RO) as (_ & MO).
  unfold bfcli in H. rewrite RO in H. exists o. split; [exact MO|].
  assert (SRC : o_str o <> None \/ o_file o <> None).
  { rewrite (mo_str _ _ MO), (mo_file _ _ MO), !last_given. destruct AC as (_ & _ & _ & A & _). apply A.
    destruct LC as (x & LC). destruct c; try reflexivity; cbn in LC; congruence. }
  assert (W : forall call, ends F p (with_source ce files o call) k r k' ->
    (exists l x, source_says ce files o l /\ meant (o_name o) l x /\
      ((given O_dry_run args /\ r = Ok tt /\ k' = k) \/ (~ given O_dry_run args /\ ends F p (call x) k r k'))) \/
    (k' = k /\ (exists e, r = Er e) /\ ~ exists l x, source_says ce files o l /\ meant (o_name o) l x)).
  { intros call E. unfold with_source in E. destruct (chain_source ce files o) as [l|e] eqn:CS; cbn [bind] in E.
    - pose proof (proj1 (source_iff ce files o l SRC) CS) as SS.
      destruct (pick (o_name o) l) as [x|e] eqn:PK.
      + left. exists l, x. apply pick_iff in PK. split; [exact SS|]. split; [exact PK|].
        destruct (o_dry o) eqn:D.
        * apply ends_ret in E. destruct E as (-> & ->). left. split; [apply (mo_dry _ _ MO); exact D|auto].
        * right. split; [|exact E]. rewrite <- (mo_dry _ _ MO), D. discriminate.
      + apply ends_ret in E. destruct E as (-> & ->). right. split; [reflexivity|]. split; [eauto|].
        intros (l2 & x & S2 & M2). apply (source_iff ce files o l2 SRC) in S2. rewrite CS in S2. injection S2 as <-.
        apply pick_iff in M2. congruence.
    - apply ends_ret in E. destruct E as (-> & ->). right. split; [reflexivity|]. split; [eauto|].
      intros (l2 & x & S2 & _). apply (source_iff ce files o l2 SRC) in S2. congruence. }
  destruct LC as (x0 & LC). destruct c; cbn in LC; try congruence; cbn [run_cmd] in H;
    (destruct (W _ H) as [(l & x & A & B & C)|Q]; [left; exists l, x; eexists; split; [exact A|]; split; [exact B|]; split; [reflexivity|exact C]|right; exact Q]).
Qed.

Lemma refused_cmd F p ce files m ms c args k r k' : ~ acceptable c args -> ends F p (bfcli ce files m ms c args) k r k' ->
  k' = k /\ exists e, r = Er e.
Proof.
  intros NA H. unfold bfcli in H. destruct (read_options c args) as [o|e] eqn:RO.
  - apply options_iff in RO. tauto.
  - apply ends_ret in H. destruct H as (-> & ->). eauto.
Qed.

Lemma ruleset_cmd F p ce files m ms args k r k' : acceptable C_ruleset_set args ->
  ends F p (bfcli ce files m ms C_ruleset_set args) k r k' ->
  exists o, means_opts args o /\
  ((exists l, source_says ce files o l /\
      ((given O_dry_run args /\ r = Ok tt /\ k' = k) \/
       (~ given O_dry_run args /\ ends F p (ruleset_set (ms 0%nat) (ms 1%nat) (ms 2%nat) (map fst l) (map snd l)) k r k'))) \/
   (k' = k /\ (exists e, r = Er e) /\ ~ exists l, source_says ce files o l)).
Proof.
  intros AC H. destruct (options_accepted _ _ AC) as (o & RO). destruct (options_iff _ _ _ RO) as (_ & MO).
  unfold bfcli in H. rewrite RO in H. exists o. split; [exact MO|]. cbn [run_cmd] in H.
  destruct (ruleset_source ce files o) as [l|e] eqn:RS.
  - left. exists l. split; [apply (ruleset_source_iff ce files args o l AC MO); exact RS|].
    destruct (o_dry o) eqn:D.
    + apply ends_ret in H. destruct H as (-> & ->). left. split; [apply (mo_dry _ _ MO); exact D|auto].
    + right. split; [|exact H]. rewrite <- (mo_dry _ _ MO), D. discriminate.
  - apply ends_ret in H. destruct H as (-> & ->). right. split; [reflexivity|]. split; [eauto|].
    intros (l & S). apply (ruleset_source_iff ce files args o l AC MO) in S. congruence.
Qed.

(** Changes of a set. *)
Lemma add_texts_sound pe h nd tb : penv_ok pe -> heap_ok h -> forall l i u l0 u', urep u l0 -> sized_key u ->
  add_texts pe h nd tb i u l = Ok u' ->
  exists es l', Forall2 (element pe (u_key u)) l es /\ urep u' l' /\ same_shape u' u /\ map snd l' = fold_left step1 es (map snd l0).
Proof.
  intros P HO. induction l as [|t l IH]; intros i u l0 u' R S H; cbn [add_texts] in H.
  - apply Ok_inj in H as <-. exists [], l0. split; [constructor|]. split; [auto|]. split; [apply shape_refl|reflexivity].
  - binv H. rename a into u1. destruct (h i) as [hp|] eqn:Eh; [|discriminate E]. destruct (HO _ _ Eh) as (Bh & Lh).
    destruct (add_elem_raw_sound pe hp _ _ _ _ _ _ P Bh Lh R S E) as (e & l1 & V & Le & R1 & (S1 & S2 & S3 & S4) & M).
    assert (SK : sized_key u1) by (unfold sized_key in *; rewrite S2, S3; exact S).
    destruct (IH _ _ _ _ R1 SK H) as (es & l' & F & R' & (Z1 & Z2 & Z3 & Z4) & M'). rewrite S2 in F.
    exists (e :: es), l'. split; [constructor; auto|]. split; [auto|]. split; [repeat split; congruence|].
    cbn [fold_left]. rewrite M', M. reflexivity.
Qed.
Lemma delta_sound pe m b name key l u : penv_ok pe -> heap_ok (cm_heap m b) -> delta pe m b name key l = Ok u ->
  exists es, Forall2 (element pe key) l es /\ set_is u name key es.
Proof.
  intros P HO H. unfold delta in H. binv H. rename a into u0.
  destruct (new_sized _ _ _ E) as (S & G). destruct (set_new_result _ _ _ E) as (N1 & N2 & N3 & N4 & _).
  destruct (add_texts_sound pe _ _ _ P HO _ _ _ _ _ (urep_new _ _ _ E) S H) as (es & l' & F & R & (S1 & S2 & S3 & S4) & M).
  exists es. rewrite N2 in F. split; [exact F|].
  unfold set_is. rewrite S1, S2, S3, S4, N1, N2, N3. split; [auto|]. split; [auto|]. split; [auto|]. split; [auto|].
  rewrite (set_read_ok _ _ R), M. reflexivity.
Qed.

Lemma update_set_cmd F p ce files m ms args k r k' : acceptable C_chain_update_set args -> penv_ok (ce_pe ce) -> (forall b, heap_ok (cm_heap m b)) ->
  ends F p (bfcli ce files m ms C_chain_update_set args) k r k' ->
  exists n s, last_arg O_name args = Some n /\ last_arg O_set_name args = Some s /\
  ((k' = k /\ r = Er EINVAL /\ args_of O_add args = [] /\ args_of O_remove args = []) \/
   (exists rc k1, ends F p (chain_get (cm_a m 0) n) k rc k1 /\
     ((k' = k1 /\ exists e, r = Er e) \/
      exists c cs ho j dest add del ea er, rc = Ok (c, cs, ho) /\
        nth_error (nc_sets c) j = Some dest /\ u_name dest = Some s /\
        (forall i u, (i < j)%nat -> nth_error (nc_sets c) i = Some u -> u_name u <> Some s) /\
        Forall2 (element (ce_pe ce) (u_key dest)) (args_of O_add args) ea /\ set_is add (Some s) (u_key dest) ea /\
        Forall2 (element (ce_pe ce) (u_key dest)) (args_of O_remove args) er /\ set_is del (Some s) (u_key dest) er /\
        ends F p (chain_update_set (cm_a m 1) (cm_a m 2) (cm_a m 3) (cm_a m 4) (cm_a m 5) n add del) k1 r k'))).
Proof.
  intros AC P HO H. destruct (options_accepted _ _ AC) as (o & RO). destruct (options_iff _ _ _ RO) as (_ & MO).
  unfold bfcli in H. rewrite RO in H. cbn [run_cmd] in H. unfold cli_update_set in H.
  destruct AC as (_ & _ & _ & _ & A1 & A2 & _). specialize (A1 eq_refl). specialize (A2 eq_refl).
  apply last_given in A1, A2. rewrite <- (mo_adds _ _ MO), <- (mo_removes _ _ MO).
  rewrite <- (mo_name _ _ MO) in A1 |- *. rewrite <- (mo_set _ _ MO) in A2 |- *.
  destruct (o_name o) as [n|]; [|congruence]. destruct (o_set_name o) as [s|]; [|congruence].
  exists n, s. split; [reflexivity|]. split; [reflexivity|].
  assert (G : (o_adds o = [] /\ o_removes o = [] /\ ends F p (Ret (Er EINVAL)) k r k') \/
    ends F p (rc <~ chain_get (cm_a m 0) n ;;
      match rc with
      | Er e => Ret (Er e)
      | Ok (c, _, _) =>
      match find_set (Some s) 0 (nc_sets c) with
      | None => Ret (Er ENOENT)
      | Some (_, dest) =>
      match bind (delta (ce_pe ce) m true (Some s) (u_key dest) (o_adds o)) (fun a =>
            bind (delta (ce_pe ce) m false (Some s) (u_key dest) (o_removes o)) (fun r => Ok (a, r))) with
      | Er e => Ret (Er e)
      | Ok (a, r) => chain_update_set (cm_a m 1) (cm_a m 2) (cm_a m 3) (cm_a m 4) (cm_a m 5) n a r
      end end end) k r k').
  { destruct (o_adds o); [destruct (o_removes o)|]; [left; auto|right; exact H|right; exact H]. }
  clear H. destruct G as [(G1 & G2 & G)|G].
  - apply ends_ret in G. destruct G as (-> & ->). left. auto.
  - right. apply ends_pbind in G. destruct G as (rc & k1 & E1 & E2). exists rc, k1. split; [exact E1|].
    destruct rc as [((c, cs), ho)|e].
    2:{ apply ends_ret in E2. destruct E2 as (-> & ->). left. eauto. }
    destruct (find_set (Some s) 0 (nc_sets c)) as [(j, dest)|] eqn:FS.
    2:{ apply ends_ret in E2. destruct E2 as (-> & ->). left. eauto. }
    destruct (delta _ _ true _ _ _) as [a|e] eqn:DA; cbn [bind] in E2.
    2:{ apply ends_ret in E2. destruct E2 as (-> & ->). left. eauto. }
    destruct (delta _ _ false _ _ _) as [d|e] eqn:DD; cbn [bind] in E2.
    2:{ apply ends_ret in E2. destruct E2 as (-> & ->). left. eauto. }
    right. destruct (delta_sound _ _ _ _ _ _ _ P (HO _) DA) as (ea & FA & IA). destruct (delta_sound _ _ _ _ _ _ _ P (HO _) DD) as (er & FD & ID).
    destruct (find_set_spec _ _ _ _ _ FS) as (q & -> & NU & NE & FIRST). cbn [Nat.add] in *.
    exists c, cs, ho, q, dest, a, d, ea, er. split; [reflexivity|]. split; [exact NU|].
    assert (NEQ : forall x, name_eqb x (Some s) = true <-> x = Some s).
    { intros [x|]; cbn [name_eqb]; [rewrite bytes_eqb_eq; split; congruence|split; discriminate]. }
    split; [apply NEQ; exact NE|]. split.
    { intros i u I U Q. apply NEQ in Q. specialize (FIRST i u). rewrite FIRST in Q; [discriminate Q|exact I|exact U]. }
    auto 8.
Qed.
