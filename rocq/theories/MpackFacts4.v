(** Chains as bytes. *)
From Coq Require Import String NArith ZArith List Bool Arith Lia.
From Verif Require Import Bytes BytesFacts Types GenModel ChainModel SetModel PackModel PackSpec PackFacts3 PackFacts4 NewFacts MpackModel MpackSpec MpackFacts MpackFacts2 MpackFacts3.
Import ListNotations.
Local Open Scope N_scope.
Local Open Scope list_scope.

Lemma carry_key k : N.of_nat (String.length k) < 2 ^ 32 -> carriable (key k).
Proof.
  intros H. constructor. unfold sized. replace (length (StrModel.lit k)) with (String.length k); [exact H|].
  clear. induction k as [|a k IH]; [reflexivity|]. cbn. f_equal. exact IH.
Qed.
Lemma carry_small i : i < 256 -> carriable (wr_int (Z.of_N i)).
Proof. intros H. unfold wr_int. rewrite (proj2 (Z.ltb_ge _ _)) by lia. rewrite N2Z.id. constructor. lia. Qed.
Lemma small_sized {A} (l : list A) : (length l < 256)%nat -> sized l.
Proof. unfold sized. intros H. change (2 ^ 32) with 4294967296. lia. Qed.

Ltac entry := split; cbn [fst snd]; [apply carry_key; reflexivity|].

Lemma carry_matcher m : sized (m_pay m) -> carriable (matcher_pack m).
Proof.
  intros H. constructor; [apply small_sized; cbn; lia|].
  constructor; [entry; apply carry_small; destruct (m_type m); reflexivity|].
  constructor; [entry; apply carry_small; destruct (m_op m); reflexivity|].
  constructor; [entry; constructor|].
  constructor; [entry; constructor; exact H|]. constructor.
Qed.

Lemma carry_rule r : rule_in_range r -> r_index r < two32 -> sized (r_matchers r) -> Forall (fun m => sized (m_pay m)) (r_matchers r) ->
  carriable (rule_pack r).
Proof.
  intros (A & B & C & D & _) I S P. unfold two32, two64 in *. constructor; [apply small_sized; cbn; lia|].
  constructor; [entry; constructor; lia|].
  constructor; [entry; constructor; lia|].
  constructor; [entry; constructor; exact B|].
  constructor; [entry; constructor|].
  constructor; [entry; constructor; exact C|].
  constructor; [entry; apply carry_small; destruct (r_verdict r); reflexivity|].
  constructor; [entry; constructor; lia|].
  constructor; [entry; apply carry_small; destruct (r_rd_dir r); reflexivity|].
  constructor; [entry|constructor]. constructor; [unfold sized in *; rewrite map_length; exact S|].
  apply Forall_map. eapply Forall_impl; [|exact P]. intros m. apply carry_matcher.
Qed.

Lemma carry_set u n : roomy_set u -> set_pack u = Ok n -> carriable n.
Proof.
  intros (A & B & C) H. unfold set_pack in H. destruct (set_read u) as [l|] eqn:E; [|discriminate H]. cbn [bind] in H. injection H as <-.
  destruct (C l eq_refl) as [C1 C2].
  constructor; [apply small_sized; cbn; lia|].
  constructor; [entry; destruct (u_name u); constructor; exact A|].
  constructor; [entry; constructor; [unfold sized in *; rewrite map_length; exact B|]|].
  { apply Forall_map, Forall_forall. intros t _. apply carry_small. destruct t; reflexivity. }
  constructor; [entry|constructor]. constructor; [unfold sized in *; rewrite map_length; exact C1|].
  apply Forall_map. eapply Forall_impl; [|exact C2]. intros x X. constructor. exact X.
Qed.

Lemma map_res_forall2 {A B} (f : A -> res B) : forall l r, map_res f l = Ok r -> Forall2 (fun x y => f x = Ok y) l r.
Proof.
  induction l as [|x l IH]; intros r H; cbn in H; [injection H as <-; constructor|].
  destruct (f x) eqn:E; [|discriminate H]. cbn in H. destruct (map_res f l) eqn:F; [|discriminate H]. cbn in H. injection H as <-.
  constructor; [exact E|apply IH; reflexivity].
Qed.

Theorem carry_chain c n : chain_built c -> storable c -> roomy c -> chain_pack c = Ok n -> carriable n.
Proof.
  intros CB SO (A & B & C & D & F) H. unfold chain_pack in H. destruct (map_res set_pack (nc_sets c)) as [sets|] eqn:E; [|discriminate H].
  cbn [bind] in H. injection H as <-. apply map_res_forall2 in E.
  assert (L : length sets = length (nc_sets c)) by (symmetry; apply (f2_length _ _ _ E)).
  pose proof (settled_index c (built_settled c CB) (so_count c SO)) as IX.
  constructor; [apply small_sized; cbn; lia|].
  constructor; [entry; constructor; exact A|].
  constructor; [entry; apply carry_small; destruct (c_hook (nc_chain c)); reflexivity|].
  constructor; [entry; apply carry_small; destruct (c_policy (nc_chain c)); reflexivity|].
  constructor; [entry; constructor; [unfold sized in *; rewrite L; exact B|]|].
  { clear - C E. induction E as [|u x us xs P _ IH]; [constructor|]. inversion C as [|? ? C1 C2]; subst. constructor; [apply (carry_set u x C1 P)|apply IH; exact C2]. }
  constructor; [entry|constructor]. constructor; [unfold sized in *; rewrite map_length; exact D|].
  apply Forall_map, Forall_forall. intros r I. rewrite Forall_forall in F, IX. destruct (F r I) as [F1 F2].
  apply carry_rule; [|apply IX; exact I|exact F1|exact F2].
  exact (proj1 (Forall_forall _ _) (so_rules c SO) r I).
Qed.
