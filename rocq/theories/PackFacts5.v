(** Refusals: the codes, and that reading a tree is never undefined. *)
From Coq Require Import String NArith ZArith List Bool Arith Lia.
From Verif Require Import Bytes Types GenModel BytesFacts ChainModel NewSpec NewFacts 
  StrModel EnumModel EnumFacts SetModel SetSpec SetApiFacts SetApiFacts2 PackModel PackSpec PackFacts PackFacts2 PackFacts3 PackFacts4.
Import ListNotations.
Local Open Scope list_scope.
Local Open Scope N_scope.
Local Open Scope res_scope.

Lemma bind_er {A B} (m : res A) (k : A -> res B) e : bind m k = Er e -> m = Er e \/ exists a, m = Ok a /\ k a = Er e.
Proof. destruct m; cbn; intros H; [right; eauto|left; congruence]. Qed.

(** [errs es m]: an error of [m] is one of [es]. *)
Definition errs {A} (es : list N) (m : res A) : Prop := forall e, m = Er e -> In e es.

Lemma errs_bind {A B} es (m : res A) (k : A -> res B) : errs es m -> (forall a, m = Ok a -> errs es (k a)) -> errs es (bind m k).
Proof. intros H K e E. apply bind_er in E as [E|(a & E1 & E2)]; [auto|exact (K a E1 e E2)]. Qed.
Lemma errs_ok {A} es (a : A) : errs es (Ok a).
Proof. intros e E. discriminate E. Qed.
Lemma errs_er {A} es e : In e es -> errs es (@Er A e).
Proof. intros H x E. congruence. Qed.
Lemma errs_weaken {A} es es' (m : res A) : errs es m -> incl es es' -> errs es' m.
Proof. intros H I e E. auto. Qed.

Definition rdE := [EDOM; ENOENT; EINVAL].
Ltac e1 := apply errs_er; cbn; auto 8.

Lemma e_int n : errs rdE (rd_int n).
Proof. destruct n; cbn [rd_int]; try e1; [destruct (_ <? _)|destruct (_ && _)]; try e1; apply errs_ok. Qed.
Lemma e_uint b n : errs rdE (rd_uint b n).
Proof. destruct n; cbn [rd_uint]; try e1. destruct (_ <? _); [apply errs_ok|e1]. Qed.
Lemma e_str n : errs rdE (rd_str n).
Proof. destruct n; cbn [rd_str]; try e1. destruct (existsb _ _); [e1|apply errs_ok]. Qed.
Lemma e_bool n : errs rdE (rd_bool n).
Proof. destruct n; cbn [rd_bool]; try e1. apply errs_ok. Qed.
Lemma e_bin n : errs rdE (rd_bin n).
Proof. destruct n; cbn [rd_bin]; try e1. apply errs_ok. Qed.
Lemma e_arr n : errs rdE (rd_arr n).
Proof. destruct n; cbn [rd_arr]; try e1. apply errs_ok. Qed.
Lemma e_enum m n : errs rdE (rd_enum m n).
Proof. unfold rd_enum. apply errs_bind; [apply e_int|]. intros z _. destruct (_ && _); [apply errs_ok|e1]. Qed.
Lemma e_node n k : errs rdE (kv_node n k).
Proof. destruct n; cbn [kv_node]; try e1. destruct (find_key _ _); try e1. apply errs_ok. Qed.
Lemma e_contains n k : errs rdE (contains n k).
Proof. destruct n; cbn [contains]; try e1. destruct (find_key _ _); try e1; apply errs_ok. Qed.
Lemma e_kv {A} (rd : node -> res A) es n k : (forall c, errs es (rd c)) -> incl rdE es -> errs es (kv rd n k).
Proof. intros H I. unfold kv. apply errs_bind; [|auto]. eapply errs_weaken; [apply e_node|auto]. Qed.
Lemma e_kv_opt {A} (rd : node -> res A) n k d : (forall c, errs rdE (rd c)) -> errs rdE (kv_opt rd n k d).
Proof. intros H. unfold kv_opt. apply errs_bind; [apply e_contains|]. intros [] _; [apply e_kv; [auto|apply incl_refl]|apply errs_ok]. Qed.
Lemma e_map {A B} (f : A -> res B) es l : (forall a, errs es (f a)) -> errs es (map_res f l).
Proof.
  intros H. induction l as [|a l IH]; cbn [map_res]; [apply errs_ok|]. apply errs_bind; [auto|]. intros b _. apply errs_bind; [auto|]. intros; apply errs_ok.
Qed.

Lemma rd_enum_bound m n v : rd_enum m n = Ok v -> v < m.
Proof.
  unfold rd_enum. intros H. binv H. destruct ((0 <=? a)%Z && (a <? Z.of_N m)%Z) eqn:X; [|discriminate H]. apply Ok_inj in H as <-.
  apply andb_prop in X as (X1 & X2). apply Z.leb_le in X1. apply Z.ltb_lt in X2. lia.
Qed.
Lemma kv_bound m n k v : kv (rd_enum m) n k = Ok v -> v < m.
Proof. unfold kv. intros H. binv H. eapply rd_enum_bound; eauto. Qed.

Lemma e_mtype es i : i < 31 -> errs es (enum_of (mtype_of_id i)).
Proof.
  intros H. destruct (mtype_of_id i) eqn:E; [apply errs_ok|]. exfalso. unfold mtype_of_id in E.
  destruct (N.ltb_spec i 31); [|lia]. 
  assert (N.to_nat i < 31)%nat as L by lia. revert E L. generalize (N.to_nat i) as k. intros k E L.
  do 31 (destruct k as [|k]; [discriminate E|]). lia.
Qed.
Lemma e_mop es i : i < 5 -> errs es (enum_of (mop_of_id i)).
Proof.
  intros H. destruct (mop_of_id i) eqn:E; [apply errs_ok|]. exfalso. unfold mop_of_id in E.
  destruct (N.ltb_spec i 5); [|lia]. 
  assert (N.to_nat i < 5)%nat as L by lia. revert E L. generalize (N.to_nat i) as k. intros k E L.
  do 5 (destruct k as [|k]; [discriminate E|]). lia.
Qed.
Lemma e_verdict es i : i < 5 -> errs es (enum_of (verdict_of_id i)).
Proof.
  intros H. assert (K : i = 0 \/ i = 1 \/ i = 2 \/ i = 3 \/ i = 4) by lia.
  destruct K as [-> | [-> | [-> | [-> | ->]]]]; apply errs_ok.
Qed.
Lemma e_rdir es i : i < 2 -> errs es (enum_of (rdir_of_id i)).
Proof. intros H. assert (K : i = 0 \/ i = 1) by lia. destruct K as [-> | ->]; apply errs_ok. Qed.

Definition objE := [EDOM; ENOENT; EINVAL; EABORT].
Lemma rd_obj_incl : incl rdE objE.
Proof. intros x [<-|[<-|[<-|[]]]]; cbn; auto. Qed.
Ltac wk l := eapply errs_weaken; [apply l|apply rd_obj_incl].

Lemma e_matcher n : errs objE (matcher_unpack n).
Proof.
  unfold matcher_unpack.
  apply errs_bind; [apply e_kv; [intros; wk e_enum|apply rd_obj_incl]|]. intros ti Ht. apply kv_bound in Ht.
  apply errs_bind; [now apply e_mtype|]. intros t _.
  apply errs_bind; [apply e_kv; [intros; wk e_enum|apply rd_obj_incl]|]. intros oi Ho. apply kv_bound in Ho.
  apply errs_bind; [now apply e_mop|]. intros o _.
  apply errs_bind; [eapply errs_weaken; [apply e_kv_opt; apply e_bool|apply rd_obj_incl]|]. intros b _.
  apply errs_bind; [apply e_kv; [intros; wk e_bin|apply rd_obj_incl]|]. intros p _.
  unfold matcher_new. destruct p; [e1|apply errs_ok].
Qed.

Lemma e_counters n : errs objE (unpack_counters n).
Proof.
  unfold unpack_counters. destruct (contains n (lit "has_counters")) as [[]|]; try e1.
  - apply e_kv; [intros; wk e_bool|apply rd_obj_incl].
  - destruct (contains n (lit "counters")) as [[]|]; try e1. apply e_kv; [intros; wk e_bool|apply rd_obj_incl].
Qed.

Lemma e_rule n : errs objE (rule_unpack n).
Proof.
  unfold rule_unpack.
  apply errs_bind; [apply e_kv; [intros; wk e_uint|apply rd_obj_incl]|]. intros x1 _.
  apply errs_bind; [apply e_kv; [intros; wk e_uint|apply rd_obj_incl]|]. intros x2 _.
  apply errs_bind; [eapply errs_weaken; [apply e_kv_opt; intros; apply e_uint|apply rd_obj_incl]|]. intros x3 _.
  apply errs_bind; [apply e_counters|]. intros x4 _.
  apply errs_bind; [apply e_kv; [intros; wk e_uint|apply rd_obj_incl]|]. intros x5 _.
  apply errs_bind; [apply e_kv; [intros; wk e_enum|apply rd_obj_incl]|]. intros x6 H6. apply kv_bound in H6.
  apply errs_bind; [now apply e_verdict|]. intros x7 _.
  apply errs_bind; [eapply errs_weaken; [apply e_kv_opt; intros; apply e_uint|apply rd_obj_incl]|]. intros x8 _.
  apply errs_bind; [eapply errs_weaken; [apply e_kv_opt; intros; apply e_enum|apply rd_obj_incl]|]. intros x9 H9.
  assert (x9 < 2). { unfold kv_opt in H9. binv H9. destruct a; [now apply kv_bound in H9|apply Ok_inj in H9 as <-; lia]. }
  apply errs_bind; [now apply e_rdir|]. intros x10 _.
  apply errs_bind; [apply e_kv; [intros; wk e_arr|apply rd_obj_incl]|]. intros x11 _.
  apply errs_bind; [apply e_map; apply e_matcher|]. intros; apply errs_ok.
Qed.

Definition setE := [EDOM; ENOENT; EINVAL; E2BIG; ENOTSUP; ENOMEM].
Lemma rd_set_incl : incl rdE setE.
Proof. intros x [<-|[<-|[<-|[]]]]; cbn; auto. Qed.

Lemma e_key l : forall room, errs setE (unpack_key room l).
Proof.
  induction l as [|n l IH]; intros room; cbn [unpack_key]; [apply errs_ok|]. destruct room; [e1|].
  apply errs_bind; [eapply errs_weaken; [apply e_enum|apply rd_set_incl]|]. intros i Hi. apply rd_enum_bound in Hi.
  apply errs_bind; [now apply e_mtype|]. intros t _. apply errs_bind; [apply IH|]. intros; apply errs_ok.
Qed.

Lemma e_elems nd tb l : forall i u r, urep u r -> errs setE (unpack_elems nd tb i u l).
Proof.
  induction l as [|n l IH]; intros i u r R; cbn [unpack_elems]; [apply errs_ok|].
  apply errs_bind; [eapply errs_weaken; [apply e_bin|apply rd_set_incl]|]. intros e _.
  destruct (Nat.eqb_spec (length e) (u_esize u)) as [He|He]; cbn [negb]; [|e1].
  destruct (set_add_sized true (nd i) tb u r e R He) as (u1 & rc & l1 & E & R1 & K1 & K2 & K3 & K4 & C). rewrite E. cbn [bind fst snd].
  destruct (N.eqb_spec rc 0) as [Hr|Hr]; [eapply IH; eauto|].
  destruct C as [(X & _)|[(X & _)|(X & _)]]; try congruence. subst rc. e1.
Qed.

Lemma e_set nd tb n : errs setE (set_unpack nd tb n).
Proof.
  unfold set_unpack. apply errs_bind; [eapply errs_weaken; [apply e_node|apply rd_set_incl]|]. intros c _.
  apply errs_bind.
  { destruct c; try (apply errs_bind; [eapply errs_weaken; [apply e_str|apply rd_set_incl]|intros; apply errs_ok]). apply errs_ok. }
  intros name _. apply errs_bind; [apply e_kv; [intros; eapply errs_weaken; [apply e_arr|]|]; apply rd_set_incl|]. intros kl _.
  apply errs_bind; [apply e_key|]. intros ks _. apply errs_bind.
  { intros e E. apply set_new_error in E as [(_ & ->)|[(_ & ->)|[(_ & _ & ->)|(_ & _ & _ & ->)]]]; cbn; auto 8. }
  intros u Hu. apply errs_bind; [apply e_kv; [intros; eapply errs_weaken; [apply e_arr|]|]; apply rd_set_incl|]. intros el _.
  eapply e_elems. eapply urep_new. exact Hu.
Qed.

Definition chainE := [EDOM; ENOENT; EINVAL; E2BIG; ENOTSUP; ENOMEM; EABORT].

Lemma e_references sets ms : errs chainE (references_empty sets ms).
Proof.
  induction ms as [|m ms IH]; cbn [references_empty]; [apply errs_ok|]. destruct (m_type m); auto.
  destruct (set_of sets m) as [s|]; [|e1]. destruct (s_elems s); [apply errs_ok|auto].
Qed.
Lemma e_incompatible sets ms : forall tr, errs chainE (has_incompatible sets ms tr).
Proof.
  induction ms as [|m ms IH]; intros tr; cbn [has_incompatible]; [apply errs_ok|]. apply errs_bind.
  - destruct (m_type m); try apply errs_ok. destruct (set_of sets m); [apply errs_ok|e1].
  - intros ts _. destruct (check_layers ts tr) as [[] tr']; [apply errs_ok|auto].
Qed.
Lemma e_check_matchers h sets d ms : forall nh, errs chainE (check_matchers h sets d ms nh).
Proof.
  induction ms as [|m ms IH]; intros nh; cbn [check_matchers]; [apply errs_ok|]. cbv zeta.
  destruct (unsupported (m_type m) h); [e1|]. destruct (m_type m); auto. destruct (set_of sets m); [|e1]. destruct (existsb _ _); [e1|auto].
Qed.
Lemma e_check_rule h sets fl r : errs chainE (check_rule h sets fl r).
Proof.
  unfold check_rule. apply errs_bind; [apply e_references|]. intros e _. apply errs_bind; [destruct e; [apply errs_ok|apply e_incompatible]|].
  intros d _. cbv zeta. match goal with |- errs _ (if ?b then _ else _) => destruct b end; [e1|].
  match goal with |- errs _ (if ?b then _ else _) => destruct b end; [e1|]. apply errs_bind; [apply e_check_matchers|]. intros; apply errs_ok.
Qed.
Lemma e_check_rules h sets rs : forall fl i, errs chainE (check_rules h sets fl i rs).
Proof.
  induction rs as [|r rs IH]; intros fl i; cbn [check_rules]; [apply errs_ok|]. apply errs_bind; [apply e_check_rule|]. intros a _.
  apply errs_bind; [apply IH|]. intros; apply errs_ok.
Qed.

Lemma e_sets nd tb l : forall i, errs chainE (unpack_sets nd tb i l).
Proof.
  induction l as [|n l IH]; intros i; cbn [unpack_sets]; [apply errs_ok|]. apply errs_bind.
  - eapply errs_weaken; [apply e_set|]. intros x Hx. cbn in *. intuition.
  - intros u _. apply errs_bind; [apply IH|]. intros; apply errs_ok.
Qed.

Lemma rd_chain_incl : incl rdE chainE.
Proof. intros x Hx. cbn in *. intuition. Qed.

Lemma unpacked_sets_read nd tb l : forall i us, unpack_sets nd tb i l = Ok us -> exists bs, map_res bset_of us = Ok bs.
Proof.
  intros i us H. destruct (unpack_sets_sound _ _ _ _ _ H) as (ds & _ & F). clear -F.
  induction F as [|u d us ds (_ & _ & _ & _ & R) F (bs & IH)]; [exists []; reflexivity|]. cbn [map_res]. unfold bset_of at 1. rewrite R. cbn [bind].
  rewrite IH. eexists. reflexivity.
Qed.

Lemma e_chain nd tb n : errs chainE (chain_unpack nd tb n).
Proof.
  unfold chain_unpack. apply errs_bind; [apply e_kv; [intros; eapply errs_weaken; [apply e_str|]|]; apply rd_chain_incl|]. intros name _.
  apply errs_bind; [apply e_kv; [intros; eapply errs_weaken; [apply e_enum|]|]; apply rd_chain_incl|]. intros h _.
  apply errs_bind; [apply e_kv; [intros; eapply errs_weaken; [apply e_enum|]|]; apply rd_chain_incl|]. intros p _.
  apply errs_bind; [apply e_kv; [intros; eapply errs_weaken; [apply e_arr|]|]; apply rd_chain_incl|]. intros sl _.
  apply errs_bind; [apply e_sets|]. intros us Hu.
  apply errs_bind; [apply e_kv; [intros; eapply errs_weaken; [apply e_arr|]|]; apply rd_chain_incl|]. intros rl _.
  apply errs_bind; [eapply errs_weaken; [apply e_map; apply e_rule|]; intros x Hx; cbn in *; intuition|]. intros rs _.
  unfold nchain_new. destruct (unpacked_sets_read _ _ _ _ _ Hu) as (bs & ->). cbn [bind]. apply errs_bind; [|intros; apply errs_ok].
  unfold chain_new. destruct (hook_of_id h); [|e1]. destruct (verdict_of_id p); [|e1]. destruct (valid_policy v); [|e1].
  apply errs_bind; [apply e_check_rules|]. intros; apply errs_ok.
Qed.

(** ** Explicit refusals. *)
Lemma no_entry_entry n k v : no_entry n k -> entry n k v -> False.
Proof. intros (l & -> & H) (a & b & E & _). injection E as ->. apply (H v). apply in_app_iff. right. now left. Qed.

Lemma chain_missing nd tb n k : In k ["name"; "hook"; "policy"; "sets"; "rules"]%string -> (forall v, ~ entry n k v) ->
  exists e, chain_unpack nd tb n = Er e /\ In e chainE.
Proof.
  intros Hk Hn. destruct (chain_unpack nd tb n) as [c|e] eqn:E; [|exists e; split; [auto|apply (e_chain nd tb n); auto]]. exfalso.
  destruct (chain_unpack_sound _ _ _ _ E) as (ds & rules & [A B C D F] & _).
  destruct Hk as [<-|[<-|[<-|[<-|[<-|[]]]]]].
  - destruct A as (c0 & A & _). eapply Hn; eauto.
  - destruct B as (c0 & B & _). eapply Hn; eauto.
  - destruct C as (c0 & C & _). eapply Hn; eauto.
  - destruct D as (c0 & D & _). eapply Hn; eauto.
  - destruct F as (c0 & F & _). eapply Hn; eauto.
Qed.
