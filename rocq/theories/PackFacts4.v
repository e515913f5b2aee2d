(** Chains: reading a tree, and the round trip. *)
From Coq Require Import String NArith ZArith List Bool Arith Lia.
From Verif Require Import Bytes Types GenModel BytesFacts ChainModel NewSpec NewFacts 
  StrModel EnumModel EnumFacts SetModel SetSpec SetApiFacts SetApiFacts2 PackModel PackSpec PackFacts PackFacts2 PackFacts3.
Import ListNotations.
Local Open Scope list_scope.
Local Open Scope N_scope.
Local Open Scope res_scope.

(** ** What chain_new makes of its own rules. *)
Definition enabled (r : rule) : rule := with_disabled r false.

Lemma check_rule_enabled h sets fl r : check_rule h sets fl (enabled r) = check_rule h sets fl r.
Proof. destruct r. reflexivity. Qed.

Lemma check_rule_shape h sets fl r a : check_rule h sets fl r = Ok a -> exists d, fst a = with_disabled r d.
Proof.
  unfold check_rule. intros H. binv H. binv H. exists a1. cbv zeta in H.
  match type of H with (if ?b then _ else _) = _ => destruct b end; [discriminate H|].
  match type of H with (if ?b then _ else _) = _ => destruct b end; [discriminate H|].
  binv H. inversion H; reflexivity.
Qed.

Lemma with_index_again r i j : with_index (with_index r j) i = with_index r i.
Proof. reflexivity. Qed.

Lemma check_rules_again h sets rs : forall fl idx a, check_rules h sets fl idx rs = Ok a ->
  check_rules h sets fl idx (map enabled (fst a)) = Ok a.
Proof.
  induction rs as [|r rs IH]; intros fl idx a H; cbn [check_rules] in H.
  - apply Ok_inj in H as <-. reflexivity.
  - binv H. binv H. apply Ok_inj in H as <-. cbn [fst map check_rules].
    destruct (check_rule_shape _ _ _ _ _ E) as (d & Ed).
    assert (check_rule h sets fl (with_index (enabled (fst a0)) idx) = Ok a0) as ->.
    { rewrite Ed. rewrite <- E. destruct r. reflexivity. }
    cbn [bind]. rewrite (IH _ _ _ E0). reflexivity.
Qed.

Lemma check_rules_app h sets rs r : forall fl idx a, check_rules h sets fl idx rs = Ok a ->
  check_rules h sets fl idx (rs ++ [r]) =
  (b <- check_rule h sets (snd a) (with_index r (idx + N.of_nat (length rs))) ; Ok (fst a ++ [fst b], snd b)).
Proof.
  induction rs as [|x rs IH]; intros fl idx a H; cbn [check_rules app] in *.
  - apply Ok_inj in H as <-. cbn [fst snd app length]. rewrite N.add_0_r. destruct (check_rule _ _ _ _); reflexivity.
  - binv H. binv H. apply Ok_inj in H as <-. cbn [bind]. rewrite E. cbn [bind]. rewrite (IH _ _ _ E0). cbn [fst snd length].
    replace (idx + 1 + N.of_nat (length rs)) with (idx + N.of_nat (S (length rs))) by lia.
    destruct (check_rule _ _ _ (with_index r _)); reflexivity.
Qed.

Lemma check_rules_length h sets rs : forall fl idx a, check_rules h sets fl idx rs = Ok a -> length (fst a) = length rs.
Proof.
  induction rs as [|r rs IH]; intros fl idx a H; cbn [check_rules] in H; [apply Ok_inj in H as <-; reflexivity|].
  binv H. binv H. apply Ok_inj in H as <-. cbn [fst length]. f_equal. eauto.
Qed.

Lemma set_of_more sets s m x : set_of sets m = Some x -> set_of (sets ++ [s]) m = Some x.
Proof.
  unfold set_of. intros H. rewrite nth_error_app1; auto. apply nth_error_Some. congruence.
Qed.

Lemma references_more sets s ms b : references_empty sets ms = Ok b -> references_empty (sets ++ [s]) ms = Ok b.
Proof.
  induction ms as [|m ms IH]; cbn [references_empty]; auto.
  destruct (m_type m); auto. destruct (set_of sets m) eqn:E; [|discriminate]. rewrite (set_of_more _ _ _ _ E). destruct (s_elems b0); auto.
Qed.

Lemma incompatible_more sets s ms : forall tr b, has_incompatible sets ms tr = Ok b -> has_incompatible (sets ++ [s]) ms tr = Ok b.
Proof.
  induction ms as [|m ms IH]; intros tr b; cbn [has_incompatible]; auto.
  intros H. binv H. assert ((match m_type m with M_SET => match set_of (sets ++ [s]) m with Some s => Ok (s_key s) | None => Er ENOENT end | t => Ok [t] end) = Ok a) as ->.
  { destruct (m_type m); auto. destruct (set_of sets m) eqn:Es; [|discriminate E]. now rewrite (set_of_more _ _ _ _ Es). }
  cbn [bind]. destruct (check_layers a tr) as [[] tr']; auto.
Qed.

Lemma matchers_more h sets s d ms : forall nh b, check_matchers h sets d ms nh = Ok b -> check_matchers h (sets ++ [s]) d ms nh = Ok b.
Proof.
  induction ms as [|m ms IH]; intros nh b; cbn [check_matchers]; auto. cbv zeta.
  destruct (unsupported (m_type m) h); auto. destruct (m_type m); auto.
  destruct (set_of sets m) eqn:E; [|discriminate]. rewrite (set_of_more _ _ _ _ E). destruct (existsb _ _); auto.
Qed.

Lemma check_rule_more h sets s fl r a : check_rule h sets fl r = Ok a -> check_rule h (sets ++ [s]) fl r = Ok a.
Proof.
  unfold check_rule. intros H. binv H. rewrite (references_more _ _ _ _ E). cbn [bind]. binv H.
  assert ((if a0 then Ok true else has_incompatible (sets ++ [s]) (r_matchers r) (None, None)) = Ok a1) as ->.
  { destruct a0; auto. now apply incompatible_more. }
  cbn [bind]. cbv zeta in *.
  match type of H with (if ?b then _ else _) = _ => destruct b end; [discriminate H|].
  match type of H with (if ?b then _ else _) = _ => destruct b end; [discriminate H|].
  binv H. cbn [with_disabled r_matchers] in *. rewrite (matchers_more _ _ _ _ _ _ _ E1). exact H.
Qed.

Lemma check_rules_more h sets s rs : forall fl idx a, check_rules h sets fl idx rs = Ok a -> check_rules h (sets ++ [s]) fl idx rs = Ok a.
Proof.
  induction rs as [|r rs IH]; intros fl idx a H; cbn [check_rules] in *; auto.
  binv H. rewrite (check_rule_more _ _ _ _ _ _ E). cbn [bind]. binv H. now rewrite (IH _ _ _ E0).
Qed.

(** ** The invariant of built chains. *)
Record settled (c : nchain) : Prop := mkSettled {
  se_sets : map_res bset_of (nc_sets c) = Ok (c_sets (nc_chain c));
  se_policy : valid_policy (c_policy (nc_chain c)) = true;
  se_rules : check_rules (c_hook (nc_chain c)) (c_sets (nc_chain c)) (mkF false false false) 0 (map enabled (c_rules (nc_chain c))) =
     Ok (c_rules (nc_chain c), mkF (c_log (nc_chain c)) (c_nexthdr (nc_chain c)) (c_ratelimit (nc_chain c)))
}.

Lemma map_res_app {A B} (f : A -> res B) l x a b : map_res f l = Ok a -> f x = Ok b -> map_res f (l ++ [x]) = Ok (a ++ [b]).
Proof.
  revert a. induction l as [|y l IH]; intros a H Hx; cbn [map_res app] in *.
  - apply Ok_inj in H as <-. rewrite Hx. reflexivity.
  - binv H. binv H. apply Ok_inj in H as <-. rewrite E. cbn [bind]. rewrite (IH _ E0 Hx). reflexivity.
Qed.

Lemma built_settled c : chain_built c -> settled c.
Proof.
  induction 1 as [name h p sets rules c E|c r c' _ IH E|c u b _ IH E].
  - unfold nchain_new in E. binv E. binv E. apply Ok_inj in E as <-. unfold chain_new in E1.
    destruct (hook_of_id h) as [hk|]; [|discriminate E1]. destruct (verdict_of_id p) as [v|]; [|discriminate E1].
    destruct (valid_policy v) eqn:V; [|discriminate E1]. binv E1. apply Ok_inj in E1 as <-. constructor; cbn; auto.
    rewrite (check_rules_again _ _ _ _ _ _ E). destruct a1 as [rs [f1 f2 f3]]. reflexivity.
  - destruct IH as [S P R]. unfold chain_add_rule in E. binv E. apply Ok_inj in E as <-. constructor; cbn; auto.
    rewrite map_app. cbn [map]. rewrite (check_rules_app _ _ _ _ _ _ _ R). cbn [snd fst].
    rewrite map_length, N.add_0_l. fold (n_rules (nc_chain c)). destruct (check_rule_shape _ _ _ _ _ E0) as (d & Ed).
    assert (check_rule (c_hook (nc_chain c)) (c_sets (nc_chain c)) (mkF (c_log (nc_chain c)) (c_nexthdr (nc_chain c)) (c_ratelimit (nc_chain c)))
       (with_index (enabled (fst a)) (n_rules (nc_chain c))) = Ok a) as ->.
    { rewrite Ed, <- E0. destruct r. reflexivity. }
    cbn [bind]. destruct a as [rs [f1 f2 f3]]. reflexivity.
  - destruct IH as [S P R]. constructor; cbn; auto.
    + now apply map_res_app.
    + now apply check_rules_more.
Qed.

Lemma hook_of_hook_id h : hook_of_id (hook_id h) = Some h.
Proof. now destruct h. Qed.
Lemma verdict_of_verdict_id v : verdict_of_id (verdict_id v) = Some v.
Proof. now destruct v. Qed.

Lemma settled_new c name sets : settled c -> map_res bset_of sets = Ok (c_sets (nc_chain c)) ->
  nchain_new name (hook_id (c_hook (nc_chain c))) (verdict_id (c_policy (nc_chain c))) sets (map enabled (c_rules (nc_chain c))) =
  Ok (mkNC name sets (nc_chain c)).
Proof.
  intros [S P R] Hs. unfold nchain_new. rewrite Hs. cbn [bind]. unfold chain_new. rewrite hook_of_hook_id, verdict_of_verdict_id, P, R.
  cbn [bind fst snd f_log f_nexthdr f_rate]. now destruct (nc_chain c).
Qed.

(** ** Indices. *)
Lemma check_rules_index h sets rs : forall fl idx a, check_rules h sets fl idx rs = Ok a ->
  forall i r, nth_error (fst a) i = Some r -> r_index r = idx + N.of_nat i.
Proof.
  induction rs as [|x rs IH]; intros fl idx a H i r; cbn [check_rules] in H.
  - apply Ok_inj in H as <-. destruct i; discriminate.
  - binv H. binv H. apply Ok_inj in H as <-. cbn [fst]. destruct i as [|i]; cbn [nth_error].
    + intros K. injection K as <-. destruct (check_rule_shape _ _ _ _ _ E) as (d & ->). cbn. lia.
    + intros K. rewrite (IH _ _ _ E0 _ _ K). lia.
Qed.

Lemma settled_index c : settled c -> n_rules (nc_chain c) < two32 -> Forall (fun r => r_index r < two32) (c_rules (nc_chain c)).
Proof.
  intros [_ _ R] L. apply Forall_forall. intros r Hr. apply In_nth_error in Hr as (i & Hi).
  pose proof (check_rules_index _ _ _ _ _ _ R i r Hi) as ->. assert (i < length (c_rules (nc_chain c)))%nat by (apply nth_error_Some; congruence).
  unfold n_rules in L. lia.
Qed.

(** ** Reading. *)
Lemma unpack_sets_sound nd tb l : forall i us, unpack_sets nd tb i l = Ok us -> exists ds,
  Forall2 (fun x s => set_tree x (fst (fst s)) (snd (fst s)) (snd s)) l ds /\
  Forall2 (fun u s => set_is u (fst (fst s)) (snd (fst s)) (snd s)) us ds.
Proof.
  induction l as [|n l IH]; intros i us H; cbn [unpack_sets] in H.
  - apply Ok_inj in H as <-. exists []. auto.
  - binv H. binv H. apply Ok_inj in H as <-. destruct (IH _ _ E0) as (ds & A & B).
    destruct (set_unpack_sound _ _ _ _ E) as (nm & k & es & C & D). exists ((nm, k, es) :: ds). split; constructor; auto.
Qed.

Lemma unpack_sets_complete nd tb l ds : Forall2 (fun x s => set_tree x (fst (fst s)) (snd (fst s)) (snd s)) l ds ->
  forall i, (exists us, unpack_sets nd tb i l = Ok us /\ Forall2 (fun u s => set_is u (fst (fst s)) (snd (fst s)) (snd s)) us ds) \/
  unpack_sets nd tb i l = Er ENOMEM.
Proof.
  induction 1 as [|n d l ds H1 H2 IH]; intros i; cbn [unpack_sets]; [left; eauto|].
  destruct (set_unpack_complete (nd i) tb _ _ _ _ H1) as [(u & E & U)|E]; rewrite E; cbn [bind]; auto.
  destruct (IH (S i)) as [(us & E2 & U2)|E2]; rewrite E2; cbn [bind]; auto. left. exists (u :: us). auto.
Qed.

Lemma unpack_sets_generous nd tb l ds : (forall i, generous (nd i) tb) -> Forall2 (fun x s => set_tree x (fst (fst s)) (snd (fst s)) (snd s)) l ds ->
  Forall (fun s => N.of_nat (length (snd s)) < two32) ds ->
  forall i, exists us, unpack_sets nd tb i l = Ok us /\ Forall2 (fun u s => set_is u (fst (fst s)) (snd (fst s)) (snd s)) us ds.
Proof.
  intros G. induction 1 as [|n d l ds H1 H2 IH]; intros L i; cbn [unpack_sets]; [eauto|]. inversion L; subst.
  destruct (set_unpack_generous (nd i) tb _ _ _ _ (G i) H1) as (u & E & U); auto. rewrite E; cbn [bind].
  destruct (IH ltac:(auto) (S i)) as (us & E2 & U2). rewrite E2; cbn [bind]. exists (u :: us). auto.
Qed.

Lemma hook_enum i h : i < 14 -> (hook_of_id i = Some h <-> i = hook_id h).
Proof.
  intros L. split; [|intros ->; apply hook_of_hook_id]. unfold hook_of_id. intros H.
  assert (N.to_nat i < 14)%nat as L' by lia. rewrite <- (N2Nat.id i). revert H L'. generalize (N.to_nat i) as k. intros k H L'.
  do 14 (destruct k as [|k]; [cbn in H; injection H as <-; reflexivity|]). lia.
Qed.

Lemma chain_unpack_sound nd tb n c : chain_unpack nd tb n = Ok c -> exists ds rules,
  chain_tree n (nc_name c) (c_hook (nc_chain c)) (c_policy (nc_chain c)) ds rules /\
  Forall2 (fun u s => set_is u (fst (fst s)) (snd (fst s)) (snd s)) (nc_sets c) ds /\
  nchain_new (nc_name c) (hook_id (c_hook (nc_chain c))) (verdict_id (c_policy (nc_chain c))) (nc_sets c) rules = Ok c.
Proof.
  unfold chain_unpack. intros H. binv H. rename a into name. binv H. rename a into h. binv H. rename a into p. binv H. rename a into sl. binv H.
  rename a into us. binv H. rename a into rl. binv H. rename a into rules.
  apply (kv_iff _ is_text) in E; [|intros; apply rd_str_iff].
  apply (kv_iff _ (is_enum 14)) in E0; [|intros; apply rd_enum_iff, le31; lia].
  apply (kv_iff _ (is_enum 5)) in E1; [|intros; apply rd_enum_iff, le31; lia].
  apply (kv_is rd_arr NArr) in E2; [|intros; apply rd_arr_iff]. apply (kv_is rd_arr NArr) in E4; [|intros; apply rd_arr_iff].
  destruct (unpack_sets_sound _ _ _ _ _ E3) as (ds & D1 & D2). apply (map_res_iff _ rule_tree) in E5; [|apply rule_unpack_iff].
  assert (H' := H). unfold nchain_new in H'. binv H'. binv H'. apply Ok_inj in H' as <-. cbn [nc_name nc_sets nc_chain].
  unfold chain_new in E7. destruct (hook_of_id h) as [hk|] eqn:Eh; [|discriminate E7]. destruct (verdict_of_id p) as [v|] eqn:Ev; [|discriminate E7].
  destruct (valid_policy v); [|discriminate E7]. binv E7. apply Ok_inj in E7 as <-. cbn [c_hook c_policy].
  assert (h = hook_id hk) as ->. { destruct E0 as (x & _ & _ & L). now apply hook_enum. }
  assert (p = verdict_id v) as ->. { destruct E1 as (x & _ & _ & L). apply (enum_of_verdict p v L). now rewrite Ev. }
  exists ds, rules. split; [|split; auto]. constructor; eauto.
Qed.

Lemma chain_tree_run nd tb n name h p ds rules : chain_tree n name h p ds rules ->
  (exists us, chain_unpack nd tb n = nchain_new name (hook_id h) (verdict_id p) us rules /\
     Forall2 (fun u s => set_is u (fst (fst s)) (snd (fst s)) (snd s)) us ds) \/ chain_unpack nd tb n = Er ENOMEM.
Proof.
  intros [A B C (sl & D1 & D2) (rl & E1 & E2)]. unfold chain_unpack.
  assert (kv rd_str n "name" = Ok name) as ->. { eapply kv_iff; [|exact A]. intros; apply rd_str_iff. } cbn [bind].
  assert (kv (rd_enum 14) n "hook" = Ok (hook_id h)) as ->. { eapply kv_iff; [|exact B]. intros; apply rd_enum_iff, le31; lia. } cbn [bind].
  assert (kv (rd_enum 5) n "policy" = Ok (verdict_id p)) as ->. { eapply kv_iff; [|exact C]. intros; apply rd_enum_iff, le31; lia. } cbn [bind].
  assert (kv rd_arr n "sets" = Ok sl) as ->. { apply (kv_is rd_arr NArr); auto. intros; apply rd_arr_iff. } cbn [bind].
  destruct (unpack_sets_complete nd tb _ _ D2 0) as [(us & E & U)|E]; rewrite E; cbn [bind]; auto. left. exists us. split; auto.
  assert (kv rd_arr n "rules" = Ok rl) as ->. { apply (kv_is rd_arr NArr); auto. intros; apply rd_arr_iff. } cbn [bind].
  assert (map_res rule_unpack rl = Ok rules) as ->. { eapply map_res_iff; [|exact E2]. apply rule_unpack_iff. } reflexivity.
Qed.

Lemma chain_tree_generous nd tb n name h p ds rules : (forall i, generous (nd i) tb) -> chain_tree n name h p ds rules ->
  Forall (fun s => N.of_nat (length (snd s)) < two32) ds ->
  exists us, chain_unpack nd tb n = nchain_new name (hook_id h) (verdict_id p) us rules /\
     Forall2 (fun u s => set_is u (fst (fst s)) (snd (fst s)) (snd s)) us ds.
Proof.
  intros G [A B C (sl & D1 & D2) (rl & E1 & E2)] L. unfold chain_unpack.
  assert (kv rd_str n "name" = Ok name) as ->. { eapply kv_iff; [|exact A]. intros; apply rd_str_iff. } cbn [bind].
  assert (kv (rd_enum 14) n "hook" = Ok (hook_id h)) as ->. { eapply kv_iff; [|exact B]. intros; apply rd_enum_iff, le31; lia. } cbn [bind].
  assert (kv (rd_enum 5) n "policy" = Ok (verdict_id p)) as ->. { eapply kv_iff; [|exact C]. intros; apply rd_enum_iff, le31; lia. } cbn [bind].
  assert (kv rd_arr n "sets" = Ok sl) as ->. { apply (kv_is rd_arr NArr); auto. intros; apply rd_arr_iff. } cbn [bind].
  destruct (unpack_sets_generous nd tb _ _ G D2 L 0) as (us & E & U); rewrite E; cbn [bind]. exists us. split; auto.
  assert (kv rd_arr n "rules" = Ok rl) as ->. { apply (kv_is rd_arr NArr); auto. intros; apply rd_arr_iff. } cbn [bind].
  assert (map_res rule_unpack rl = Ok rules) as ->. { eapply map_res_iff; [|exact E2]. apply rule_unpack_iff. } reflexivity.
Qed.

(** ** The round trip. *)
Lemma chain_pack_tree c : chain_built c -> storable c -> exists n ls,
  chain_pack c = Ok n /\ map_res set_read (nc_sets c) = Ok ls /\ Forall (@NoDup _) ls /\
  chain_tree n (nc_name c) (c_hook (nc_chain c)) (c_policy (nc_chain c))
    (map (fun x => (u_name (fst x), u_key (fst x), snd x)) (combine (nc_sets c) ls)) (map enabled (c_rules (nc_chain c))).
Proof.
  intros B [S1 S2 S3 S4]. pose proof (built_settled c B) as St. pose proof (settled_index c St S4) as Ix.
  assert (exists ns ls, map_res set_pack (nc_sets c) = Ok ns /\ map_res set_read (nc_sets c) = Ok ls /\ Forall (@NoDup _) ls /\
    Forall2 (fun x s => set_tree x (fst (fst s)) (snd (fst s)) (snd s)) ns (map (fun x => (u_name (fst x), u_key (fst x), snd x)) (combine (nc_sets c) ls)))
    as (ns & ls & H1 & H2 & H3 & H4).
  { clear -S2. induction S2 as [|u us (R & Hn) _ (ns & ls & A1 & A2 & A3 & A4)].
    - exists [], []. split; [reflexivity|]. split; [reflexivity|]. split; constructor.
    - destruct (set_pack_tree u R Hn) as (l & n & E1 & E2 & T & D). exists (n :: ns), (l :: ls). cbn [map_res].
      rewrite E1, E2, A1, A2. split; [reflexivity|]. split; [reflexivity|]. split; constructor; auto. }
  unfold chain_pack. rewrite H1. cbn [bind]. eexists _, ls. split; [reflexivity|]. split; [auto|]. split; [auto|].
  constructor.
  - exists (NStr (nc_name c)). split; [is_entry|split; auto].
  - eexists. split; [is_entry|]. apply wr_int_enum. destruct (c_hook _); lazy; reflexivity.
  - eexists. split; [is_entry|]. apply wr_int_enum. destruct (c_policy _); lazy; reflexivity.
  - exists ns. split; [is_entry|auto].
  - exists (map rule_pack (c_rules (nc_chain c))). split; [is_entry|]. clear -S3 Ix.
    induction (c_rules (nc_chain c)) as [|r rs IH]; cbn [map]; constructor; inversion S3; inversion Ix; subst; auto.
    now apply rule_pack_tree.
Qed.

Lemma same_bset u v : same_set u v -> bset_of u = bset_of v.
Proof. intros (A & B & C & D & E). unfold bset_of. now rewrite B, C, D, E. Qed.

Lemma same_sets_back c ls us : Forall (fun u => set_reachable u /\ match u_name u with Some s => ~ In 0 s | None => True end) c ->
  map_res set_read c = Ok ls -> Forall (@NoDup _) ls ->
  Forall2 (fun u s => set_is u (fst (fst s)) (snd (fst s)) (snd s)) us (map (fun x => (u_name (fst x), u_key (fst x), snd x)) (combine c ls)) ->
  Forall2 same_set c us /\ map_res bset_of us = map_res bset_of c.
Proof.
  intros S. revert ls us. induction S as [|u c (R & _) S IH]; intros ls us H D F; cbn [map_res] in H.
  - apply Ok_inj in H as <-. inversion F. auto.
  - binv H. binv H. apply Ok_inj in H as <-. cbn [combine map] in F. inversion F as [|v ? us' ? F1 F2]; subst. cbn [fst snd] in F1.
    inversion D; subst. destruct (IH _ us' E0) as (I1 & I2); auto. pose proof (set_is_same u v R _ E ltac:(auto) F1) as Sm.
    split; [constructor; auto|]. cbn [map_res]. rewrite I2, (same_bset _ _ Sm). reflexivity.
Qed.

Lemma chain_round_trip nd tb c : chain_built c -> storable c ->
  (exists c', chain_copy nd tb c = Ok c' /\ same_chain c c') \/ chain_copy nd tb c = Er ENOMEM.
Proof.
  intros B S. destruct (chain_pack_tree c B S) as (n & ls & P & L & D & T). unfold chain_copy. rewrite P. cbn [bind].
  destruct (chain_tree_run nd tb _ _ _ _ _ _ T) as [(us & E & F)|E]; auto. left. rewrite E.
  destruct (same_sets_back _ _ us (so_sets _ S) L D F) as (F1 & F2). pose proof (built_settled c B) as St.
  rewrite (settled_new c (nc_name c) us St) by (rewrite F2; apply St). eexists. split; [reflexivity|]. split; [reflexivity|]. split; auto.
Qed.

Lemma chain_round_trip_generous nd tb c : (forall i, generous (nd i) tb) -> chain_built c -> storable c ->
  Forall (fun u => forall l, set_read u = Ok l -> N.of_nat (length l) < two32) (nc_sets c) ->
  exists c', chain_copy nd tb c = Ok c' /\ same_chain c c'.
Proof.
  intros G B S Z. destruct (chain_pack_tree c B S) as (n & ls & P & L & D & T). unfold chain_copy. rewrite P. cbn [bind].
  destruct (chain_tree_generous nd tb _ _ _ _ _ _ G T) as (us & E & F).
  { clear -L Z. revert ls L. induction Z as [|u us Hu Z IH]; intros ls L; cbn [map_res] in L; [apply Ok_inj in L as <-; constructor|].
    binv L. binv L. apply Ok_inj in L as <-. cbn [combine map]. constructor; auto. }
  rewrite E. destruct (same_sets_back _ _ us (so_sets _ S) L D F) as (F1 & F2). pose proof (built_settled c B) as St.
  rewrite (settled_new c (nc_name c) us St) by (rewrite F2; apply St). eexists. split; [reflexivity|]. split; [reflexivity|]. split; auto.
Qed.
