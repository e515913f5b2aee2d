(** bf_chain_update_set. *)
From Coq Require Import String NArith ZArith List Bool Lia Arith.
From Verif Require Import Bytes Types World BpfModel GenModel ChainModel BytesFacts NewFacts StrModel SetModel SetSpec SetApiFacts SetApiFacts2 MapModel PackModel PackSpec PackFacts PackFacts2 PackFacts3 PackFacts4 HookModel KernModel LockModel CtlModel SysSpec SysFacts RelyFacts SeqFacts StageFacts EvoFacts CtlSpec HistSpec HandleFacts PinFacts AttachFacts LockSeqFacts LoadFacts RestoreFacts WithFacts IsolFacts UnloadFacts AttachOpFacts CountFacts UpdSpec UpdFacts UpdOpFacts.
Import ListNotations.
Local Open Scope list_scope.
Local Open Scope N_scope.

(** ** Sets read back are sets made with the API *)
Lemma unpack_elems_reach nd tb l : forall i u u', set_reachable u -> unpack_elems nd tb i u l = Ok u' -> set_reachable u'.
Proof.
  induction l as [|n l IH]; intros i u u' R H; cbn [unpack_elems] in H; [apply Ok_inj in H as <-; exact R|].
  binv H. destruct (negb _); [discriminate H|]. binv H. destruct (snd a0 =? 0); [|discriminate H]. eapply IH; [|exact H].
  destruct a0 as [v rc]. eapply SR_add; [exact R|exact E0].
Qed.
Lemma set_unpack_reach nd tb n u : set_unpack nd tb n = Ok u -> set_reachable u /\ match u_name u with Some s => ~ In 0 s | None => True end.
Proof.
  intros H. split.
  - unfold set_unpack in H. do 6 binv H. eapply unpack_elems_reach; [|exact H]. eapply SR_new; exact E3.
  - destruct (set_unpack_sound _ _ _ _ H) as (nm & ks & es & T & (A & _)). rewrite A. destruct (st_name _ _ _ _ T) as (c & _ & X). destruct nm; [apply X|exact Logic.I].
Qed.
Lemma unpack_sets_reach nd tb l : forall i us, unpack_sets nd tb i l = Ok us -> sets_storable us.
Proof.
  induction l as [|n l IH]; intros i us H; cbn [unpack_sets] in H; [apply Ok_inj in H as <-; constructor|].
  binv H. binv H. apply Ok_inj in H as <-. constructor; [eapply set_unpack_reach; exact E|eapply IH; exact E0].
Qed.
Lemma chain_unpack_ok nd tb t c : chain_unpack nd tb t = Ok c -> chain_built c /\ sets_storable (nc_sets c).
Proof.
  intros H. unfold chain_unpack in H. do 7 binv H. split; [eapply CB_new; exact H|].
  unfold nchain_new in H. binv H. binv H. apply Ok_inj in H as <-. cbn. eapply unpack_sets_reach; exact E3.
Qed.
Lemma copied_storable a b : storable a -> same_chain a b -> sets_storable (nc_sets b) -> storable b.
Proof. intros [A1 A2 A3 A4] (B1 & B2 & B3) S. constructor; [rewrite <- B1; exact A1|exact S|rewrite <- B3; exact A3|rewrite <- B3; exact A4]. Qed.
Lemma sets_pack l : sets_storable l -> exists ns, map_res set_pack l = Ok ns.
Proof.
  induction 1 as [|u l (R & N) _ (ns & IH)]; [exists []; reflexivity|]. destruct (set_pack_tree u R N) as (e & n & _ & E & _). exists (n :: ns). cbn [map_res]. rewrite E, IH. reflexivity.
Qed.
Lemma storable_pack c : sets_storable (nc_sets c) -> exists t, chain_pack c = Ok t.
Proof. intros S. destruct (sets_pack _ S) as (ns & E). unfold chain_pack. rewrite E. eexists. reflexivity. Qed.

(** ** Groups *)
Lemma add_to_group_len sets i key gs : (length (add_to_group sets i key gs) <= S (length gs))%nat.
Proof. induction gs as [|g gs IH]; cbn; [lia|]. destruct (key_eqb _ _); cbn; lia. Qed.
Lemma build_groups_len sets rest : forall i gs, (length (build_groups_aux sets rest i gs) <= length gs + length rest)%nat.
Proof.
  induction rest as [|s rest IH]; intros i gs; cbn [build_groups_aux length]; [lia|].
  eapply Nat.le_trans; [apply IH|]. destruct (s_elems s); [lia|]. destruct (s_trie s); [rewrite app_length; cbn; lia|].
  pose proof (add_to_group_len sets i (s_key s) gs). lia.
Qed.
Lemma nodup_map {A B} (f : A -> B) l : NoDup l -> (forall a b, In a l -> In b l -> f a = f b -> a = b) -> NoDup (map f l).
Proof.
  induction 1 as [|x l NI ND IH]; intros H; cbn [map]; constructor.
  - intros X. apply in_map_iff in X. destruct X as (y & E & Y). apply NI. rewrite (H x y); [exact Y|left; reflexivity|right; exact Y|symmetry; exact E].
  - apply IH. intros a b Ha Hb. apply H; right; assumption.
Qed.
Lemma few_names ch : N.of_nat (length (c_sets ch)) <= 65536 -> NoDup (set_names ch).
Proof.
  intros L. unfold set_names. apply nodup_map; [apply seq_NoDup|].
  intros a b Ha Hb E. apply in_seq in Ha, Hb. pose proof (build_groups_len (c_sets ch) (c_sets ch) 0 []) as B. fold (build_groups (c_sets ch)) in B. cbn [length] in B.
  injection E as E. rewrite !N.mod_small in E by (unfold two16; lia). lia.
Qed.
Lemma map_res_len {A B} (f : A -> res B) l r : map_res f l = Ok r -> length r = length l.
Proof. revert r. induction l as [|x l IH]; intros r H; cbn [map_res] in H; [apply Ok_inj in H as <-; reflexivity|]. binv H. binv H. apply Ok_inj in H as <-. cbn. rewrite (IH _ E0). reflexivity. Qed.
Lemma few_names_built c : chain_built c -> few_sets c -> NoDup (set_names (nc_chain c)).
Proof. intros B F. apply few_names. rewrite (map_res_len _ _ _ (se_sets _ (built_settled c B))). exact F. Qed.

(** ** The edit *)
Lemma name_eqb_true a b : name_eqb a b = true <-> exists s, a = Some s /\ b = Some s.
Proof.
  unfold name_eqb. destruct a as [x|], b as [y|]; split; intros H; try discriminate H; try (destruct H as (s & A & B); discriminate A || discriminate B).
  - apply bytes_eqb_eq in H. subst y. eauto.
  - destruct H as (s & A & B). injection A as ->. injection B as ->. apply bytes_eqb_eq. reflexivity.
Qed.
Lemma find_set_spec nm l : forall i j u, find_set nm i l = Some (j, u) -> exists m, j = (i + m)%nat /\ nth_error l m = Some u /\ name_eqb (u_name u) nm = true /\
  forall m' v, (m' < m)%nat -> nth_error l m' = Some v -> name_eqb (u_name v) nm = false.
Proof.
  induction l as [|x l IH]; intros i j u H; cbn [find_set] in H; [discriminate H|]. destruct (name_eqb (u_name x) nm) eqn:E.
  - injection H as <- <-. exists 0%nat. split; [lia|]. split; [reflexivity|]. split; [exact E|]. intros; lia.
  - destruct (IH _ _ _ H) as (m & A & B & C & D). exists (S m). split; [lia|]. split; [exact B|]. split; [exact C|].
    intros [|m'] v L V; [injection V as <-; exact E|]. eapply (D m'); [lia|exact V].
Qed.
Lemma set_edit_ok nd tb u a r u' : set_reachable u -> set_reachable a -> set_reachable r -> set_edit nd tb u a r = Ok u' ->
  set_reachable u' /\ same_shape u' u /\ exists s x y, set_read u = Ok s /\ set_read a = Ok x /\ set_read r = Ok y /\ set_read u' = Ok (difference (union s x) y).
Proof.
  intros RU RA RR H. unfold set_edit in H. destruct (reachable_urep _ RU) as [l Ul]. destruct (reachable_urep _ RA) as [m Um]. destruct (reachable_urep _ RR) as [n Un].
  destruct (set_add_many_ok nd tb u a l m Ul Um) as (u1 & left & rc & l1 & E & R1 & _ & _ & C). rewrite E in H. cbn [bind] in H.
  destruct (rc =? 0) eqn:RC; cbn [negb] in H; [|discriminate H]. apply N.eqb_eq in RC.
  assert (M1 : map snd l1 = union (map snd l) (map snd m)).
  { destruct C as [(-> & _)|[_ [(_ & _ & C)|(-> & _)]]]; [discriminate RC|exact C|discriminate RC]. }
  destruct (set_remove_many_ok u1 r l1 n R1 Un) as (u2 & left2 & rc2 & l2 & E2 & R2 & _ & _ & C2). rewrite E2 in H. cbn [bind] in H.
  destruct (rc2 =? 0) eqn:RC2; cbn [negb] in H; [|discriminate H]. apply N.eqb_eq in RC2. apply Ok_inj in H as <-.
  assert (M2 : map snd l2 = difference (map snd l1) (map snd n)) by (destruct C2 as [(-> & _)|(_ & _ & _ & C2)]; [discriminate RC2|exact C2]).
  split; [eapply SR_remove_many; [eapply SR_add_many; [exact RU|exact RA|exact E]|exact RR|exact E2]|].
  split; [pose proof (remove_many_shape _ _ _ _ _ E2) as (A1 & A2 & A3 & A4); pose proof (add_many_shape _ _ _ _ _ _ _ E) as (B1 & B2 & B3 & B4); repeat split; congruence|].
  exists (map snd l), (map snd m), (map snd n). rewrite !(set_read_ok _ _ Ul), (set_read_ok _ _ Um), (set_read_ok _ _ Un), (set_read_ok _ _ R2), M2, M1. auto.
Qed.

Lemma nth_replace {A} (x : A) l : forall i j, nth_error (replace_nth i x l) j = if Nat.eqb i j then match nth_error l j with Some _ => Some x | None => None end else nth_error l j.
Proof.
  induction l as [|y l IH]; intros i j; [destruct i, j; cbn; try destruct (Nat.eqb _ _); reflexivity|].
  destruct i as [|i], j as [|j]; cbn [replace_nth nth_error Nat.eqb]; auto.
Qed.
Lemma len_replace {A} (x : A) l : forall i, length (replace_nth i x l) = length l.
Proof. induction l as [|y l IH]; intros [|i]; cbn; auto. Qed.
Lemma replace_res {A B} (f : A -> res B) x b l : forall i r, map_res f l = Ok r -> f x = Ok b -> map_res f (replace_nth i x l) = Ok (replace_nth i b r).
Proof.
  induction l as [|y l IH]; intros i r H E; cbn [map_res] in H; [apply Ok_inj in H as <-; destruct i; reflexivity|].
  binv H. binv H. apply Ok_inj in H as <-. destruct i as [|i]; cbn [replace_nth map_res].
  - rewrite E, E1. reflexivity.
  - rewrite E0. cbn [bind]. rewrite (IH _ _ E1 E). reflexivity.
Qed.
Lemma Forall_replace {A} (P : A -> Prop) x l : P x -> forall i, Forall P l -> Forall P (replace_nth i x l).
Proof. intros Hx i H. revert i. induction H as [|y l Hy H IH]; intros [|i]; cbn; constructor; auto. Qed.
Lemma Forall2_nth {A B} (R : A -> B -> Prop) l r : Forall2 R l r -> forall i x y, nth_error l i = Some x -> nth_error r i = Some y -> R x y.
Proof. induction 1 as [|a b l r H F IH]; intros [|i] x y Hx Hy; cbn in *; try discriminate; [congruence|eauto]. Qed.
Lemma Forall2_nth_r {A B} (R : A -> B -> Prop) l r : Forall2 R l r -> forall i y, nth_error r i = Some y -> exists x, nth_error l i = Some x /\ R x y.
Proof. induction 1 as [|a b l r H F IH]; intros [|i] y Hy; cbn in *; try discriminate; [injection Hy as <-; eauto|eauto]. Qed.
Lemma Forall2_nth_i {A B} (R : A -> B -> Prop) l r : length l = length r -> (forall i x y, nth_error l i = Some x -> nth_error r i = Some y -> R x y) -> Forall2 R l r.
Proof.
  revert r. induction l as [|a l IH]; intros [|b r] L H; cbn in L; try discriminate L; constructor.
  - apply (H 0%nat); reflexivity.
  - apply IH; [congruence|]. intros i. apply (H (S i)).
Qed.

Lemma with_set_edited c c2 add del a r j u u' b : same_chain c c2 -> chain_built c2 -> sets_storable (nc_sets c2) ->
  find_set (u_name add) 0 (nc_sets c2) = Some (j, u) -> same_set add a -> same_set del r -> set_reachable a -> set_reachable r ->
  (exists nd tb, set_edit nd tb u a r = Ok u') -> bset_of u' = Ok b ->
  edited c (with_set c2 j u' b) add del /\ sets_storable (nc_sets (with_set c2 j u' b)).
Proof.
  intros (S1 & S2 & S3) B2 ST FS SA SD RA RD (nd & tb & SE) BO.
  destruct (find_set_spec _ _ _ _ _ FS) as (m & -> & NU & NE & FIRST). cbn [Nat.add] in *.
  assert (RU : set_reachable u /\ match u_name u with Some s => ~ In 0 s | None => True end).
  { unfold sets_storable in ST. rewrite Forall_forall in ST. apply ST. eapply nth_error_In; exact NU. }
  destruct (set_edit_ok _ _ _ _ _ _ (proj1 RU) RA RD SE) as (RU' & (H1 & H2 & H3 & H4) & s & x & y & Q1 & Q2 & Q3 & Q4).
  destruct (Forall2_nth_r _ _ _ S2 _ _ NU) as (u0 & NU0 & (E1 & E2 & E3 & E4 & E5)).
  split; [|cbn; apply Forall_replace; [split; [exact RU'|rewrite H1; apply RU]|exact ST]].
  apply name_eqb_true in NE. destruct NE as (nm & NE1 & NE2).
  constructor; cbn [with_set nc_name nc_sets nc_chain c_hook c_policy c_rules c_sets].
  - congruence.
  - congruence.
  - congruence.
  - congruence.
  - rewrite len_replace. clear -S2. induction S2; cbn; auto.
  - exists m, u0, u', s, x, y. split; [exact NU0|]. split; [rewrite nth_replace, Nat.eqb_refl, NU; reflexivity|].
    split; [congruence|]. split; [congruence|]. split.
    { intros i v L V NV. destruct (nth_error (nc_sets c2) i) as [v2|] eqn:V2.
      - pose proof (FIRST i v2 L V2) as X. pose proof (Forall2_nth _ _ _ S2 _ _ _ V V2) as (Y & _).
        assert (T : name_eqb (u_name v2) (u_name add) = true) by (apply name_eqb_true; exists nm; split; congruence). congruence.
      - apply nth_error_None in V2. assert (i < length (nc_sets c))%nat by (apply nth_error_Some; congruence).
        assert (length (nc_sets c) = length (nc_sets c2)) by (clear -S2; induction S2; cbn; auto). lia. }
    split.
    { intros i v v' NEQ V V'. rewrite nth_replace in V'. destruct (Nat.eqb m i) eqn:EQ; [apply Nat.eqb_eq in EQ; congruence|]. exact (Forall2_nth _ _ _ S2 _ _ _ V V'). }
    split; [congruence|]. split; [congruence|]. split; [congruence|].
    destruct SA as (_ & _ & _ & _ & SA). destruct SD as (_ & _ & _ & _ & SD). split; [congruence|]. split; [congruence|]. exact Q4.
  - apply replace_res; [apply (se_sets _ (built_settled _ B2))|exact BO].
Qed.

(** ** If no set becomes empty or ceases to be, the new chain is as bf_chain_new would make it *)
Definition alike (a b : bset) : Prop := s_key a = s_key b /\ (s_elems a = [] <-> s_elems b = []).
Lemma alike_of sets sets' m : Forall2 alike sets sets' ->
  match set_of sets m, set_of sets' m with Some a, Some b => alike a b | None, None => True | _, _ => False end.
Proof.
  intros F. unfold set_of. generalize (N.to_nat (set_id m)). induction F as [|a b l r H F IH]; intros [|n]; cbn; auto. apply IH.
Qed.
Lemma alike_empty sets sets' ms : Forall2 alike sets sets' -> references_empty sets ms = references_empty sets' ms.
Proof.
  intros F. induction ms as [|m ms IH]; cbn [references_empty]; [reflexivity|]. pose proof (alike_of sets sets' m F) as A.
  destruct (m_type m); try exact IH. destruct (set_of sets m) as [a|], (set_of sets' m) as [b|]; try contradiction; [|reflexivity].
  destruct A as (_ & A). destruct (s_elems a), (s_elems b); auto; [exfalso; assert (X : l :: l0 = []) by (apply A; reflexivity); discriminate X|exfalso; assert (X : l :: l0 = []) by (apply A; reflexivity); discriminate X].
Qed.
Lemma alike_incompatible sets sets' ms : Forall2 alike sets sets' -> forall tr, has_incompatible sets ms tr = has_incompatible sets' ms tr.
Proof.
  intros F. induction ms as [|m ms IH]; intros tr; cbn [has_incompatible]; [reflexivity|]. pose proof (alike_of sets sets' m F) as A.
  replace (match m_type m with M_SET => match set_of sets m with Some s => Ok (s_key s) | None => Er ENOENT end | t => Ok [t] end)
    with (match m_type m with M_SET => match set_of sets' m with Some s => Ok (s_key s) | None => Er ENOENT end | t => Ok [t] end).
  - destruct (match m_type m with M_SET => match set_of sets' m with Some s => Ok (s_key s) | None => Er ENOENT end | t => Ok [t] end); cbn [bind]; [|reflexivity].
    destruct (check_layers a tr) as [[] tr']; [reflexivity|apply IH].
  - destruct (m_type m); try reflexivity. destruct (set_of sets m), (set_of sets' m); try contradiction; [|reflexivity]. destruct A as (-> & _). reflexivity.
Qed.
Lemma alike_matchers h sets sets' d ms : Forall2 alike sets sets' -> forall nh, check_matchers h sets d ms nh = check_matchers h sets' d ms nh.
Proof.
  intros F. induction ms as [|m ms IH]; intros nh; cbn [check_matchers]; [reflexivity|]. pose proof (alike_of sets sets' m F) as A.
  destruct (unsupported (m_type m) h); [reflexivity|]. destruct (m_type m); try apply IH.
  destruct (set_of sets m), (set_of sets' m); try contradiction; [|reflexivity]. destruct A as (-> & _). destruct (existsb _ _); [reflexivity|apply IH].
Qed.
Lemma alike_rule h sets sets' fl r : Forall2 alike sets sets' -> check_rule h sets fl r = check_rule h sets' fl r.
Proof.
  intros F. unfold check_rule. rewrite (alike_empty _ _ _ F). destruct (references_empty sets' (r_matchers r)) as [e|]; cbn [bind]; [|reflexivity].
  rewrite (alike_incompatible _ _ _ F). destruct (if e then Ok true else has_incompatible sets' (r_matchers r) (None, None)) as [d|]; cbn [bind]; [|reflexivity].
  rewrite (alike_matchers _ _ _ _ _ F). reflexivity.
Qed.
Lemma alike_rules h sets sets' rs : Forall2 alike sets sets' -> forall fl i, check_rules h sets fl i rs = check_rules h sets' fl i rs.
Proof.
  intros F. induction rs as [|r rs IH]; intros fl i; cbn [check_rules]; [reflexivity|]. rewrite (alike_rule _ _ _ _ _ F).
  destruct (check_rule h sets' fl (with_index r i)); cbn [bind]; [|reflexivity]. rewrite IH. reflexivity.
Qed.
Lemma settled_built c : settled c -> chain_built c.
Proof.
  intros S. pose proof (settled_new c (nc_name c) (nc_sets c) S (se_sets _ S)) as H. apply CB_new in H. destruct c; exact H.
Qed.
Lemma same_len {A B} (R : A -> B -> Prop) l r : Forall2 R l r -> length l = length r.
Proof. induction 1; cbn; auto. Qed.
Lemma map_res_nth {A B} (f : A -> res B) l : forall r i x, map_res f l = Ok r -> nth_error r i = Some x -> exists y, nth_error l i = Some y /\ f y = Ok x.
Proof.
  induction l as [|y l IH]; intros r i x H N; cbn [map_res] in H; [apply Ok_inj in H as <-; destruct i; discriminate N|].
  binv H. binv H. apply Ok_inj in H as <-. destruct i as [|i]; cbn in N; [injection N as <-; exists y; auto|]. destruct (IH _ _ _ E0 N) as (z & A1 & A2). exists z. auto.
Qed.
Lemma edited_keys c c' add del : chain_built c -> edited c c' add del -> Forall2 (fun a b => s_key a = s_key b) (c_sets (nc_chain c)) (c_sets (nc_chain c')).
Proof.
  intros B E. pose proof (se_sets _ (built_settled c B)) as S. apply Forall2_nth_i.
  - rewrite (map_res_len _ _ _ S), (map_res_len _ _ _ (ed_view _ _ _ _ E)). symmetry. apply (ed_len _ _ _ _ E).
  - intros i a b Ha Hb. destruct (map_res_nth _ _ _ _ _ S Ha) as (u & U1 & U2). destruct (map_res_nth _ _ _ _ _ (ed_view _ _ _ _ E) Hb) as (v & V1 & V2).
    assert (K : u_key u = u_key v).
    { destruct (ed_set _ _ _ _ E) as (j & x & x' & _ & _ & _ & A1 & A2 & _ & _ & _ & A3 & _ & A4 & _). destruct (Nat.eq_dec i j) as [->|NE].
      - rewrite U1 in A1. rewrite V1 in A2. congruence.
      - destruct (A3 i u v NE U1 V1) as (_ & K & _). exact K. }
    unfold bset_of in U2, V2. binv U2. binv V2. apply Ok_inj in U2 as <-. apply Ok_inj in V2 as <-. exact K.
Qed.
Lemma edited_built c c' add del : chain_built c -> edited c c' add del -> c_log (nc_chain c') = c_log (nc_chain c) -> c_nexthdr (nc_chain c') = c_nexthdr (nc_chain c) ->
  c_ratelimit (nc_chain c') = c_ratelimit (nc_chain c) -> same_empties c c' -> chain_built c'.
Proof.
  intros B E L1 L2 L3 SE. pose proof (built_settled c B) as [S1 S2 S3]. apply settled_built. constructor.
  - apply (ed_view _ _ _ _ E).
  - rewrite (ed_policy _ _ _ _ E). exact S2.
  - rewrite (ed_hook _ _ _ _ E), (ed_rules _ _ _ _ E), L1, L2, L3. rewrite <- S3. symmetry. apply alike_rules.
    pose proof (edited_keys _ _ _ _ B E) as K. unfold same_empties in SE. revert K SE. generalize (c_sets (nc_chain c)) (c_sets (nc_chain c')).
    intros l r K. induction K as [|a b l r H K IH]; intros SE; inversion SE; subst; constructor; [split; assumption|auto].
Qed.

(** ** The call *)
Lemma wps_copy_set {A} F p (I : kst -> Prop) mm u (g : res uset -> prog A) Q k : set_reachable u -> match u_name u with Some s => ~ In 0 s | None => True end -> I k ->
  (forall v, set_reachable v -> same_set u v -> wps F p I (g (Ok v)) Q k) ->
  (forall e, wps F p I (g (Er e)) Q k) ->
  wps F p I (pbind (copy_set mm u) g) Q k.
Proof.
  intros R N HI H1 H2. unfold copy_set. apply pbind_assoc. apply wps_alloc; [exact HI| |].
  - cbn [pbind]. destruct (set_round_trip (m_nd mm O) (m_tb mm) u R N) as (n & E & [(v & E2 & SS)|E2] & _); rewrite E; cbn [bind]; rewrite E2; [apply H1; [eapply set_unpack_reach; exact E2|exact SS]|apply H2].
  - intros HF e. cbn [pbind]. apply H2.
Qed.

Lemma same_sets_trans l r l2 : Forall2 same_set l r -> Forall2 same_set r l2 -> Forall2 same_set l l2.
Proof.
  intros A. revert l2. induction A as [|x y l r H F IH]; intros l2 D; destruct l2 as [|z l2]; inversion D as [|a b v w HYZ HR]; subst; constructor; auto.
  unfold same_set in *. destruct H as (?&?&?&?&?), HYZ as (?&?&?&?&?). repeat split; congruence.
Qed.

Lemma chain_update_set_ok F p (I : kst -> Prop) m1 m2 m3 m4 m5 n add del k0 i c hd : sane k0 -> spared F -> ent_find n (k_ents k0) = Some i ->
  holds_chain k0 i c hd -> chain_built c -> storable c -> sets_storable [add; del] -> tidy k0 i -> few_sets c ->
  (forall X M S k', evo p (k_ents k0) X M S k0 k' -> xok X i -> (forall c', duty hd c c' k') \/ (exists c', edited c c' add del /\ duty hd c c' k') -> I k') ->
  wps F p I (chain_update_set m1 m2 m3 m4 m5 n add del) (fun r k' =>
    match r with
    | Ok _ => exists c', edited c c' add del /\ storable c' /\ (same_empties c c' -> chain_built c') /\ updated p k0 i hd c c' true k'
    | Er e => evo p (k_ents k0) (Some (i, dview k0 i)) [] [] k0 k'
    end) k0.
Proof.
  intros S0 SP EN HC CB CS SA TD FEW HI. pose proof (sane_ent _ S0 _ _ EN) as LI.
  assert (HG : forall S k', grow p S k0 k' -> I k') by (intros S k' E; eapply HI; [exact E|exact Logic.I|left; intros c'; eapply duty_hold; eauto]).
  assert (CTX : exists q, dview k0 i q <> None) by (exists P_ctx; destruct HC as ((o' & t & A0 & _) & _); unfold pin in A0; unfold dview; congruence).
  unfold chain_update_set. destruct (negb (name_eqb (u_name add) (u_name del))).
  { apply wps_ret; [eapply HG, evo_refl, S0|]. apply evo_none; [apply evo_refl, S0|exact LI]. }
  eapply upd_frame; [exact S0|exact SP|exact EN|exact HC|exact CB|exact CS|exact HG|intros e k' E _; apply evo_none; [exact E|exact LI]|].
  intros b pd cf g k1 OC SC HOK GD. pose proof (oc_grow _ _ _ _ _ _ _ _ _ _ _ _ _ _ OC) as G1.
  set (Q := fun (r : res unit) k' => match r with Ok _ => _ | Er _ => _ end).
  assert (GIVEUP : forall e, wps F p I (Ret (g, Er e : res unit)) (leaves p I Q k0 n L_READ L_WRITE b pd cf) k1).
  { intros e. apply wps_ret; [eapply HG, G1|]. eapply cle_refl_leave; [exact OC|exact S0|right; exact CTX|exact HG|]. intros k' E. apply evo_none; [exact E|exact LI]. }
  destruct (oc_ctx _ _ _ _ _ _ _ _ _ _ _ _ _ _ OC) as (ox & tx & _ & _ & UX). destruct (chain_unpack_ok _ _ _ _ UX) as (GB & GS).
  pose proof (copied_storable _ _ CS SC GS) as GST.
  apply wps_copy; [exact GB|exact GST|eapply HG, G1| |intros e _; apply GIVEUP].
  intros c2 CC SC2. assert (C2 : chain_built c2 /\ sets_storable (nc_sets c2)).
  { unfold chain_copy in CC. binv CC. eapply chain_unpack_ok; exact CC. }
  destruct C2 as (B2 & ST2). assert (SC02 : same_chain c c2).
  { destruct SC as (A1 & A2 & A3). destruct SC2 as (D1 & D2 & D3). split; [congruence|]. split; [|congruence]. eapply same_sets_trans; eassumption. }
  destruct (find_set (u_name add) 0 (nc_sets c2)) as [[j u]|] eqn:FS; [|apply GIVEUP].
  inversion SA as [|? ? SA1 SAR]; subst. inversion SAR as [|? ? SA2 _]; subst.
  apply wps_copy_set; [apply SA1|apply SA1|eapply HG, G1| |intros e; apply GIVEUP]. intros a RA SSA.
  apply wps_copy_set; [apply SA2|apply SA2|eapply HG, G1| |intros e; apply GIVEUP]. intros r RR SSR.
  destruct (set_edit (m_nd m5 O) (m_tb m5) u a r) as [u'|e] eqn:SE; [|apply GIVEUP].
  destruct (bset_of u') as [bs|e] eqn:BO; [|apply GIVEUP].
  destruct (with_set_edited c c2 add del a r j u u' bs SC02 B2 ST2 FS SSA SSR RA RR (ex_intro _ _ (ex_intro _ _ SE)) BO) as (ED & ST3).
  set (c3 := with_set c2 j u' bs) in *.
  assert (NC : n_rules (nc_chain c3) = n_rules (nc_chain c)) by (unfold n_rules; rewrite (ed_rules _ _ _ _ ED); reflexivity).
  assert (LS : length (nc_sets c3) = length (nc_sets c)) by apply (ed_len _ _ _ _ ED).
  eapply cgen_update_ok with (c := c); [exact S0|exact SP|exact OC|exact HC|exact SC|exact HOK|exact GD|exact TD| | | | | | |].
  - apply (ed_hook _ _ _ _ ED).
  - apply storable_pack, ST3.
  - apply few_names_built; assumption.
  - apply few_names. rewrite (map_res_len _ _ _ (ed_view _ _ _ _ ED)), LS. exact FEW.
  - intros X M S k' E XO D. eapply HI; [exact E|exact XO|]. right. exists c3. auto.
  - intros e k' E W. exact E.
  - intros k' U. exists c3. split; [exact ED|]. destruct SC02 as (N02 & _ & E02). split; [|split; [|exact U]].
    + destruct CS as [Z1 Z2 Z3 Z4]. constructor; [rewrite (ed_name _ _ _ _ ED); exact Z1|exact ST3|rewrite (ed_rules _ _ _ _ ED); exact Z3|rewrite NC; exact Z4].
    + intros SEM. eapply edited_built; [exact CB|exact ED| | | |exact SEM]; unfold c3; cbn; rewrite E02; reflexivity.
Qed.
