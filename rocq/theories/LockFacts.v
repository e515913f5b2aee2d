(** The lock functions do only allowed things and deliver what they promise. *)
From Coq Require Import NArith ZArith List Bool Lia.
From Verif Require Import Bytes Types World BpfModel GenModel BytesFacts StrModel SetModel PackModel HookModel KernModel LockModel CtlModel SysSpec SysFacts RelyFacts.
Import ListNotations.
Local Open Scope N_scope.

(** ** Own calls *)
Definition is_lockcall (c : call) : bool := match c with C_flock _ _ | C_close _ => true | _ => false end.
Definition is_entcall (c : call) : bool := match c with C_mkdir _ _ | C_rename _ _ _ | C_rmdir _ _ => true | _ => false end.
Definition is_dircall (c : call) : bool := match c with C_mkdir _ _ | C_unlink _ _ | C_rename_pin _ _ _ | C_pin _ _ _ => true | _ => false end.

Ltac sys_cases d := destruct d as [|?e|?s]; cbn [ksys can_fail]; [| try (match goal with |- context [if true then _ else _] => cbn [fst snd] end) |].

Ltac kdo_split :=
  repeat match goal with
  | |- context [match ?x with _ => _ end] => first [is_var x; fail 1 | destruct x]
  end.

Lemma ksys_kdo k p c d : ksys k p c d = (k, R_err (match d with E_fail e => e | _ => 0 end)) \/ exists s, ksys k p c d = kdo k p c s.
Proof. destruct d as [|e|s]; cbn [ksys]; eauto. destruct (can_fail c); eauto. Qed.

Lemma kdo_next k p c s : k_next k <= k_next (fst (kdo k p c s)).
Proof.
  destruct c; cbn [kdo]; try (cbn; lia);
  repeat match goal with
  | |- context [match ?x with _ => _ end] => destruct x
  | |- context [if ?x then _ else _] => destruct x
  end; cbn; lia.
Qed.
Lemma ksys_next k p c d : k_next k <= k_next (fst (ksys k p c d)).
Proof. destruct (ksys_kdo k p c d) as [->|[s ->]]; [cbn; lia|apply kdo_next]. Qed.

Lemma kdo_ents k p c s : is_entcall c = false -> k_ents (fst (kdo k p c s)) = k_ents k.
Proof.
  destruct c; cbn [is_entcall]; intros H; try discriminate H; clear H; cbn [kdo]; try reflexivity;
  repeat match goal with
  | |- context [match ?x with _ => _ end] => destruct x
  | |- context [if ?x then _ else _] => destruct x
  end; reflexivity.
Qed.
Lemma ksys_ents k p c d : is_entcall c = false -> k_ents (fst (ksys k p c d)) = k_ents k.
Proof. intros H. destruct (ksys_kdo k p c d) as [->|[s ->]]; [reflexivity|apply kdo_ents, H]. Qed.

Lemma kdo_dirs k p c s : is_dircall c = false -> k_dirs (fst (kdo k p c s)) = k_dirs k.
Proof.
  destruct c; cbn [is_dircall]; intros H; try discriminate H; clear H; cbn [kdo]; try reflexivity;
  repeat match goal with
  | |- context [match ?x with _ => _ end] => destruct x
  | |- context [if ?x then _ else _] => destruct x
  end; reflexivity.
Qed.
Lemma ksys_dirs k p c d : is_dircall c = false -> k_dirs (fst (ksys k p c d)) = k_dirs k.
Proof. intros H. destruct (ksys_kdo k p c d) as [->|[s ->]]; [reflexivity|apply kdo_dirs, H]. Qed.

(** Descriptors after a call: only new ones appear, unless a lock is taken or dropped. *)
Lemma desc_with_next k p f : desc_of (with_next k) p f = desc_of k p f.
Proof. reflexivity. Qed.

Lemma new_fd_desc k q d p f : f < k_next k -> desc_of (fst (new_fd k q d)) p f = desc_of k p f.
Proof.
  intros H. unfold desc_of. cbn [new_fd fst with_next with_fds k_fds fd_find].
  destruct (N.eqb_spec f (k_next k)); [lia|reflexivity].
Qed.
Lemma new_obj_desc k q v p f : f < k_next k -> desc_of (fst (new_obj k q v)) p f = desc_of k p f.
Proof. intros H. rewrite new_obj_eq, new_fd_desc; [reflexivity|cbn; lia]. Qed.

Lemma kdo_desc k q c s p f : f < k_next k -> is_lockcall c = false -> desc_of (fst (kdo k q c s)) p f = desc_of k p f.
Proof.
  intros Hf. destruct c; cbn [is_lockcall]; intros H; try discriminate H; clear H; cbn [kdo]; try reflexivity;
  repeat match goal with
  | |- context [match ?x with _ => _ end] => destruct x
  | |- context [if ?x then _ else _] => destruct x
  end; try reflexivity; try (apply new_fd_desc, Hf); try (apply new_obj_desc, Hf).
Qed.
Lemma ksys_desc k q c d p f : f < k_next k -> is_lockcall c = false -> desc_of (fst (ksys k q c d)) p f = desc_of k p f.
Proof. intros H L. destruct (ksys_kdo k q c d) as [->|[s ->]]; [reflexivity|apply kdo_desc; assumption]. Qed.

Lemma close_desc k q g d p f :
  kinv k -> desc_of (fst (ksys k q (C_close g) d)) p f = if (f =? g) && (p =? q) then None else desc_of k p f.
Proof.
  intros K. assert (G : forall s, desc_of (fst (kdo k q (C_close g) s)) p f = if (f =? g) && (p =? q) then None else desc_of k p f).
  { intros s. cbn [kdo]. destruct (desc_of k q g) as [e|] eqn:E; cbn [fst].
    - rewrite desc_of_del. destruct (N.eqb_spec f g) as [->|]; [|reflexivity]. cbn [andb].
      destruct (N.eqb_spec p q) as [->|X]; [reflexivity|].
      apply desc_of_find in E. unfold desc_of. rewrite E. destruct (N.eqb_spec p q); [contradiction|reflexivity].
    - destruct (N.eqb_spec f g) as [->|]; [|reflexivity]. cbn [andb].
      destruct (N.eqb_spec p q) as [->|X]; [exact E|reflexivity]. }
  destruct d as [|e|s]; cbn [ksys can_fail]; apply G.
Qed.

(** flock by the owner: a success changes the mode of that descriptor only. *)
Lemma flock_cases k q g m d :
  kinv k ->
  (exists e, ksys k q (C_flock g m) d = (k, R_err e)) \/
  (exists de, ksys k q (C_flock g m) d = (set_desc k q g (with_mode de m), R_ok) /\ desc_of k q g = Some de).
Proof.
  intros K.
  assert (G : forall s, (exists e, kdo k q (C_flock g m) s = (k, R_err e)) \/
    (exists de, kdo k q (C_flock g m) s = (set_desc k q g (with_mode de m), R_ok) /\ desc_of k q g = Some de)).
  { intros s. cbn [kdo]. destruct (desc_of k q g) as [de|]; [|eauto]. destruct (contended k g de m); eauto. }
  destruct d as [|e|s]; cbn [ksys can_fail]; [apply G|left; eauto|apply G].
Qed.

(** ** What a process holds *)
Definition lockish (d : desc) : bool := match d with D_obj _ | D_cgroup _ => false | _ => true end.
Definition neutral (k : kst) (p : pid) (f : fd) : Prop :=
  f < k_next k /\ forall d, desc_of k p f = Some d -> lockish d = false.

Record held (k : kst) (p : pid) (lk : lock) : Prop := {
  hl_bpffs : forall b, lk_bpffs lk = Some b -> desc_of k p b = Some D_bpffs;
  hl_pin : forall f, lk_pin lk = Some f -> desc_of k p f = Some (D_pindir (lk_pinmode lk));
  hl_chain : forall f n m, lk_chain lk = Some (f, n, m) ->
    m <> L_NONE /\ lk_pinmode lk <> L_NONE /\ lk_pin lk <> None /\
    exists i, desc_of k p f = Some (D_dir i m) /\ ent_find n (k_ents k) = Some i
}.

Record st (p : pid) (lk : lock) (S : fd -> Prop) (k : kst) : Prop := {
  st_inv : kinv k;
  st_held : held k p lk;
  st_neutral : forall f, S f -> neutral k p f
}.

Lemma held_pin_locked k p lk : held k p lk -> lk_pin lk <> None -> lk_pinmode lk <> L_NONE -> pin_locked k p.
Proof.
  intros H A B. destruct (lk_pin lk) as [f|] eqn:E; [|contradiction].
  exists f, (lk_pinmode lk). split; [apply (hl_pin _ _ _ H), E|exact B].
Qed.
Lemma held_pin_ex k p lk : held k p lk -> lk_pin lk <> None -> lk_pinmode lk = L_WRITE -> pin_ex k p.
Proof.
  intros H A B. destruct (lk_pin lk) as [f|] eqn:E; [|contradiction].
  exists f. rewrite <- B. apply (hl_pin _ _ _ H), E.
Qed.

Lemma desc_lt k p f d : kinv k -> desc_of k p f = Some d -> f < k_next k.
Proof. intros K H. apply desc_of_find in H. exact (ki_fd _ K _ _ H). Qed.

Lemma neutral_rely p k k' f : rely p k k' -> neutral k p f -> neutral k' p f.
Proof.
  intros R [A B]. split; [pose proof (re_next _ _ _ R); lia|].
  intros d. rewrite (re_desc _ _ _ R). apply B.
Qed.

Lemma st_rely p lk S k k' : rely p k k' -> st p lk S k -> st p lk S k'.
Proof.
  intros R [K H N]. constructor.
  - apply (re_inv _ _ _ R), K.
  - constructor.
    + intros b E. rewrite (re_desc _ _ _ R). apply (hl_bpffs _ _ _ H), E.
    + intros b E. rewrite (re_desc _ _ _ R). apply (hl_pin _ _ _ H), E.
    + intros f n m E. destruct (hl_chain _ _ _ H _ _ _ E) as (A & B & C & i & D & F).
      repeat (split; [assumption|]). exists i. rewrite (re_desc _ _ _ R). split; [exact D|].
      destruct (re_lock _ _ _ R K (held_pin_locked _ _ _ H C B) i) as [_ X].
      * exists f, m. split; assumption.
      * apply X, F.
  - intros f Hf. eapply neutral_rely; eauto.
Qed.

Lemma neutral_sys k p c d f : kinv k -> neutral k p f -> neutral (fst (ksys k p c d)) p f.
Proof.
  intros K [A B]. split; [pose proof (ksys_next k p c d); lia|].
  destruct (is_lockcall c) eqn:L.
  - destruct c; try discriminate L.
    + destruct (flock_cases k p f0 m d K) as [[e ->]|(de & -> & He)]; [exact B|].
      cbn [fst]. intros x. rewrite (desc_of_set _ _ _ _ _ _ _ He). destruct (N.eqb_spec f f0) as [->|]; [|apply B].
      rewrite N.eqb_refl. intros X. injection X as <-. specialize (B _ He). destruct de; try discriminate B; reflexivity.
    + intros x. rewrite close_desc by exact K. destruct ((f =? f0) && (p =? p)); [discriminate|apply B].
  - intros x. rewrite ksys_desc by assumption. apply B.
Qed.

(** Calls that touch neither entries nor locks. *)
Lemma st_sys p lk S k c d :
  is_lockcall c = false -> is_entcall c = false -> st p lk S k -> st p lk S (fst (ksys k p c d)).
Proof.
  intros L E [K H N]. constructor.
  - apply ksys_kinv, K.
  - constructor.
    + intros b X. apply (hl_bpffs _ _ _ H) in X. rewrite ksys_desc; eauto using desc_lt.
    + intros b X. apply (hl_pin _ _ _ H) in X. rewrite ksys_desc; eauto using desc_lt.
    + intros f n m X. destruct (hl_chain _ _ _ H _ _ _ X) as (A & B & C & i & D & F).
      repeat (split; [assumption|]). exists i. rewrite ksys_desc by eauto using desc_lt.
      rewrite ksys_ents by exact E. split; assumption.
  - intros f Hf. apply neutral_sys; auto.
Qed.

(** Calls on entries, while no chain is held. *)
Lemma st_sys_nochain p lk S k c d :
  is_lockcall c = false -> lk_chain lk = None -> st p lk S k -> st p lk S (fst (ksys k p c d)).
Proof.
  intros L E [K H N]. constructor.
  - apply ksys_kinv, K.
  - constructor.
    + intros b X. apply (hl_bpffs _ _ _ H) in X. rewrite ksys_desc; eauto using desc_lt.
    + intros b X. apply (hl_pin _ _ _ H) in X. rewrite ksys_desc; eauto using desc_lt.
    + intros f n m X. congruence.
  - intros f Hf. apply neutral_sys; auto.
Qed.

Definition not_held (lk : lock) (f : fd) : Prop :=
  lk_bpffs lk <> Some f /\ lk_pin lk <> Some f /\ (forall g n m, lk_chain lk = Some (g, n, m) -> g <> f).

Lemma st_close p lk S k f d : not_held lk f -> st p lk S k -> st p lk S (fst (ksys k p (C_close f) d)).
Proof.
  intros (N1 & N2 & N3) [K H N]. constructor.
  - apply ksys_kinv, K.
  - constructor.
    + intros b X. rewrite close_desc by exact K. destruct (N.eqb_spec b f) as [->|]; [contradiction|].
      apply (hl_bpffs _ _ _ H), X.
    + intros b X. rewrite close_desc by exact K. destruct (N.eqb_spec b f) as [->|]; [contradiction|].
      apply (hl_pin _ _ _ H), X.
    + intros g n m X. destruct (hl_chain _ _ _ H _ _ _ X) as (A & B & C & i & D & F).
      repeat (split; [assumption|]). exists i. rewrite close_desc by exact K.
      destruct (N.eqb_spec g f) as [->|]; [exfalso; eapply N3; eauto|].
      rewrite ksys_ents by reflexivity. split; assumption.
  - intros g Hg. apply neutral_sys; auto.
Qed.

Lemma neutral_not_held p lk S k f : st p lk S k -> neutral k p f -> not_held lk f.
Proof.
  intros [K H N] [A B]. repeat split.
  - intros X. apply (hl_bpffs _ _ _ H), B in X. discriminate X.
  - intros X. apply (hl_pin _ _ _ H), B in X. discriminate X.
  - intros g n m X ->. destruct (hl_chain _ _ _ H _ _ _ X) as (_ & _ & _ & i & D & _). apply B in D. discriminate D.
Qed.

(** A descriptor that is not among those the lock had when they were opened. *)
Lemma fresh_not_held p lk S k f : st p lk S k -> k_next k <= f -> not_held lk f.
Proof.
  intros [K H N] A. repeat split.
  - intros X. apply (hl_bpffs _ _ _ H), (desc_lt _ _ _ _ K) in X. lia.
  - intros X. apply (hl_pin _ _ _ H), (desc_lt _ _ _ _ K) in X. lia.
  - intros g n m X ->. destruct (hl_chain _ _ _ H _ _ _ X) as (_ & _ & _ & i & D & _). apply (desc_lt _ _ _ _ K) in D. lia.
Qed.

Lemma st_flock p lk S k f m d : not_held lk f -> st p lk S k -> st p lk S (fst (ksys k p (C_flock f m) d)).
Proof.
  intros (N1 & N2 & N3) [K H N]. constructor.
  - apply ksys_kinv, K.
  - destruct (flock_cases k p f m d K) as [[e ->]|(de & -> & He)]; [exact H|]. cbn [fst].
    constructor.
    + intros b X. rewrite (desc_of_set _ _ _ _ _ _ _ He). destruct (N.eqb_spec b f) as [->|]; [contradiction|].
      apply (hl_bpffs _ _ _ H), X.
    + intros b X. rewrite (desc_of_set _ _ _ _ _ _ _ He). destruct (N.eqb_spec b f) as [->|]; [contradiction|].
      apply (hl_pin _ _ _ H), X.
    + intros g n m' X. destruct (hl_chain _ _ _ H _ _ _ X) as (A & B & C & i & D & F).
      repeat (split; [assumption|]). exists i. rewrite (desc_of_set _ _ _ _ _ _ _ He).
      destruct (N.eqb_spec g f) as [->|]; [exfalso; eapply N3; eauto|]. split; assumption.
  - intros g Hg. apply neutral_sys; auto.
Qed.

(** ** Stepping *)
Lemma wpc_ret {A} p (a : A) (Q : A -> kst -> Prop) k : (forall k1, rely p k k1 -> Q a k1) -> wpc p (Ret a) Q k.
Proof. intros H. exact H. Qed.
Lemma wpc_do {A} p c (f : reply -> prog A) (Q : A -> kst -> Prop) k :
  (forall k1, rely p k k1 -> allowed k1 p c /\ forall d, wpc p (f (snd (ksys k1 p c d))) Q (fst (ksys k1 p c d))) ->
  wpc p (Do c f) Q k.
Proof. intros H. exact H. Qed.

(** A call without requirement whose effect keeps [st]. *)
Lemma wpc_sys_ p lk S k c :
  allowed k p c = True -> is_lockcall c = false -> (forall k, allowed k p c = True) ->
  (is_entcall c = false \/ lk_chain lk = None) -> st p lk S k ->
  wpc p (sys_ c) (fun _ k' => st p lk S k') k.
Proof.
  intros _ L A E H. cbn [sys_ wpc]. intros k1 R. split; [rewrite A; exact Logic.I|].
  intros d k2 R2. eapply st_rely; [exact R2|].
  destruct E as [E|E].
  - apply st_sys; auto. eapply st_rely; eauto.
  - apply st_sys_nochain; auto. eapply st_rely; eauto.
Qed.

Lemma wpc_close p lk S k f : not_held lk f -> st p lk S k -> wpc p (sys_ (C_close f)) (fun _ k' => st p lk S k') k.
Proof.
  intros N H. cbn [sys_ wpc]. intros k1 R. split; [exact Logic.I|].
  intros d k2 R2. eapply st_rely; [exact R2|]. apply st_close; auto. eapply st_rely; eauto.
Qed.

(** ** The tree, under the exclusive lock of the pin directory *)
Record treeq (p : pid) (k k' : kst) : Prop := {
  tq_ents : k_ents k' = k_ents k;
  tq_dirs : forall i, k_dirs k' i = k_dirs k i;
  tq_alone : forall i, alone k p i -> alone k' p i;
  tq_next : k_next k <= k_next k'
}.
Definition wl (lk : lock) : Prop := lk_pin lk <> None /\ lk_pinmode lk = L_WRITE.
Definition rl (lk : lock) : Prop := lk_pin lk <> None /\ lk_pinmode lk <> L_NONE.

Lemma wl_rl lk : wl lk -> rl lk.
Proof. intros [A B]. split; [exact A|]. rewrite B. discriminate. Qed.
Lemma st_ex p lk S k : st p lk S k -> wl lk -> pin_ex k p.
Proof. intros H [A B]. exact (held_pin_ex _ _ _ (st_held _ _ _ _ H) A B). Qed.
Lemma st_locked p lk S k : st p lk S k -> rl lk -> pin_locked k p.
Proof. intros H [A B]. exact (held_pin_locked _ _ _ (st_held _ _ _ _ H) A B). Qed.

Lemma treeq_refl p k : treeq p k k.
Proof. constructor; auto. lia. Qed.
Lemma treeq_trans p a b c : treeq p a b -> treeq p b c -> treeq p a c.
Proof.
  intros [A B C D] [A' B' C' D']. constructor; [congruence| |auto|lia]. intros i. rewrite B'. apply B.
Qed.
Lemma treeq_rely p lk S k k' : st p lk S k -> wl lk -> rely p k k' -> treeq p k k'.
Proof.
  intros H W R. destruct (re_ex _ _ _ R (st_inv _ _ _ _ H) (st_ex _ _ _ _ H W)) as (A & B & C).
  constructor; auto; [|apply (re_next _ _ _ R)]. intros i X q f m D. destruct (N.eq_dec q p) as [->|Hq]; [reflexivity|].
  destruct (C _ _ _ _ Hq D) as [m' D']. exact (X _ _ _ D').
Qed.

(** A descriptor of a directory after an own call was there before, or is mine. *)
Lemma ksys_alone k p c d i : kinv k -> alone k p i -> alone (fst (ksys k p c d)) p i.
Proof.
  intros K X q f m D.
  destruct (N.eq_dec q p) as [->|Hq]; [reflexivity|].
  destruct (is_lockcall c) eqn:L.
  - destruct c; try discriminate L.
    + destruct (flock_cases k p f0 m0 d K) as [[e He]|(de & He & Hd)]; rewrite He in D; cbn [fst] in D; [exact (X _ _ _ D)|].
      rewrite (desc_of_set _ _ _ _ _ _ _ Hd) in D. destruct (f =? f0); [|exact (X _ _ _ D)].
      destruct (N.eqb_spec q p); [contradiction|discriminate D].
    + rewrite close_desc in D by exact K. destruct ((f =? f0) && (q =? p)); [discriminate D|exact (X _ _ _ D)].
  - destruct (N.lt_ge_cases f (k_next k)) as [Hf|Hf].
    + rewrite ksys_desc in D by assumption. exact (X _ _ _ D).
    + destruct (ksys_kdo k p c d) as [E|[s E]]; rewrite E in D; [exact (X _ _ _ D)|]. clear E.
      apply desc_of_find in D.
      destruct c; try discriminate L; cbn [kdo] in D;
      repeat match type of D with
      | context [match ?x with _ => _ end] => destruct x
      | context [if ?x then _ else _] => destruct x
      end; cbn [fst new_fd new_obj with_next with_fds with_obj with_dir with_ents k_fds fd_find k_next] in D;
      try (pose proof (ki_fd _ K _ _ D); lia);
      repeat match type of D with
      | context [if ?a =? ?b then _ else _] => destruct (a =? b)
      end; try (injection D; intros; congruence); try (pose proof (ki_fd _ K _ _ D); lia).
Qed.

Lemma treeq_sys k p c d : kinv k -> is_entcall c = false -> is_dircall c = false -> treeq p k (fst (ksys k p c d)).
Proof.
  intros K E D. constructor.
  - apply ksys_ents, E.
  - intros i. rewrite ksys_dirs by exact D. reflexivity.
  - intros i. apply ksys_alone, K.
  - apply ksys_next.
Qed.

(** ** Single calls *)
Definition same (p : pid) (lk : lock) (k k' : kst) : Prop := wl lk -> treeq p k k'.
Lemma same_refl p lk k : same p lk k k.
Proof. intros _. apply treeq_refl. Qed.
Lemma same_trans p lk a b c : same p lk a b -> same p lk b c -> same p lk a c.
Proof. intros A B W. eapply treeq_trans; [apply A, W|apply B, W]. Qed.
Lemma same_rely p lk S k k' : st p lk S k -> rely p k k' -> same p lk k k'.
Proof. intros H R W. eapply treeq_rely; eauto. Qed.

(** Calls that concern no entry, no directory content and no lock. *)
Definition is_plain (c : call) : bool := negb (is_lockcall c) && negb (is_entcall c) && negb (is_dircall c).

Lemma wpc_plain {A} p lk S k c (f : reply -> prog A) (Q : A -> kst -> Prop) :
  is_plain c = true -> st p lk S k ->
  (forall k1, st p lk S k1 -> same p lk k k1 -> allowed k1 p c) ->
  (forall k1 d, st p lk S k1 -> same p lk k k1 -> st p lk S (fst (ksys k1 p c d)) -> same p lk k (fst (ksys k1 p c d)) ->
     wpc p (f (snd (ksys k1 p c d))) Q (fst (ksys k1 p c d))) ->
  wpc p (Do c f) Q k.
Proof.
  unfold is_plain. intros P H HA HF. apply andb_prop in P. destruct P as [P P3]. apply andb_prop in P. destruct P as [P1 P2].
  apply negb_true_iff in P1, P2, P3.
  apply wpc_do. intros k1 R. pose proof (st_rely _ _ _ _ _ R H) as H1. pose proof (same_rely _ _ _ _ _ H R) as E1.
  split; [apply HA; assumption|]. intros d.
  apply HF; auto.
  - apply st_sys; auto.
  - eapply same_trans; [exact E1|]. intros _. apply treeq_sys; auto. apply (st_inv _ _ _ _ H1).
Qed.

Lemma wpc_ret_st {A} p lk S k (a : A) (Q : A -> kst -> Prop) :
  st p lk S k -> (forall k1, st p lk S k1 -> same p lk k k1 -> rely p k k1 -> Q a k1) -> wpc p (Ret a) Q k.
Proof.
  intros H HQ. apply wpc_ret. intros k1 R. apply HQ; auto.
  - eapply st_rely; eauto.
  - eapply same_rely; eauto.
Qed.

Lemma wpc_close' {A} p lk S k f (Q : A -> kst -> Prop) (m : unit -> prog A) :
  not_held lk f -> st p lk S k ->
  (forall k1, st p lk S k1 -> same p lk k k1 -> wpc p (m tt) Q k1) ->
  wpc p (pbind (sys_ (C_close f)) m) Q k.
Proof.
  intros N H HQ. apply wpc_do. intros k1 R. pose proof (st_rely _ _ _ _ _ R H) as H1.
  split; [exact Logic.I|]. intros d. cbn [pbind].
  apply HQ.
  - apply st_close; auto.
  - eapply same_trans; [eapply same_rely; eauto|]. intros _. apply treeq_sys; auto. apply (st_inv _ _ _ _ H1).
Qed.

Lemma opendir_cases k p pd n d :
  kinv k ->
  (exists e, ksys k p (C_opendir pd n) d = (k, R_err e)) \/
  (exists i, ksys k p (C_opendir pd n) d = new_fd k p (D_dir i L_NONE) /\ ent_find n (k_ents k) = Some i).
Proof.
  intros K.
  assert (G : forall s, (exists e, kdo k p (C_opendir pd n) s = (k, R_err e)) \/
    (exists i, kdo k p (C_opendir pd n) s = new_fd k p (D_dir i L_NONE) /\ ent_find n (k_ents k) = Some i)).
  { intros s. cbn [kdo]. destruct (negb (is_pindir k p pd)); [eauto|]. destruct (ent_find n (k_ents k)); eauto. }
  destruct d as [|e|s]; cbn [ksys can_fail]; [apply G|left; eauto|apply G].
Qed.

(** A descriptor of a directory that the process has just opened, not yet locked. *)
Lemma wpc_opendir p lk S k pd n :
  st p lk S k -> rl lk ->
  wpc p (sys_fd (C_opendir pd n))
    (fun r k' => st p lk S k' /\ same p lk k k' /\
       match r with
       | Ok f => not_held lk f /\ exists i, desc_of k' p f = Some (D_dir i L_NONE) /\
                                  (wl lk -> ent_find n (k_ents k) = Some i)
       | Er _ => True
       end) k.
Proof.
  intros H W. unfold sys_fd. eapply wpc_plain; [reflexivity|exact H| |].
  - intros k1 H1 _. exact (st_locked _ _ _ _ H1 W).
  - intros k1 d H1 E1 H2 E2. destruct (opendir_cases k1 p pd n d (st_inv _ _ _ _ H1)) as [[e He]|(i & He & Hi)].
    + rewrite He in *. cbn [fst snd] in *. eapply wpc_ret_st; [exact H2|]. intros k2 H3 E3 _.
      split; [exact H3|]. split; [eapply same_trans; eassumption|exact Logic.I].
    + rewrite He in *. cbn [fst snd new_fd] in *. eapply wpc_ret_st; [exact H2|]. intros k2 H3 E3 R.
      split; [exact H3|]. split; [eapply same_trans; eassumption|].
      split; [eapply fresh_not_held; [exact H1|lia]|].
      exists i. split.
      * rewrite (re_desc _ _ _ R). unfold desc_of. cbn [with_next with_fds k_fds fd_find].
        rewrite !N.eqb_refl. reflexivity.
      * intros X. rewrite <- (tq_ents _ _ _ (E1 X)). exact Hi.
Qed.

(** Locking a descriptor that is not locked yet. *)
Lemma wpc_flock p lk S k f m i :
  st p lk S k -> not_held lk f -> desc_of k p f = Some (D_dir i L_NONE) ->
  wpc p (flock f m)
    (fun r k' => st p lk S k' /\ same p lk k k' /\
       match r with
       | Ok _ => desc_of k' p f = Some (D_dir i m)
       | Er _ => desc_of k' p f = Some (D_dir i L_NONE)
       end) k.
Proof.
  intros H N D. unfold flock.
  assert (G : wpc p (sys_unit (C_flock f m)) (fun r k' => st p lk S k' /\ same p lk k k' /\
       match r with
       | Ok _ => desc_of k' p f = Some (D_dir i m)
       | Er _ => desc_of k' p f = Some (D_dir i L_NONE)
       end) k).
  { apply wpc_do. intros k1 R. pose proof (st_rely _ _ _ _ _ R H) as H1. pose proof (same_rely _ _ _ _ _ H R) as E1.
    pose proof (st_inv _ _ _ _ H1) as K1.
    rewrite <- (re_desc _ _ _ R) in D. split.
    - intros d Hd. rewrite D in Hd. injection Hd as <-. reflexivity.
    - intros d. destruct (flock_cases k1 p f m d K1) as [[e He]|(de & He & Hd)].
      + rewrite He. cbn [fst snd]. eapply wpc_ret_st; [exact H1|]. intros k2 H2 E2 R2.
        split; [exact H2|]. split; [eapply same_trans; eassumption|]. rewrite (re_desc _ _ _ R2). exact D.
      + rewrite D in Hd. injection Hd as <-.
        pose proof (st_flock _ _ _ _ _ m d N H1) as H2.
        assert (E2 : same p lk k1 (fst (ksys k1 p (C_flock f m) d))) by (intros _; apply treeq_sys; auto).
        rewrite He in *. cbn [fst snd] in *. eapply wpc_ret_st; [exact H2|]. intros k2 H3 E3 R2.
        split; [exact H3|]. split; [eapply same_trans; [exact E1|eapply same_trans; eassumption]|].
        rewrite (re_desc _ _ _ R2), (desc_of_set _ _ _ _ _ _ _ D), !N.eqb_refl. reflexivity. }
  destruct m; [|exact G|exact G].
  eapply wpc_ret_st; [exact H|]. intros k1 H1 E1 R. split; [exact H1|]. split; [exact E1|].
  rewrite (re_desc _ _ _ R). exact D.
Qed.

(** ** Creating a directory *)
Record staged (p : pid) (k k' : kst) (s : name) (i : ino) : Prop := {
  sg_ents : k_ents k' = (s, i) :: k_ents k;
  sg_new : ent_find s (k_ents k) = None;
  sg_empty : k_dirs k' i = [];
  sg_dirs : forall j, j < k_next k -> k_dirs k' j = k_dirs k j;
  sg_alone : alone k' p i;
  sg_fresh : k_next k <= i;
  sg_name : is_staging s = true;
  sg_next : k_next k <= k_next k'
}.

Lemma staged_after p k k1 k2 s i : staged p k k1 s i -> treeq p k1 k2 -> staged p k k2 s i.
Proof.
  intros [A B C D E F G H] [A' B' C' D']. constructor; auto.
  - congruence.
  - rewrite B'. exact C.
  - intros j Hj. rewrite B'. apply D, Hj.
  - lia.
Qed.
Lemma staged_before p k0 k k1 s i : treeq p k0 k -> staged p k k1 s i -> staged p k0 k1 s i.
Proof.
  intros [A' B' C' D'] [A B C D E F G H]. constructor; auto.
  - congruence.
  - congruence.
  - intros j Hj. rewrite D by lia. apply B'.
  - lia.
  - lia.
Qed.

Lemma staging_prefix_ok s : is_staging (staging_prefix ++ s) = true.
Proof. unfold is_staging, staging_prefix. cbn. reflexivity. Qed.

Lemma mkdir_cases k p pd n d :
  (exists e, ksys k p (C_mkdir pd n) d = (k, R_err e)) \/
  (ksys k p (C_mkdir pd n) d = (with_next (with_dir (with_ents k ((n, k_next k) :: k_ents k)) (k_next k) []), R_ok) /\
   ent_find n (k_ents k) = None).
Proof.
  assert (G : forall s, (exists e, kdo k p (C_mkdir pd n) s = (k, R_err e)) \/
    (kdo k p (C_mkdir pd n) s = (with_next (with_dir (with_ents k ((n, k_next k) :: k_ents k)) (k_next k) []), R_ok) /\
     ent_find n (k_ents k) = None)).
  { intros s. cbn [kdo]. destruct (negb (is_pindir k p pd)); [eauto|]. destruct (ent_find n (k_ents k)); eauto. }
  destruct d as [|e|s]; cbn [ksys can_fail]; [apply G|left; eauto|apply G].
Qed.

Lemma wpc_make_staging p lk S pd : wl lk -> lk_chain lk = None -> forall n k,
  st p lk S k ->
  wpc p (make_staging n pd)
    (fun r k' => st p lk S k' /\
       match r with
       | Ok s => exists i, staged p k k' s i
       | Er _ => treeq p k k'
       end) k.
Proof.
  intros W NC. induction n as [|n IH]; intros k H; cbn [make_staging].
  - eapply wpc_ret_st; [exact H|]. intros k1 H1 E1 _. split; [exact H1|apply E1, W].
  - eapply wpc_plain; [reflexivity|exact H| |].
    { intros; exact Logic.I. }
    intros k1 d H1 E1 H2 E2.
    assert (X : exists s, snd (ksys k1 p C_staging_name d) = R_name (staging_prefix ++ s)).
    { destruct d as [|e|s]; cbn [ksys can_fail kdo snd]; eauto. }
    destruct X as [s X]. rewrite X. set (k2 := fst (ksys k1 p C_staging_name d)) in *. clearbody k2. clear X E1 H1.
    apply wpc_do. intros k3 R. pose proof (st_rely _ _ _ _ _ R H2) as H3. pose proof (same_rely _ _ _ _ _ H2 R) as E3.
    pose proof (treeq_trans _ _ _ _ (E2 W) (E3 W)) as T3.
    split; [split; [exact (st_ex _ _ _ _ H3 W)|apply staging_prefix_ok]|]. intros d3.
    pose proof (st_sys_nochain p lk S k3 (C_mkdir pd (staging_prefix ++ s)) d3 eq_refl NC H3) as H4.
    pose proof (ksys_alone k3 p (C_mkdir pd (staging_prefix ++ s)) d3 (k_next k3) (st_inv _ _ _ _ H3)) as AL.
    destruct (mkdir_cases k3 p pd (staging_prefix ++ s) d3) as [[e He]|[He Hn]]; rewrite He in *; cbn [fst snd pbind] in *.
    + destruct (e =? EEXIST).
      * eapply wpc_post; [|apply IH; exact H3]. intros [s'|e'] k' (A & B); (split; [exact A|]).
        -- destruct B as [i B]. exists i. eapply staged_before; eassumption.
        -- eapply treeq_trans; eassumption.
      * eapply wpc_ret_st; [exact H3|]. intros k4 H5 E5 _. split; [exact H5|].
        eapply treeq_trans; [exact T3|apply E5, W].
    + eapply wpc_ret_st; [exact H4|]. intros k4 H5 E5 _. split; [exact H5|].
      exists (k_next k3). eapply staged_after; [|apply E5, W].
      eapply staged_before; [exact T3|].
      constructor; cbn [with_next with_dir with_ents k_ents k_dirs k_next].
      * reflexivity.
      * exact Hn.
      * unfold updN. rewrite N.eqb_refl. reflexivity.
      * intros j Hj. unfold updN. destruct (N.eqb_spec j (k_next k3)); [lia|reflexivity].
      * apply AL. intros q f m D. apply desc_of_find in D. pose proof (ki_dir _ (st_inv _ _ _ _ H3) _ _ _ _ D). lia.
      * lia.
      * apply staging_prefix_ok.
      * lia.
Qed.

Lemma rmdir_cases k p pd n d :
  (exists e, ksys k p (C_rmdir pd n) d = (k, R_err e)) \/
  (exists i, ksys k p (C_rmdir pd n) d = (with_ents k (ent_del n (k_ents k)), R_ok) /\
   ent_find n (k_ents k) = Some i /\ k_dirs k i = []).
Proof.
  assert (G : forall s, (exists e, kdo k p (C_rmdir pd n) s = (k, R_err e)) \/
    (exists i, kdo k p (C_rmdir pd n) s = (with_ents k (ent_del n (k_ents k)), R_ok) /\
     ent_find n (k_ents k) = Some i /\ k_dirs k i = [])).
  { intros s. cbn [kdo]. destruct (negb (is_pindir k p pd)); [eauto|]. destruct (ent_find n (k_ents k)) as [i|] eqn:E; [|eauto].
    destruct (k_dirs k i) eqn:F; [|eauto]. right. exists i. repeat split. exact F. }
  destruct d as [|e|s]; cbn [ksys can_fail]; apply G.
Qed.

(** The tree is as before: entries, and the contents of the directories that existed. *)
Record treeold (k k' : kst) : Prop := {
  to_ents : k_ents k' = k_ents k;
  to_dirs : forall j, j < k_next k -> k_dirs k' j = k_dirs k j;
  to_next : k_next k <= k_next k'
}.
Lemma treeq_old p k k' : treeq p k k' -> treeold k k'.
Proof. intros [A B C D]. constructor; auto. Qed.
Lemma treeold_trans a b c : treeold a b -> treeold b c -> treeold a c.
Proof. intros [A B C] [A' B' C']. constructor; [congruence| |lia]. intros j Hj. rewrite B' by lia. apply B, Hj. Qed.

Lemma is_pindir_st p lk S k pd : st p lk S k -> lk_pin lk = Some pd -> is_pindir k p pd = true.
Proof. intros H E. unfold is_pindir. rewrite (hl_pin _ _ _ (st_held _ _ _ _ H) _ E). reflexivity. Qed.

(** Removing the staging directory that this process created. *)
Lemma wpc_unstage {A} p lk S k0 k pd s i (m : unit -> prog A) (Q : A -> kst -> Prop) :
  wl lk -> lk_chain lk = None -> lk_pin lk = Some pd -> st p lk S k -> staged p k0 k s i ->
  (forall k1, st p lk S k1 -> treeold k0 k1 -> wpc p (m tt) Q k1) ->
  wpc p (pbind (sys_ (C_rmdir pd s)) m) Q k.
Proof.
  intros W NC PD H G HQ. apply wpc_do. intros k1 R. pose proof (st_rely _ _ _ _ _ R H) as H1.
  pose proof (staged_after _ _ _ _ _ _ G (treeq_rely _ _ _ _ _ H W R)) as G1.
  split.
  - split; [exact (pin_ex_locked _ _ (st_ex _ _ _ _ H1 W))|]. intros j Hj. right.
    split; [exact (st_ex _ _ _ _ H1 W)|]. rewrite (sg_ents _ _ _ _ _ G1) in Hj. cbn [ent_find] in Hj.
    rewrite name_eqb_refl in Hj. injection Hj as <-. exact (sg_alone _ _ _ _ _ G1).
  - intros d. cbn [pbind].
    pose proof (st_sys_nochain p lk S k1 (C_rmdir pd s) d eq_refl NC H1) as H2.
    apply HQ; [exact H2|].
    assert (D : forall x, kdo k1 p (C_rmdir pd s) x = (with_ents k1 (ent_del s (k_ents k1)), R_ok)).
    { intros x. cbn [kdo]. rewrite (is_pindir_st _ _ _ _ _ H1 PD). cbn [negb].
      rewrite (sg_ents _ _ _ _ _ G1) at 1. cbn [ent_find]. rewrite name_eqb_refl.
      rewrite (sg_empty _ _ _ _ _ G1). reflexivity. }
    assert (X : ksys k1 p (C_rmdir pd s) d = (with_ents k1 (ent_del s (k_ents k1)), R_ok)).
    { destruct d as [|e|x]; cbn [ksys can_fail]; apply D. }
    rewrite X. cbn [fst].
    constructor; cbn [with_ents k_ents k_dirs k_next].
    + rewrite (sg_ents _ _ _ _ _ G1). cbn [ent_del filter fst]. rewrite name_eqb_refl. cbn [negb].
      apply ent_del_none, (sg_new _ _ _ _ _ G1).
    + apply (sg_dirs _ _ _ _ _ G1).
    + apply (sg_next _ _ _ _ _ G1).
Qed.

Lemma rename_cases k p pd a b d :
  (exists e, ksys k p (C_rename pd a b) d = (k, R_err e)) \/
  (exists i, ksys k p (C_rename pd a b) d = (with_ents k ((b, i) :: ent_del a (k_ents k)), R_ok) /\
   ent_find a (k_ents k) = Some i /\ ent_find b (k_ents k) = None).
Proof.
  assert (G : forall s, (exists e, kdo k p (C_rename pd a b) s = (k, R_err e)) \/
    (exists i, kdo k p (C_rename pd a b) s = (with_ents k ((b, i) :: ent_del a (k_ents k)), R_ok) /\
     ent_find a (k_ents k) = Some i /\ ent_find b (k_ents k) = None)).
  { intros s. cbn [kdo]. destruct (negb (is_pindir k p pd)); [eauto|]. destruct (ent_find a (k_ents k)); [|eauto].
    destruct (ent_find b (k_ents k)); [eauto|]. right. eauto. }
  destruct d as [|e|s]; cbn [ksys can_fail]; [apply G|left; eauto|apply G].
Qed.

(** The outcome of a creation: the new directory under its name, empty and locked; or
    the tree as it was. *)
Lemma wpc_stage_and_publish p lk S k pd n :
  wl lk -> lk_chain lk = None -> lk_pin lk = Some pd -> st p lk S k ->
  wpc p (stage_and_publish pd n)
    (fun r k' => st p lk S k' /\
       match r with
       | Ok f => not_held lk f /\ exists i, desc_of k' p f = Some (D_dir i L_WRITE) /\
                 k_ents k' = (n, i) :: k_ents k /\ ent_find n (k_ents k) = None /\ k_dirs k' i = [] /\
                 (forall j, j < k_next k -> k_dirs k' j = k_dirs k j) /\ k_next k <= i
       | Er _ => treeold k k'
       end) k.
Proof.
  intros W NC PD H. unfold stage_and_publish. apply wpc_bind.
  eapply wpc_post; [|exact (wpc_make_staging p lk S pd W NC 4 k H)].
  intros [s|e] k1 (H1 & B).
  2:{ eapply wpc_ret_st; [exact H1|]. intros k2 H2 E2 _. split; [exact H2|].
      eapply treeq_old, treeq_trans; [exact B|apply E2, W]. }
  destruct B as [i G]. apply wpc_bind.
  eapply wpc_post; [|exact (wpc_opendir p lk S k1 pd s H1 (wl_rl _ W))].
  intros [f|e] k2 (H2 & E2 & B); pose proof (staged_after _ _ _ _ _ _ G (E2 W)) as G2.
  2:{ eapply wpc_unstage; eauto. intros k3 H3 T3. eapply wpc_ret_st; [exact H3|]. intros k4 H4 E4 _.
      split; [exact H4|]. eapply treeold_trans; [exact T3|eapply treeq_old, E4, W]. }
  destruct B as (NH & j & Hd & Hj). specialize (Hj W). rewrite (sg_ents _ _ _ _ _ G) in Hj.
  cbn [ent_find] in Hj. rewrite name_eqb_refl in Hj. injection Hj as <-.
  apply wpc_bind. eapply wpc_post; [|exact (wpc_flock p lk S k2 f L_WRITE i H2 NH Hd)].
  intros [[]|e] k3 (H3 & E3 & B); pose proof (staged_after _ _ _ _ _ _ G2 (E3 W)) as G3.
  2:{ eapply wpc_unstage; eauto. intros k4 H4 T4. eapply wpc_close'; [exact NH|exact H4|].
      intros k5 H5 E5. eapply wpc_ret_st; [exact H5|]. intros k6 H6 E6 _.
      split; [exact H6|]. eapply treeold_trans; [exact T4|]. eapply treeold_trans; eapply treeq_old; [apply E5, W|apply E6, W]. }
  apply wpc_do. intros k4 R. pose proof (st_rely _ _ _ _ _ R H3) as H4.
  pose proof (staged_after _ _ _ _ _ _ G3 (treeq_rely _ _ _ _ _ H3 W R)) as G4.
  rewrite <- (re_desc _ _ _ R) in B.
  split.
  - split; [exact (st_ex _ _ _ _ H4 W)|]. split; [exact (sg_name _ _ _ _ _ G4)|]. exists i. rewrite (sg_ents _ _ _ _ _ G4). cbn [ent_find].
    rewrite name_eqb_refl. split; [reflexivity|]. split; [exists f; exact B|exact (sg_empty _ _ _ _ _ G4)].
  - intros d. pose proof (st_sys_nochain p lk S k4 (C_rename pd s n) d eq_refl NC H4) as H5.
    assert (D5 : desc_of (fst (ksys k4 p (C_rename pd s n) d)) p f = Some (D_dir i L_WRITE)).
    { rewrite ksys_desc; [exact B| |reflexivity]. eapply desc_lt; [exact (st_inv _ _ _ _ H4)|exact B]. }
    destruct (rename_cases k4 p pd s n d) as [[e He]|(j & He & Ha & Hb)]; rewrite He in *; cbn [fst snd pbind] in *.
    + eapply wpc_unstage; eauto. intros k5 H6 T5. eapply wpc_close'; [exact NH|exact H6|].
      intros k6 H7 E7. eapply wpc_ret_st; [exact H7|]. intros k8 H8 E8 _.
      split; [exact H8|]. eapply treeold_trans; [exact T5|]. eapply treeold_trans; eapply treeq_old; [apply E7, W|apply E8, W].
    + rewrite (sg_ents _ _ _ _ _ G4) in *. cbn [ent_find] in Ha, Hb. rewrite name_eqb_refl in Ha. injection Ha as <-.
      destruct (bytes_eqb n s); [discriminate Hb|].
      eapply wpc_ret_st; [exact H5|]. intros k6 H6 E6 R6. specialize (E6 W).
      split; [exact H6|]. split; [exact NH|]. exists i.
      rewrite (re_desc _ _ _ R6). split; [exact D5|].
      rewrite (tq_ents _ _ _ E6). rewrite (tq_dirs _ _ _ E6).
      cbn [with_ents k_ents k_dirs]. split.
      { cbn [ent_del filter fst]. rewrite name_eqb_refl. cbn [negb].
        f_equal. apply (ent_del_none s), (sg_new _ _ _ _ _ G4). }
      split; [exact Hb|]. split; [exact (sg_empty _ _ _ _ _ G4)|]. split.
      { intros j Hj. rewrite (tq_dirs _ _ _ E6). cbn [with_ents k_dirs]. exact (sg_dirs _ _ _ _ _ G4 j Hj). }
      exact (sg_fresh _ _ _ _ _ G4).
Qed.
