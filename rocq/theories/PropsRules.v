(** C44, and C33 for rulesets: what bf_ruleset_flush and bf_ruleset_set leave behind. *)
From Coq Require Import String NArith ZArith List Bool Lia.
From Verif Require Import Bytes Types World BpfModel GenModel StrModel SetModel MapModel PackModel PackSpec HookModel KernModel LockModel CtlModel SysSpec SysFacts SeqFacts CtlSpec HistSpec HistFacts CtlFacts CountFacts UpdSpec UpdSetFacts HistInv IsolFacts LockSeqFacts LoadFacts RulesetSum PropsPack PropsConc PropsCtl PropsCtl2 PropsUpd.
Import ListNotations.
Local Open Scope N_scope.

(** ** C44 *)

(** When no system call fails and there is memory, bf_ruleset_flush succeeds, whatever
    happened before; then no directory holds a chain, and of each chain that was there the
    pins are removed, the links are detached and the directory is removed (unless it holds
    something else); no descriptor stays open. *)
Theorem C44_flush_partial : forall p mm k r k', history no_update k -> (forall j, plenty (mm j)) -> all_modest k ->
  ends no_fault p (ruleset_flush mm) k r k' ->
  r = Ok tt /\ (forall n i, ent_find n (k_ents k') = Some i -> pin k' i P_ctx = None) /\
  (forall n i c hd, ent_find n (k_ents k) = Some i -> holds_chain k i c hd ->
    (forall q, q = P_ctx \/ In q (pin_names hd) -> pin k' i q = None) /\
    (forall o, hd_link hd <> None -> pin k i P_link = Some o \/ pin k i P_link_extra = Some o -> detached k' o) /\
    (tidy k i -> ent_find n (k_ents k') = None)) /\ forall f, fd_find f (k_fds k') = None.
Proof.
  intros p mm k r k' H PL MD EN. destruct (flush_all_gone p mm k r k' H PL MD EN) as (A & [B C] & D). split; [exact A|]. split; [exact B|]. split; [exact C|exact D].
Qed.
Print Assumptions C44_flush_partial.

(** A second chain, for a machine with two: "edge" at interface 5 and "lan", not attached. *)
Definition ex_lan : nchain :=
  match nchain_new (lit "lan") 0 0 [ex_set; ex_set2] ex_rules with Ok c => c | Er _ => mkNC [] [] (mkC H_XDP V_ACCEPT [] [] false false false) end.
Lemma ex_lan_usual : usual ex_lan.
Proof.
  split.
  - destruct (nchain_new (lit "lan") 0 0 [ex_set; ex_set2] ex_rules) as [c|] eqn:E; [|vm_compute in E; discriminate E].
    assert (ex_lan = c) as ->. { unfold ex_lan. now rewrite E. } eapply CB_new. exact E.
  - split; [|reflexivity]. constructor.
    + vm_compute. intuition discriminate.
    + assert (nc_sets ex_lan = [ex_set; ex_set2]) as -> by (vm_compute; reflexivity).
      constructor; [split; [exact ex_set_reachable|vm_compute; intuition discriminate]|].
      constructor; [split; [exact ex_set2_reachable|vm_compute; exact Logic.I]|constructor].
    + apply Forall_forall. intros r Hr. vm_compute in Hr. destruct Hr as [<-|[<-|[]]]; unfold rule_in_range;
        (split; [vm_compute; reflexivity|split; [vm_compute; reflexivity|split; [vm_compute; reflexivity|split; [vm_compute; reflexivity|]]]]); repeat constructor; discriminate.
    + vm_compute. reflexivity.
Qed.
Lemma ex_modest c : nc_sets c = [ex_set; ex_set2] -> modest c.
Proof. intros E. unfold modest. rewrite E. repeat constructor; intros l X; vm_compute in X; injection X as <-; vm_compute; reflexivity. Qed.
Lemma ex_sets c : c = ex_nchain \/ c = ex_nchain2 \/ c = ex_lan -> nc_sets c = [ex_set; ex_set2].
Proof. intros [ -> | [ -> | -> ]]; vm_compute; reflexivity. Qed.
Lemma ex_loadable2 c : c = ex_nchain2 \/ c = ex_lan -> usual c -> loadable c.
Proof.
  intros H U. split; [exact U|]. split; [|split].
  - destruct (gen_program (nc_chain c)) as [img|e] eqn:E; [exists img; reflexivity|]. destruct H as [ -> | -> ]; vm_compute in E; discriminate E.
  - destruct H as [ -> | -> ]; vm_compute; repeat constructor; intros []; discriminate.
  - apply ex_modest, ex_sets. tauto.
Qed.
Lemma one_dir_modest k c0 hd0 : (forall j, j <> 12 -> k_dirs k j = []) -> holds_chain k 12 c0 hd0 -> modest c0 -> all_modest k.
Proof.
  intros D H0 M n i c hd EN HC. assert (i = 12).
  { destruct (N.eq_dec i 12) as [->|NE]; [reflexivity|]. destruct HC as ((o & t & A & _) & _). unfold pin in A. rewrite (D i NE) in A. discriminate A. }
  subst i. exact (held_modest _ _ _ _ _ _ H0 HC M).
Qed.
Lemma ex_all_modest : all_modest (closed 1 ex_k2).
Proof.
  refine (one_dir_modest _ _ _ _ ex_held2 (ex_modest _ (ex_sets ex_nchain (or_introl eq_refl)))).
  intros j NE. rewrite closed_dirs. exact (ex_dirs2 j NE).
Qed.
Example C44_flush_example : exists k', ends no_fault 2 (ruleset_flush (fun _ => ex_mem)) (closed 1 ex_k2) (Ok tt) k' /\
  history no_update (closed 1 ex_k2) /\ (forall j : nat, plenty ((fun _ => ex_mem) j)) /\ all_modest (closed 1 ex_k2) /\
  holds_chain (closed 1 ex_k2) 12 ex_nchain ex_hd2 /\ tidy (closed 1 ex_k2) 12.
Proof.
  exists (snd (solo 2 (ruleset_flush (fun _ => ex_mem)) (closed 1 ex_k2))). split.
  - assert (X : fst (solo 2 (ruleset_flush (fun _ => ex_mem)) (closed 1 ex_k2)) = Ok tt) by (vm_compute; reflexivity). rewrite <- X. apply solo_ends.
  - split; [exact ex_h2p|]. split; [intros j; exact ex_plenty|]. split; [exact ex_all_modest|]. split; [exact ex_held2|exact ex_tidy2].
Qed.

(** The property is false as it stands: bf_ruleset_flush reports success although it left
    a chain it could have read, with its link still attached, because
    BPF_OBJ_GET failed for want of memory: chains that can not be restored are skipped. *)
Definition ex_noget (c : call) : bool := match c with C_get _ _ => true | _ => false end.
Theorem C44_flush_refuted : ~ (forall F p mm k k', history no_update k -> (forall j, plenty (mm j)) -> all_modest k ->
  ends F p (ruleset_flush mm) k (Ok tt) k' ->
  forall n i, ent_find n (k_ents k') = Some i -> pin k' i P_ctx = None).
Proof.
  intros H. set (k' := snd (spoil ex_noget ENOMEM 2 (ruleset_flush (fun _ => ex_mem)) (closed 1 ex_k2))).
  assert (X : fst (spoil ex_noget ENOMEM 2 (ruleset_flush (fun _ => ex_mem)) (closed 1 ex_k2)) = Ok tt) by (vm_compute; reflexivity).
  assert (EN : ends ex_noget 2 (ruleset_flush (fun _ => ex_mem)) (closed 1 ex_k2) (Ok tt) k').
  { rewrite <- X. unfold k'. apply spoil_ends. }
  pose proof (H _ _ _ _ _ ex_h2p (fun _ => ex_plenty) ex_all_modest EN ex_edge 12) as Y.
  assert (Z : ent_find ex_edge (k_ents k') = Some 12 /\ pin k' 12 P_ctx = Some 40) by (vm_compute; auto). destruct Z as (Z1 & Z2). specialize (Y Z1). congruence.
Qed.
Print Assumptions C44_flush_refuted.

(** If bf_ruleset_set succeeds, all the chains that were given are there, complete, each
    with the options that were given for it, whatever calls failed on the way. *)
Theorem C44_set_places : forall F p m1 m2 m3 cs os k k', history no_update k -> Forall usual cs ->
  ends F p (ruleset_set m1 m2 m3 cs os) k (Ok tt) k' ->
  length cs = length os /\ forall c o, In (c, o) (combine cs os) ->
    exists i hd, ent_find (nc_name c) (k_ents k') = Some i /\ holds_chain k' i c hd /\ tidy k' i /\
      (hook_flavor (c_hook (nc_chain c)) <> F_CGROUP_SKB -> hook_flavor (c_hook (nc_chain c)) <> F_SOCK_ADDR -> desc_opts hd = o).
Proof.
  intros F p m1 m2 m3 cs os k k' H US EN. destruct (ruleset_set_done F p m1 m2 m3 cs os k k' H US EN) as (LE & A). split; [exact LE|].
  intros c o X. destruct (A c o X) as (i & hd & EI & HC & AS & TD). exists i, hd. split; [exact EI|]. split; [exact HC|]. split; [exact TD|]. intros N1 N2.
  unfold as_asked in AS. unfold desc_opts. destruct o as [o|]; [|rewrite AS; reflexivity].
  destruct AS as [AS|(_ & Y & _)]; [rewrite AS; reflexivity|]. unfold AttachFacts.is_cgroup in Y. destruct (hook_flavor (c_hook (nc_chain c))); tauto || congruence.
Qed.
Print Assumptions C44_set_places.

(** ... and, if no call failed, no other chain is: those that were there before are gone. *)
Theorem C44_set_exact_partial : forall p m1 m2 m3 cs os k k', history no_update k -> Forall usual cs -> (forall j, plenty (m1 j)) -> all_modest k ->
  ends no_fault p (ruleset_set m1 m2 m3 cs os) k (Ok tt) k' ->
  forall n i, ent_find n (k_ents k') = Some i -> pin k' i P_ctx <> None -> exists c, In c cs /\ nc_name c = n.
Proof. exact ruleset_set_exact. Qed.
Print Assumptions C44_set_exact_partial.

(** If bf_ruleset_set fails although no system call did, no chain at all is left (or
    nothing was done, for lists of different lengths). *)
Theorem C44_set_failure_partial : forall p m1 m2 m3 cs os k e k', history no_update k -> Forall usual cs -> Forall modest cs -> (forall j, plenty (m3 j)) -> all_modest k ->
  ends no_fault p (ruleset_set m1 m2 m3 cs os) k (Er e) k' ->
  length cs <> length os \/ forall n i, ent_find n (k_ents k') = Some i -> pin k' i P_ctx = None.
Proof. exact ruleset_set_failed. Qed.
Print Assumptions C44_set_failure_partial.

(** It succeeds for chains that can be loaded, of different names, if the directories of
    those names hold nothing but a chain. *)
Theorem C44_set_succeeds : forall p m1 m2 m3 cs os k, history no_update k -> at_rest k -> Forall loadable cs -> NoDup (map nc_name cs) -> length cs = length os ->
  (forall j, plenty (m1 j)) -> (forall j, plenty (m2 j)) -> all_modest k ->
  (forall c i, In c cs -> ent_find (nc_name c) (k_ents k) = Some i -> tidy k i) ->
  fst (solo p (ruleset_set m1 m2 m3 cs os) k) = Ok tt.
Proof. exact ruleset_set_works. Qed.
Print Assumptions C44_set_succeeds.

Definition ex_rs : prog (res unit) := ruleset_set (fun _ => ex_mem) (fun _ => ex_mem) (fun _ => ex_mem) [ex_nchain2; ex_lan] [Some ex_opts; None].
Example C44_set_example : exists k', ends no_fault 2 ex_rs (closed 1 ex_k2) (Ok tt) k' /\ history no_update (closed 1 ex_k2) /\ at_rest (closed 1 ex_k2) /\
  Forall loadable [ex_nchain2; ex_lan] /\ NoDup (map nc_name [ex_nchain2; ex_lan]) /\ all_modest (closed 1 ex_k2) /\
  (forall c i, In c [ex_nchain2; ex_lan] -> ent_find (nc_name c) (k_ents (closed 1 ex_k2)) = Some i -> tidy (closed 1 ex_k2) i).
Proof.
  exists (snd (solo 2 ex_rs (closed 1 ex_k2))). split.
  - assert (X : fst (solo 2 ex_rs (closed 1 ex_k2)) = Ok tt) by (vm_compute; reflexivity). rewrite <- X. apply solo_ends.
  - split; [exact ex_h2p|]. split; [split; [vm_compute; reflexivity|]|].
    + intros s IS. assert (E : k_ents (closed 1 ex_k2) = [(ex_edge, 12)]) by (vm_compute; reflexivity). rewrite E. cbn [ent_find]. destruct (Bytes.bytes_eqb s ex_edge) eqn:B; [|reflexivity].
      apply BytesFacts.bytes_eqb_eq in B. subst s. vm_compute in IS. discriminate IS.
    + split; [constructor; [apply ex_loadable2; [auto|exact ex_nchain2_usual]|constructor; [apply ex_loadable2; [auto|exact ex_lan_usual]|constructor]]|].
      split; [vm_compute; repeat constructor; intros [X|[]] || intros []; discriminate|]. split; [exact ex_all_modest|].
      intros c i _ E. assert (E' : k_ents (closed 1 ex_k2) = [(ex_edge, 12)]) by (vm_compute; reflexivity). rewrite E' in E. cbn [ent_find] in E. destruct (Bytes.bytes_eqb (nc_name c) ex_edge); [|discriminate E]. injection E as <-. exact ex_tidy2.
Qed.

(** ** C33 for rulesets *)

(** The property is false of bf_ruleset_set too: the chains that were there are removed
    first, so if the kernel refuses one of the new ones nothing filters any more. *)
Theorem C33_ruleset_refuted : ~ (forall F p m1 m2 m3 cs os k e k' n i c0 hd, history no_update k -> Forall usual cs ->
  ends F p (ruleset_set m1 m2 m3 cs os) k (Er e) k' ->
  ent_find n (k_ents k) = Some i -> holds_chain k i c0 hd ->
  exists j, ent_find n (k_ents k') = Some j /\ pin k' j P_ctx <> None).
Proof.
  intros H. set (k' := snd (spoil ex_verifier EPERM 2 ex_rs (closed 1 ex_k2))).
  assert (X : fst (spoil ex_verifier EPERM 2 ex_rs (closed 1 ex_k2)) = Er EPERM) by (vm_compute; reflexivity).
  assert (EN : ends ex_verifier 2 ex_rs (closed 1 ex_k2) (Er EPERM) k').
  { rewrite <- X. unfold k'. apply spoil_ends. }
  assert (EI : ent_find ex_edge (k_ents (closed 1 ex_k2)) = Some 12) by (vm_compute; reflexivity).
  assert (US : Forall usual [ex_nchain2; ex_lan]) by (constructor; [exact ex_nchain2_usual|constructor; [exact ex_lan_usual|constructor]]).
  destruct (H _ _ _ _ _ _ _ _ _ _ _ _ _ _ ex_h2p US EN EI ex_held2) as (j & EJ & _). vm_compute in EJ. discriminate EJ.
Qed.
Print Assumptions C33_ruleset_refuted.
(** A ruleset that fails by itself: two chains of the same name. *)
Definition ex_rs2 : prog (res unit) := ruleset_set (fun _ => ex_mem) (fun _ => ex_mem) (fun _ => ex_mem) [ex_lan; ex_lan] [Some ex_opts; None].
Example C44_set_failure_example : exists e k', ends no_fault 2 ex_rs2 (closed 1 ex_k2) (Er e) k' /\ Forall usual [ex_lan; ex_lan] /\ Forall modest [ex_lan; ex_lan] /\
  history no_update (closed 1 ex_k2) /\ all_modest (closed 1 ex_k2) /\ holds_chain (closed 1 ex_k2) 12 ex_nchain ex_hd2.
Proof.
  assert (X : exists e, fst (solo 2 ex_rs2 (closed 1 ex_k2)) = Er e) by (vm_compute; eexists; reflexivity). destruct X as (e & X).
  exists e, (snd (solo 2 ex_rs2 (closed 1 ex_k2))). split; [rewrite <- X; apply solo_ends|].
  split; [constructor; [exact ex_lan_usual|constructor; [exact ex_lan_usual|constructor]]|].
  assert (M : modest ex_lan) by (apply ex_modest, ex_sets; auto). split; [constructor; [exact M|constructor; [exact M|constructor]]|].
  split; [exact ex_h2p|]. split; [exact ex_all_modest|exact ex_held2].
Qed.
