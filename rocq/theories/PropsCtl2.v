(** C51-C54: what a chain name can be used for, and what the other chains see of it. *)
From Coq Require Import String NArith ZArith List Bool Lia.
From Verif Require Import Bytes Types World BpfModel GenModel StrModel SetModel MapModel PackModel PackSpec PackFacts4 HookModel KernModel LockModel CtlModel SysSpec SysFacts SeqFacts CtlSpec HistSpec HistFacts CtlFacts CountFacts UpdSpec UpdSetFacts HistInv IsolFacts LockSeqFacts LoadFacts BytesFacts PropsPack PropsConc PropsCtl.
Import ListNotations.
Local Open Scope N_scope.

(** ** C51: a name can be used again *)

(** bf_chain_set succeeds, if no call fails, whatever was there before: nothing, an empty
    directory, or a chain with nothing but its own pins. *)
Theorem C51_name_usable_partial : forall p m1 m2 c o k, history no_update k -> at_rest k -> loadable c -> plenty m1 -> plenty m2 ->
  (forall i, ent_find (nc_name c) (k_ents k) = Some i ->
     (forall q, pin k i q = None) \/
     (tidy k i /\ forall c0 hd, holds_chain k i c0 hd -> chain_built c0 -> storable c0 -> loadable c0)) ->
  fst (solo p (chain_set m1 m2 c o) k) = Ok tt.
Proof.
  intros p m1 m2 c o k H (FD & NS) ((B & S & N1) & G & ND & SZ) P1 P2 OLD. pose proof (proj1 (history_inv _ H)) as INV. pose proof (in_sane _ INV) as S0. pose proof (in_cons _ INV) as CONS.
  apply set_works; auto; [apply rest_clash; exact FD|].
  intros i EI. split; [apply rest_clash; exact FD|]. destruct (OLD i EI) as [E|(TD & L)]; [left; exact E|right]. split; [exact TD|].
  intros c0 hd HC. destruct (CONS _ _ EI) as [E|(c1 & hd1 & HC1 & B1 & S1)].
  - destruct HC as ((x & t & X & _) & _). unfold pin in *. congruence.
  - destruct HC as ((x & t & X1 & X2 & X3) & _). destruct (L _ _ HC1 B1 S1) as (_ & _ & _ & SZ1).
    destruct HC1 as ((y & t1 & Y1 & Y2 & Y3) & _). assert (y = x) by congruence. subst y. assert (t1 = t) by congruence. subst t1.
    destruct (chain_round_trip_generous (m_nd m1) (m_tb m1) c1 P1 B1 S1 SZ1) as (c' & RT & _). exists c'.
    unfold chain_copy in *. rewrite Y3 in RT. rewrite X3. exact RT.
Qed.
Print Assumptions C51_name_usable_partial.

(** ** C52 *)
Theorem C52_load_succeeds : forall p mm c k, history no_update k -> at_rest k -> loadable c -> plenty mm ->
  ent_find (nc_name c) (k_ents k) = None -> fst (solo p (chain_load mm c) k) = Ok tt.
Proof.
  intros p mm c k H (FD & NS) ((B & S & N1) & G & ND & SZ) PL NE. pose proof (proj1 (history_inv _ H)) as INV. pose proof (in_sane _ INV) as S0. pose proof (in_cons _ INV) as CONS.
  apply load_works; auto. apply rest_clash; exact FD.
Qed.
Print Assumptions C52_load_succeeds.
Example C52_example : history no_update ex_k0 /\ at_rest ex_k0 /\ loadable ex_nchain /\ plenty ex_mem /\ ent_find (nc_name ex_nchain) (k_ents ex_k0) = None.
Proof. split; [apply Hi_boot, ex_boot|]. split; [split; [reflexivity|intros; reflexivity]|]. split; [exact ex_loadable|]. split; [exact ex_plenty|reflexivity]. Qed.

(** The property C51 is false: if the process dies after pinning and before it has stored
    the description, the name is lost: no call but unlinking by hand can get it back. *)
Definition ex_wedged : kst := closed 1 (cut 30 1 (chain_load ex_mem ex_nchain) ex_k0).
Lemma ex_wedged_history : history no_update ex_wedged.
Proof.
  unfold ex_wedged. eapply Hi_call with (p := 1); [apply Hi_boot, ex_boot|exact (ex_usual : no_update (A_chain_load ex_mem ex_nchain))|].
  unfold run_api. apply forget_stops. apply cut_stops.
Qed.
Lemma ex_wedged_rest : at_rest ex_wedged.
Proof. split; [vm_compute; reflexivity|]. intros s X. assert (k_ents ex_wedged = [(ex_edge, 12)]) as -> by (vm_compute; reflexivity).
  cbn [ent_find]. destruct (bytes_eqb s ex_edge) eqn:E; [|reflexivity]. apply bytes_eqb_eq in E. subst s. vm_compute in X. discriminate X. Qed.
Theorem C51_crash_refuted :
  ~ (forall p m1 m2 c o k, history no_update k -> at_rest k -> loadable c -> plenty m1 -> plenty m2 -> fst (solo p (chain_set m1 m2 c o) k) = Ok tt) /\
  ~ (forall p mm c k, history no_update k -> at_rest k -> loadable c -> plenty mm ->
       let k1 := snd (solo p (ruleset_flush (fun _ => mm)) k) in fst (solo p (ruleset_flush (fun _ => mm)) k) = Ok tt ->
       let k2 := snd (solo p (chain_flush mm (nc_name c)) (closed p k1)) in
       let k3 := snd (solo p sweep_staging (closed p k2)) in
       fst (solo p (chain_load mm c) (closed p k3)) = Ok tt).
Proof.
  split; intros H.
  - specialize (H 2 ex_mem ex_mem ex_nchain None ex_wedged ex_wedged_history ex_wedged_rest ex_loadable ex_plenty ex_plenty). vm_compute in H. discriminate H.
  - specialize (H 2 ex_mem ex_nchain ex_wedged ex_wedged_history ex_wedged_rest ex_loadable ex_plenty). cbv zeta in H.
    assert (X : fst (solo 2 (ruleset_flush (fun _ => ex_mem)) ex_wedged) = Ok tt) by (vm_compute; reflexivity). specialize (H X). vm_compute in H. discriminate H.
Qed.
Print Assumptions C51_crash_refuted.
(** The hypotheses of the partial theorem: the loaded and the attached chain are replaced. *)
Example C51_example : at_rest (closed 1 ex_k2) /\ fst (solo 2 (chain_set ex_mem ex_mem ex_nchain2 (Some ex_opts)) (closed 1 ex_k2)) = Ok tt.
Proof.
  split; [|vm_compute; reflexivity]. split; [vm_compute; reflexivity|]. intros s X. assert (k_ents (closed 1 ex_k2) = [(ex_edge, 12)]) as -> by (vm_compute; reflexivity).
  cbn [ent_find]. destruct (bytes_eqb s ex_edge) eqn:E; [|reflexivity]. apply bytes_eqb_eq in E. subst s. vm_compute in X. discriminate X.
Qed.

(** ** C53: other chains *)

(** A call about the chain [n], stopped anywhere, with any failures: every other chain
    keeps its directory, its pins and the objects that are pinned there. *)
Theorem C53_others_untouched : forall k p a n k' m j, history no_update k -> about a = Some n ->
  stops any_fault p (run_api a) k k' -> m <> n -> ent_find m (k_ents k) = Some j ->
  ent_find m (k_ents k') = Some j /\ k_dirs k' j = k_dirs k j /\ forall q o, pin k j q = Some o -> k_objs k' o = k_objs k o.
Proof. intros k p a n k' m j H A ST NM EM. exact (ok_same _ _ _ (others_at_stop k p a n k' H A ST) m j NM EM). Qed.
Print Assumptions C53_others_untouched.
Lemma complete_kept (R R' : pname -> oid -> Prop) (O O' : oid -> option obj) ch hd :
  (forall q o, R q o -> R' q o /\ O' o = O o) -> complete_at R O ch hd -> complete_at R' O' ch hd.
Proof.
  intros E [(img & po & ss & cm & v & B1 & B2 & B3 & B4 & B5 & B6 & B7 & B8) C1 (C2 & x2 & C2' & C2'') (C3 & C3') (C4 & C4') C5].
  assert (T : forall q o x, R q o -> O o = Some x -> R' q o /\ O' o = Some x) by (intros q o x X Y; destruct (E _ _ X) as (Z & W); rewrite W; auto).
  constructor; auto.
  - exists img, po, ss, cm, v. split; [exact B1|]. destruct (T _ _ _ B2 B3) as (Y1 & Y2). destruct (T _ _ _ B4 B5) as (Y3 & Y4).
    split; [exact Y1|]. split; [exact Y2|]. split; [exact Y3|]. split; [exact Y4|].
    split; [|split]; [clear -E B6; induction B6; constructor; auto; now apply E| |].
    + assert (AL : Forall (fun o => O' o = O o) ss). { clear -E B6. induction B6; constructor; auto. apply (E _ _ H). }
      clear -AL B7. induction B7; [constructor|]. inversion AL; subst. constructor; [congruence|auto].
    + destruct (hd_link hd) as [[hk oo]|]; [|exact Logic.I]. destruct B8 as (A1 & (lo & t & A2 & A3 & A4) & A5). split; [exact A1|]. split.
      * destruct (T _ _ _ A3 A4) as (Z & W). exists lo, t. auto.
      * intros NFH. destruct (A5 NFH) as (lx & t' & A6 & A7 & A8). destruct (T _ _ _ A7 A8) as (Z & W). exists lx, t'. auto.
  - split; [exact C2|]. destruct (T _ _ _ C2' C2'') as (Z & W). eauto.
  - split; [exact C3|]. intros X. destruct (C3' X) as (o & Y1 & Y2). destruct (T _ _ _ Y1 Y2) as (Z & W). eauto.
  - split; [exact C4|]. intros X. destruct (C4' X) as (o & Y1 & Y2). destruct (T _ _ _ Y1 Y2) as (Z & W). eauto.
Qed.
Theorem C53_others_still_held : forall k p a n k' m j c hd, history no_update k -> about a = Some n ->
  stops any_fault p (run_api a) k k' -> m <> n -> ent_find m (k_ents k) = Some j -> holds_chain k j c hd -> holds_chain k' j c hd.
Proof.
  intros k p a n k' m j c hd H A ST NM EM ((o & t & H1 & H2 & H3) & CP).
  destruct (C53_others_untouched k p a n k' m j H A ST NM EM) as (_ & D & O).
  assert (E : forall q o, pin k j q = Some o -> pin k' j q = Some o /\ k_objs k' o = k_objs k o).
  { intros q x X. split; [unfold pin in *; rewrite D; exact X|exact (O _ _ X)]. }
  destruct (E _ _ H1) as (E1 & E2). split; [exists o, t; rewrite E2; auto|]. eapply complete_kept; [exact E|exact CP].
Qed.
Print Assumptions C53_others_still_held.
(** Another chain comes and goes beside an attached one. *)
Example C53_example : ent_find ex_edge (k_ents (closed 1 ex_k2)) = Some 12 /\ about (A_chain_load ex_mem ex_cgchain) = Some (lit "cg") /\
  fst (solo 2 (chain_load ex_mem ex_cgchain) (closed 1 ex_k2)) = Ok tt /\ ex_edge <> lit "cg".
Proof. repeat split; try (vm_compute; reflexivity). intros X. vm_compute in X. discriminate X. Qed.

(** ** C54: bf_chain_flush *)

(** If bf_chain_flush succeeds, there was a complete chain; its pins are gone, its links
    are detached, and if there was nothing else in the directory, so is the directory;
    nothing is left open. *)
Theorem C54_flush_removes : forall F p mm n k k', history no_update k -> ends F p (chain_flush mm n) k (Ok tt) k' ->
  exists i c hd, ent_find n (k_ents k) = Some i /\ holds_chain k i c hd /\
    (forall q, q = P_ctx \/ In q (pin_names hd) -> pin k' i q = None) /\
    (forall o, hd_link hd <> None -> pin k i P_link = Some o -> detached k' o) /\
    (forall o, hd_link hd <> None -> pin k i P_link_extra = Some o -> detached k' o \/ faulty F) /\
    (tidy k i -> ent_find n (k_ents k') = None) /\ forall f, fd_find f (k_fds k') = fd_find f (k_fds k).
Proof. intros F p mm n k k' H EN. pose proof (proj1 (history_inv _ H)) as INV. pose proof (in_sane _ INV) as S0. pose proof (in_cons _ INV) as CONS. exact (flush_done F p mm n k k' S0 CONS EN). Qed.
Print Assumptions C54_flush_removes.
Definition ex_k3 : kst := snd (solo 2 (chain_flush ex_mem ex_edge) (closed 1 ex_k2)).
Example C54_example : ends no_fault 2 (chain_flush ex_mem ex_edge) (closed 1 ex_k2) (Ok tt) ex_k3 /\ k_ents ex_k3 = [] /\
  pin (closed 1 ex_k2) 12 P_link = Some 38 /\ detached ex_k3 38.
Proof.
  split.
  - assert (X : fst (solo 2 (chain_flush ex_mem ex_edge) (closed 1 ex_k2)) = Ok tt) by (vm_compute; reflexivity). rewrite <- X. unfold ex_k3. apply solo_ends.
  - split; [vm_compute; reflexivity|]. split; [vm_compute; reflexivity|]. intros h t po b X. vm_compute in X. injection X as _ _ _ <-. reflexivity.
Qed.
