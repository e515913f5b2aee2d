(** Closing, pinning and storing. *)
From Coq Require Import NArith ZArith List Bool Lia.
From Verif Require Import Bytes Types World BpfModel GenModel BytesFacts StrModel SetModel MapModel PackModel PackSpec HookModel KernModel LockModel CtlModel SysSpec SysFacts RelyFacts SeqFacts StageFacts EvoFacts CtlSpec HandleFacts.
Import ListNotations.
Local Open Scope N_scope.

(** ** Closing *)

(** Only descriptors differ. *)
Record cl (k k' : kst) : Prop := {
  cl_sane : sane k'; cl_pindir : k_pindir k' = k_pindir k; cl_ents : k_ents k' = k_ents k; cl_dirs : k_dirs k' = k_dirs k; cl_objs : k_objs k' = k_objs k;
  cl_next : k_next k' = k_next k; cl_cpus : k_cpus k' = k_cpus k;
  cl_fds : forall f x, fd_find f (k_fds k') = Some x -> fd_find f (k_fds k) = Some x
}.
Lemma cl_refl k : sane k -> cl k k. Proof. constructor; auto. Qed.
Lemma cl_trans a b c : cl a b -> cl b c -> cl a c.
Proof. intros [] []. constructor; auto; congruence. Qed.

Definition closes (p : pid) (m : prog unit) (l : list fd) : Prop :=
  forall F (I : kst -> Prop) k0 E X M S S' k, evo p E X M S k0 k -> sane k0 ->
    (forall f, In f l -> k_next k0 <= f) -> (forall x, In x S -> In x S' \/ In x l) -> (forall Z k', cl k k' -> evo p E X M Z k0 k' -> I k') ->
    wps F p I m (fun _ k' => cl k k' /\ evo p E X M S' k0 k' /\ (forall f, ~ In f l -> fd_find f (k_fds k') = fd_find f (k_fds k))) k.

Lemma closes_ret p : closes p (Ret tt) [].
Proof.
  intros F I k0 E X M S S' k EV K0 L HS HI. pose proof (ev_sane _ _ _ _ _ _ _ EV) as K.
  apply wps_ret; [eapply HI; [apply cl_refl, K|exact EV]|]. split; [apply cl_refl, K|]. split; [|auto].
  eapply evo_incl; [exact EV|]. intros f Hf. destruct (HS f Hf) as [|[]]; assumption.
Qed.
Lemma closes_one p f : closes p (sys_ (C_close f)) [f].
Proof.
  intros F I k0 E X M S S' k EV K0 L HS HI. pose proof (ev_sane _ _ _ _ _ _ _ EV) as K.
  assert (wps F p I (pbind (sys_ (C_close f)) (fun x => Ret x)) (fun _ k' => cl k k' /\ evo p E X M S' k0 k' /\ (forall x, ~ In x [f] -> fd_find x (k_fds k') = fd_find x (k_fds k))) k).
  { apply wps_ign; [eapply HI; [apply cl_refl, K|exact EV]| |discriminate]. intros s. cbn [kdo].
    destruct (desc_of k p f) as [d|] eqn:D; cbn [fst].
    - assert (C : cl k (with_fds k (fd_del f (k_fds k)))).
      { constructor; cbn; auto; [apply sane_fds, K|]. intros g x. rewrite fd_find_del. destruct (g =? f); [discriminate|auto]. }
      assert (E1 : evo p E X M S' k0 (with_fds k (fd_del f (k_fds k)))).
      { eapply evo_close; [exact EV|exact K0|apply L; left; reflexivity|]. intros g Hg. destruct (HS g Hg) as [|[->|[]]]; auto. }
      apply wps_ret; [eapply HI; [exact C|exact E1]|]. split; [exact C|]. split; [exact E1|].
      intros x NI. cbn. rewrite fd_find_del. destruct (N.eqb_spec x f) as [->|]; [exfalso; apply NI; left; reflexivity|reflexivity].
    - apply wps_ret; [eapply HI; [apply cl_refl, K|exact EV]|]. split; [apply cl_refl, K|]. split; [|auto].
      apply (evo_weaken _ _ _ _ _ _ _ _ EV). intros x Hx. destruct (HS x Hx) as [Y|[<-|[]]]; [left; exact Y|].
      right. destruct (ev_new _ _ _ _ _ _ _ EV f (L f (or_introl eq_refl))) as [Y|[_ [d Y]]]; [exact Y|]. rewrite (find_desc_of _ _ _ _ Y) in D. discriminate D. }
  exact H.
Qed.
Lemma closes_bind p m l m' l' : closes p m l -> closes p m' l' -> closes p (pbind m (fun _ => m')) (l ++ l').
Proof.
  intros A B F I k0 E X M S S' k EV K0 L HS HI. apply wps_bind.
  eapply wps_post with (I := I); [auto| |apply (A F I k0 E X M S (filter (fun x => negb (existsb (N.eqb x) l)) S) k EV K0)].
  - cbn beta. intros _ k1 (C1 & E1 & F1).
    eapply wps_post with (I := I); [auto| |apply (B F I k0 E X M _ S' k1 E1 K0)].
    + intros _ k2 (C2 & E2 & F2). split; [eapply cl_trans; eauto|]. split; [exact E2|]. intros f NI. rewrite F2, F1; auto; intros X1; apply NI, in_or_app; auto.
    + intros f Hf. apply L, in_or_app; auto.
    + intros x Hx. apply filter_In in Hx as [Hx NB]. destruct (HS x Hx) as [Y|Y]; [auto|]. apply in_app_or in Y as [Y|Y]; [|auto].
      apply negb_true_iff in NB. exfalso. rewrite <- not_true_iff_false in NB. apply NB, existsb_exists. exists x. split; [exact Y|apply N.eqb_refl].
    + intros Z k2 C2 E2. eapply HI; [eapply cl_trans; eauto|exact E2].
  - intros f Hf. apply L, in_or_app; auto.
  - intros x Hx. destruct (existsb (N.eqb x) l) eqn:XB.
    + right. apply existsb_exists in XB as (y & Hy & EQ). apply N.eqb_eq in EQ. subst y. exact Hy.
    + left. apply filter_In. split; [exact Hx|]. rewrite XB. reflexivity.
  - exact HI.
Qed.
Lemma closes_all p l : closes p (close_all l) l.
Proof.
  induction l as [|f l IH]; cbn [close_all]; [apply closes_ret|]. change (f :: l) with ([f] ++ l). apply closes_bind; [apply closes_one|exact IH].
Qed.
Lemma closes_opt p o : closes p (close_opt o) (opt_fds o).
Proof. destruct o; [apply closes_one|apply closes_ret]. Qed.
Lemma closes_link p o : closes p (link_free o) (map snd (lpins o)).
Proof.
  destruct o as [l|]; [|apply closes_ret]. cbn [link_free lpins map snd].
  replace (map snd (opt_map P_link_extra (l_extra l))) with (opt_fds (l_extra l)) by (destruct (l_extra l); reflexivity).
  change (l_fd l :: opt_fds (l_extra l)) with ([l_fd l] ++ opt_fds (l_extra l)). apply closes_bind; [apply closes_one|apply closes_opt].
Qed.
Lemma closes_perm p m l l' : (forall f, In f l <-> In f l') -> closes p m l -> closes p m l'.
Proof.
  intros P A F I k0 E X M S S' k EV K0 L HS HI.
  eapply wps_post with (I := I); [auto| |apply (A F I k0 E X M S S' k EV K0); auto].
  - intros _ k1 (C1 & E1 & F1). split; [exact C1|]. split; [exact E1|]. intros f NI. apply F1. intros X1. apply NI, P, X1.
  - intros f Hf. apply L, P, Hf.
  - intros x Hx. destruct (HS x Hx) as [Y|Y]; [auto|right; apply P, Y].
Qed.
Lemma closes_handle p h : closes p (handle_free h) (hfds h).
Proof.
  eapply closes_perm; [|apply closes_bind; [apply closes_opt|apply closes_bind; [apply closes_link|apply closes_all]]].
  intros f. unfold hfds, hpins. rewrite !map_app, !in_app_iff. destruct (h_prog h); cbn; tauto.
Qed.
Lemma closes_cgen p g : closes p (cgen_free g) (hfds (g_handle g)).
Proof. apply closes_handle. Qed.

(** ** Pinning *)
Definition off (N : list pname) (D D' : view) : Prop := forall q, ~ In q N -> D' q = D q.
Lemma off_refl N D : off N D D. Proof. intros q _. reflexivity. Qed.
Lemma off_trans N D D' D2 : off N D D' -> off N D' D2 -> off N D D2.
Proof. intros A B q H. rewrite (B q H). apply A, H. Qed.
Lemma off_incl N N' D D' : off N D D' -> (forall q, In q N -> In q N') -> off N' D D'.
Proof. intros A B q H. apply A. intros X. apply H, B, X. Qed.
Lemma off_dset N D q v : In q N -> off N D (dset D q v).
Proof. intros H x NI. unfold dset. destruct (pname_eqb_spec x q) as [->|]; [contradiction|reflexivity]. Qed.
Lemma dset_same D q v : dset D q v q = v.
Proof. unfold dset. rewrite pname_eqb_refl. reflexivity. Qed.
Lemma dset_other D q v x : x <> q -> dset D q v x = D x.
Proof. intros H. unfold dset. destruct (pname_eqb_spec x q); [contradiction|reflexivity]. Qed.
Definition pname_dec (a b : pname) : {a = b} + {a <> b}.
Proof. decide equality. apply N.eq_dec. Defined.

(** [I] holds in all states that differ from [k] only in the names [N] of directory [i]. *)
Definition dstable (I : kst -> Prop) (N : list pname) (i : ino) (k : kst) : Prop :=
  forall D k', dwr i D k k' -> off N (dview k i) D -> I k'.
Lemma dstable_next (I : kst -> Prop) N i k D k' : dstable I N i k -> dwr i D k k' -> off N (dview k i) D -> dstable I N i k'.
Proof.
  intros H W O D' k2 W2 O2. apply (H D' k2); [eapply dwr_trans; eauto|]. eapply off_trans; [exact O|].
  intros q NI. rewrite (O2 q NI). apply (dw_view _ _ _ _ W).
Qed.
Lemma dstable_here (I : kst -> Prop) N i k : sane k -> dstable I N i k -> I k.
Proof. intros K H. eapply H; [apply dwr_refl, K|apply off_refl]. Qed.

(** Names removed. *)
Definition unpinned (i : ino) (N : list pname) (k k' : kst) : Prop :=
  exists D, dwr i D k k' /\ off N (dview k i) D /\ forall q, In q N -> D q = None.

Definition unpins (p : pid) (m : prog unit) (d : fd) (N : list pname) : Prop :=
  forall F (I : kst -> Prop) i md N' k, sane k -> desc_of k p d = Some (D_dir i md) -> dstable I N' i k -> (forall q, In q N -> In q N') ->
    wps F p I m (fun _ k' => unpinned i N k k') k.
Lemma unpins_ret p d : unpins p (Ret tt) d [].
Proof.
  intros F I i md N' k K D H _. apply wps_ret; [eapply dstable_here; eauto|]. exists (dview k i). split; [apply dwr_refl, K|]. split; [apply off_refl|intros q []].
Qed.
Lemma unpins_one p d q : unpins p (sys_ (C_unlink d q)) d [q].
Proof.
  intros F I i md N' k K D H HN.
  assert (wps F p I (pbind (sys_ (C_unlink d q)) (fun x => Ret x)) (fun _ k' => unpinned i [q] k k') k); [|exact H0].
  eapply wps_unlink; [exact K|exact D|eapply dstable_here; eauto|]. intros k' W.
  assert (O : off [q] (dview k i) (dset (dview k i) q None)) by (apply off_dset; left; reflexivity).
  apply wps_ret; [eapply H; [exact W|eapply off_incl; [exact O|exact HN]]|].
  eexists. split; [exact W|]. split; [exact O|]. intros x [<-|[]]. apply dset_same.
Qed.
Lemma unpins_bind p d m N m' N' : unpins p m d N -> unpins p m' d N' -> unpins p (pbind m (fun _ => m')) d (N ++ N').
Proof.
  intros A B F I i md T k K D H HN. apply wps_bind.
  eapply wps_post with (I := I); [auto| |apply (A F I i md T k K D H)]; [|intros q Hq; apply HN, in_or_app; auto].
  intros _ k1 (D1 & W1 & O1 & Z1). pose proof (dw_sane _ _ _ _ W1) as K1.
  eapply wps_post with (I := I); [auto| |apply (B F I i md T k1 K1)].
  - intros _ k2 (D2 & W2 & O2 & Z2). exists D2. split; [eapply dwr_trans; eauto|]. split.
    + intros q NI. rewrite O2 by (intros X; apply NI, in_or_app; auto). rewrite (dw_view _ _ _ _ W1). apply O1. intros X; apply NI, in_or_app; auto.
    + intros q Hq. destruct (in_dec pname_dec q N') as [Y|Y]; [apply Z2, Y|]. rewrite (O2 q Y), (dw_view _ _ _ _ W1). apply Z1.
      apply in_app_or in Hq as [Hq|Hq]; [exact Hq|contradiction].
  - rewrite (dwr_desc _ _ _ _ _ _ W1). exact D.
  - eapply dstable_next; [exact H|exact W1|]. eapply off_incl; [exact O1|]. intros q Hq; apply HN, in_or_app; auto.
  - intros q Hq; apply HN, in_or_app; auto.
Qed.
Lemma unpins_maps p d l : unpins p (unpin_maps d l) d (map fst l).
Proof.
  induction l as [|[q f] l IH]; cbn [unpin_maps map fst]; [apply unpins_ret|].
  change (q :: map fst l) with ([q] ++ map fst l). apply unpins_bind; [apply unpins_one|exact IH].
Qed.
Lemma unpins_link p d : unpins p (link_unpin d) d [P_link; P_link_extra].
Proof. apply (unpins_bind p d _ [P_link] _ [P_link_extra]); apply unpins_one. Qed.

(** The names that pinning a handle may touch. *)
Definition hnames (h : handle) : list pname :=
  map fst (h_maps h) ++ match h_link h with Some _ => [P_link; P_link_extra] | None => [] end ++ [P_prog].
Lemma unpins_handle p h d : unpins p (handle_unpin h d) d (hnames h).
Proof.
  apply unpins_bind; [apply unpins_maps|]. apply unpins_bind; [|apply unpins_one]. destruct (h_link h); [apply unpins_link|apply unpins_ret].
Qed.

(** The reason why a pin failed. *)
Definition pin_refused (F : call -> bool) (i : ino) (k : kst) (l : list (pname * fd)) : Prop :=
  faulty F \/ (exists q, In q (map fst l) /\ dview k i q <> None) \/ ~ NoDup (map fst l).

(** All of [l] pinned. *)
Definition pinned_all (k : kst) (p : pid) (l : list (pname * fd)) (D : view) : Prop :=
  forall q f o, In (q, f) l -> desc_of k p f = Some (D_obj o) -> D q = Some o.

Definition opened (k : kst) (p : pid) (l : list (pname * fd)) : Prop :=
  forall q f, In (q, f) l -> exists o, desc_of k p f = Some (D_obj o).

Lemma pin_maps_ok F p (I : kst -> Prop) d i md N : forall l k, sane k -> desc_of k p d = Some (D_dir i md) -> opened k p l ->
  dstable I N i k -> (forall q, In q (map fst l) -> In q N) ->
  wps F p I (pin_maps d l) (fun r k' => exists D, dwr i D k k' /\ off (map fst l) (dview k i) D /\
    match r with Ok _ => pinned_all k p l D /\ (forall q, In q (map fst l) -> dview k i q = None) /\ NoDup (map fst l)
    | Er _ => pin_refused F i k l end) k.
Proof.
  induction l as [|[q f] l IH]; intros k K DD OP HS HN; cbn [pin_maps].
  - apply wps_ret; [eapply dstable_here; eauto|]. exists (dview k i). split; [apply dwr_refl, K|]. split; [apply off_refl|]. split; [intros q f o []|]. split; [intros q []|constructor].
  - destruct (OP q f (or_introl eq_refl)) as (o & DF).
    assert (HE : forall e, pin_refused F i k ((q, f) :: l) -> wps F p I (Ret (Er e : res unit)) (fun r k' => exists D, dwr i D k k' /\ off (map fst ((q, f) :: l)) (dview k i) D /\
      match r with Ok _ => pinned_all k p ((q, f) :: l) D /\ (forall q0, In q0 (map fst ((q, f) :: l)) -> dview k i q0 = None) /\ NoDup (map fst ((q, f) :: l)) | Er _ => pin_refused F i k ((q, f) :: l) end) k).
    { intros e X. apply wps_ret; [eapply dstable_here; eauto|]. exists (dview k i). split; [apply dwr_refl, K|]. split; [apply off_refl|exact X]. }
    eapply wps_pin; [exact K|exact DD|exact DF|eapply dstable_here; eauto| |].
    2:{ intros e [HF|V]; apply HE; [left; eapply faulty_intro, HF|right; left; exists q; split; [left; reflexivity|exact V]]. }
    intros k1 V W. pose proof (dw_sane _ _ _ _ W) as K1.
    assert (O1 : off [q] (dview k i) (dset (dview k i) q (Some o))) by (apply off_dset; left; reflexivity).
    eapply wps_post with (I := I); [auto| |apply IH; [exact K1|rewrite (dwr_desc _ _ _ _ _ _ W); exact DD| | |]].
    + intros r k2 (D2 & W2 & O2 & R). exists D2. split; [eapply dwr_trans; eauto|]. split.
      { intros x NI. rewrite O2 by (intros X; apply NI; right; exact X). rewrite (dw_view _ _ _ _ W). apply O1. intros [X|[]]. apply NI. left. exact X. }
      destruct r as [u|e].
      * destruct R as (R1 & R2 & R3).
        assert (NI : ~ In q (map fst l)). { intros X. specialize (R2 q X). rewrite (dw_view _ _ _ _ W), dset_same in R2. discriminate R2. }
        split; [|split].
        -- intros x g y [X|X] Y.
           ++ injection X as <- <-. rewrite DF in Y. injection Y as <-. rewrite (O2 q NI), (dw_view _ _ _ _ W). apply dset_same.
           ++ eapply R1; [exact X|]. rewrite (dwr_desc _ _ _ _ _ _ W). exact Y.
        -- intros x [<-|X]; [exact V|]. specialize (R2 x X). rewrite (dw_view _ _ _ _ W) in R2. rewrite dset_other in R2; [exact R2|].
           intros ->. contradiction.
        -- cbn [map fst]. constructor; assumption.
      * destruct R as [R|[(x & X & Y)|R]]; [left; exact R| |right; right; cbn [map fst]; intros Z; apply R; inversion Z; assumption].
        rewrite (dw_view _ _ _ _ W) in Y. destruct (pname_dec x q) as [->|NE].
        -- right. right. cbn [map fst]. intros Z. inversion Z; contradiction.
        -- rewrite dset_other in Y by exact NE. right. left. exists x. split; [right; exact X|exact Y].
    + intros x g X. rewrite (dwr_desc _ _ _ _ _ _ W). apply (OP x g). right. exact X.
    + eapply dstable_next; [exact HS|exact W|]. eapply off_incl; [exact O1|]. intros x [<-|[]]. apply HN. left. reflexivity.
    + intros x X. apply HN. right. exact X.
Qed.

Lemma link_pin_ok F p (I : kst -> Prop) d i md N l k : sane k -> desc_of k p d = Some (D_dir i md) -> opened k p (lpins (Some l)) ->
  dstable I N i k -> In P_link N -> In P_link_extra N ->
  wps F p I (link_pin l d) (fun r k' => exists D, dwr i D k k' /\
    match r with Ok _ => off (map fst (lpins (Some l))) (dview k i) D /\ pinned_all k p (lpins (Some l)) D /\
        (forall q, In q (map fst (lpins (Some l))) -> dview k i q = None)
    | Er _ => off [P_link; P_link_extra] (dview k i) D /\ pin_refused F i k (lpins (Some l)) /\
        D P_link = dview k i P_link /\ (D P_link_extra = dview k i P_link_extra \/ D P_link_extra = None) end) k.
Proof.
  intros K DD OP HS NL NX. unfold link_pin.
  destruct (OP P_link (l_fd l) (or_introl eq_refl)) as (o & DF).
  eapply wps_pin; [exact K|exact DD|exact DF|eapply dstable_here; eauto| |].
  2:{ intros e X. apply wps_ret; [eapply dstable_here; eauto|]. exists (dview k i). split; [apply dwr_refl, K|]. split; [apply off_refl|].
      split; [|auto]. destruct X as [HF|V]; [left; eapply faulty_intro, HF|right; left; exists P_link; split; [left; reflexivity|exact V]]. }
  intros k1 V W. pose proof (dw_sane _ _ _ _ W) as K1.
  assert (O1 : off N (dview k i) (dset (dview k i) P_link (Some o))) by (apply off_dset; exact NL).
  pose proof (dstable_next _ _ _ _ _ _ HS W O1) as HS1.
  destruct (l_extra l) as [fx|] eqn:EX.
  - destruct (OP P_link_extra fx) as (ox & DX). { cbn [lpins]. rewrite EX. right. left. reflexivity. }
    assert (DD1 : desc_of k1 p d = Some (D_dir i md)) by (rewrite (dwr_desc _ _ _ _ _ _ W); exact DD).
    eapply wps_pin; [exact K1|exact DD1|rewrite (dwr_desc _ _ _ _ _ _ W); exact DX|eapply dstable_here; eauto| |].
    + intros k2 V2 W2. apply wps_ret; [eapply HS1; [exact W2|apply off_dset; exact NX]|].
      eexists. split; [eapply dwr_trans; eauto|]. cbn [lpins]. rewrite EX. cbn [opt_map map fst]. split; [|split].
      * intros q NI. rewrite dset_other by (intros ->; apply NI; right; left; reflexivity). rewrite (dw_view _ _ _ _ W). apply dset_other. intros ->. apply NI; left; reflexivity.
      * intros q f y [X|[X|[]]] Y; injection X as <- <-.
        -- rewrite DF in Y. injection Y as <-. rewrite dset_other by discriminate. rewrite (dw_view _ _ _ _ W). apply dset_same.
        -- rewrite DX in Y. injection Y as <-. apply dset_same.
      * intros q [<-|[<-|[]]]; [exact V|]. rewrite (dw_view _ _ _ _ W), dset_other in V2 by discriminate. exact V2.
    + intros e X. apply wps_bind.
      eapply wps_post with (I := I); [auto| |eapply (unpins_link p d F I i md N k1 K1 DD1 HS1)].
      2:{ intros q [<-|[<-|[]]]; assumption. }
      intros _ k2 (D2 & W2 & O2 & Z2). apply wps_ret; [eapply HS1; [exact W2|]; eapply off_incl; [exact O2|]; intros q [<-|[<-|[]]]; assumption|].
      exists D2. split; [eapply dwr_trans; eauto|]. split; [|split; [|split; [rewrite V; apply Z2; cbn; auto|right; apply Z2; cbn; auto]]].
      * intros q NI. rewrite (O2 q NI), (dw_view _ _ _ _ W). apply dset_other. intros ->. apply NI; left; reflexivity.
      * destruct X as [HF|V2]; [left; eapply faulty_intro, HF|]. right. left. exists P_link_extra. split; [cbn [lpins]; rewrite EX; right; left; reflexivity|].
        rewrite (dw_view _ _ _ _ W), dset_other in V2 by discriminate. exact V2.
  - apply wps_ret; [eapply HS; [exact W|exact O1]|]. eexists. split; [exact W|]. cbn [lpins]. rewrite EX. cbn [opt_map map fst]. split; [|split].
    + apply off_dset. left. reflexivity.
    + intros q f y [X|[]] Y; injection X as <- <-. rewrite DF in Y. injection Y as <-. apply dset_same.
    + intros q [<-|[]]. exact V.
Qed.

Lemma hpins_names h q f : In (q, f) (hpins h) -> In q (hnames h).
Proof.
  unfold hpins, hnames. rewrite !in_app_iff. intros [H|[H|H]].
  - apply in_opt_map in H as [-> _]. right. right. left. reflexivity.
  - left. apply (in_map fst) in H. exact H.
  - right. left. destruct (h_link h) as [l|]; [|destruct H]. cbn [lpins] in H. destruct H as [H|H].
    + injection H as <- _. left. reflexivity.
    + apply in_opt_map in H as [-> _]. right. left. reflexivity.
Qed.

(** The set maps of a handle are pinned as sets. *)
Definition hok (h : handle) : Prop := forall q, In q (map fst (h_sets h)) -> exists j, q = P_set j.
Lemma hok_maps h q : hok h -> In q (map fst (h_maps h)) -> q = P_cmap \/ q = P_pmap \/ q = P_lmap \/ q = P_smap \/ exists j, q = P_set j.
Proof.
  intros H. unfold h_maps. rewrite !map_app, !in_app_iff.
  destruct (h_cmap h), (h_pmap h), (h_lmap h), (h_smap h); cbn; intuition auto.
Qed.
Lemma hok_prog h : hok h -> ~ In P_prog (map fst (h_maps h)).
Proof. intros H X. apply (hok_maps _ _ H) in X as [X|[X|[X|[X|[j X]]]]]; discriminate X. Qed.
Lemma hok_link h : hok h -> ~ In P_link (map fst (h_maps h)).
Proof. intros H X. apply (hok_maps _ _ H) in X as [X|[X|[X|[X|[j X]]]]]; discriminate X. Qed.
Lemma hok_extra h : hok h -> ~ In P_link_extra (map fst (h_maps h)).
Proof. intros H X. apply (hok_maps _ _ H) in X as [X|[X|[X|[X|[j X]]]]]; discriminate X. Qed.
Lemma hok_names h q : hok h -> In q (hnames h) -> q <> P_ctx /\ q <> P_ctx_tmp.
Proof.
  intros H. unfold hnames. rewrite !in_app_iff. intros [X|[X|[<-|[]]]]; [| |split; discriminate].
  - apply (hok_maps _ _ H) in X as [->|[->|[->|[->|[j ->]]]]]; split; discriminate.
  - destruct (h_link h); [|destruct X]. destruct X as [<-|[<-|[]]]; split; discriminate.
Qed.

Lemma handle_pin_ok F p (I : kst -> Prop) d i md h k : sane k -> desc_of k p d = Some (D_dir i md) -> opened k p (hpins h) -> h_prog h <> None -> hok h ->
  dstable I (hnames h) i k ->
  wps F p I (handle_pin h d) (fun r k' => exists D, dwr i D k k' /\ off (hnames h) (dview k i) D /\
    match r with Ok _ => pinned_all k p (hpins h) D /\ (forall q, ~ In q (map fst (hpins h)) -> D q = dview k i q)
    | Er _ => (forall q, In q (hnames h) -> D q = None) /\ (faulty F \/ (exists q, In q (hnames h) /\ dview k i q <> None) \/ ~ NoDup (map fst (h_maps h))) end) k.
Proof.
  intros K DD OP HP HK HS. unfold handle_pin, pin_prog. destruct (h_prog h) as [pf|] eqn:EP; [clear HP|congruence].
  destruct (OP P_prog pf) as (po & DP). { unfold hpins. rewrite EP. left. reflexivity. }
  set (Q := fun (r : res unit) k' => exists D, dwr i D k k' /\ off (hnames h) (dview k i) D /\
    match r with Ok _ => pinned_all k p (hpins h) D /\ (forall q, ~ In q (map fst (hpins h)) -> D q = dview k i q)
    | Er _ => (forall q, In q (hnames h) -> D q = None) /\ (faulty F \/ (exists q, In q (hnames h) /\ dview k i q <> None) \/ ~ NoDup (map fst (h_maps h))) end).
  assert (HE : forall D1 k1 (e : N), dwr i D1 k k1 -> off (hnames h) (dview k i) D1 -> (faulty F \/ (exists q, In q (hnames h) /\ dview k i q <> None) \/ ~ NoDup (map fst (h_maps h))) ->
    wps F p I (pbind (handle_unpin h d) (fun _ => Ret (Er e : res unit))) Q k1).
  { intros D1 k1 e W1 O1 C. pose proof (dw_sane _ _ _ _ W1) as K1. apply wps_bind.
    pose proof (dstable_next _ _ _ _ _ _ HS W1 O1) as HS1.
    eapply wps_post with (I := I); [auto| |eapply (unpins_handle p h d F I i md (hnames h) k1 K1)].
    - intros _ k2 (D2 & W2 & O2 & Z2). apply wps_ret; [eapply HS1; eauto|]. exists D2. split; [eapply dwr_trans; eauto|].
      split; [|split; [exact Z2|exact C]]. eapply off_trans; [exact O1|]. intros q NI. rewrite (O2 q NI). apply (dw_view _ _ _ _ W1).
    - rewrite (dwr_desc _ _ _ _ _ _ W1). exact DD.
    - exact HS1.
    - auto. }
  assert (NP : In P_prog (hnames h)) by (unfold hnames; rewrite !in_app_iff; right; right; left; reflexivity).
  eapply wps_pin; [exact K|exact DD|exact DP|eapply dstable_here; eauto| |].
  2:{ intros e X. eapply HE; [apply dwr_refl, K|apply off_refl|]. destruct X as [HF|V]; [left; eapply faulty_intro, HF|right; left; exists P_prog; auto]. }
  intros k1 V1 W1. pose proof (dw_sane _ _ _ _ W1) as K1.
  assert (O1 : off (hnames h) (dview k i) (dset (dview k i) P_prog (Some po))) by (apply off_dset; exact NP).
  pose proof (dstable_next _ _ _ _ _ _ HS W1 O1) as HS1.
  assert (NM : forall q, In q (map fst (h_maps h)) -> In q (hnames h)) by (intros q Hq; unfold hnames; rewrite in_app_iff; auto).
  apply wps_bind.
  eapply wps_post with (I := I); [auto| |eapply (pin_maps_ok F p I d i md (hnames h) (h_maps h) k1 K1)]; cycle 1.
  { rewrite (dwr_desc _ _ _ _ _ _ W1). exact DD. }
  { intros q f X. rewrite (dwr_desc _ _ _ _ _ _ W1). apply (OP q f). unfold hpins. rewrite !in_app_iff. auto. }
  { exact HS1. }
  { exact NM. }
  intros r k2 (D2 & W2 & O2 & R).
  assert (O2' : off (hnames h) (dview k i) D2).
  { eapply off_trans; [exact O1|]. intros q NI. rewrite O2; [apply (dw_view _ _ _ _ W1)|]. intros X. apply NI, NM, X. }
  pose proof (dwr_trans _ _ _ _ _ _ W1 W2) as W12.
  destruct r as [u|e].
  2:{ eapply HE; [exact W12|exact O2'|]. destruct R as [R|[(q & X & Y)|R]]; [left; exact R| |right; right; exact R].
      rewrite (dw_view _ _ _ _ W1) in Y. destruct (pname_dec q P_prog) as [->|NE].
      - exfalso. exact (hok_prog h HK X).
      - rewrite dset_other in Y by exact NE. right. left. exists q. auto. }
  destruct R as (R1 & R2 & R3).
  assert (P2 : D2 P_prog = Some po).
  { rewrite O2 by exact (hok_prog h HK). rewrite (dw_view _ _ _ _ W1). apply dset_same. }
  assert (R1' : pinned_all k p (h_maps h) D2).
  { intros q f o X Y. eapply R1; [exact X|]. rewrite (dwr_desc _ _ _ _ _ _ W1). exact Y. }
  destruct (h_link h) as [l|] eqn:EL.
  2:{ apply wps_ret; [eapply HS; eauto|]. exists D2. split; [exact W12|]. split; [exact O2'|]. split.
      - intros q f o. unfold hpins. rewrite EP, EL. cbn [lpins opt_map]. rewrite app_nil_r. intros [X|X] Y; [|eapply R1'; eauto].
        injection X as <- <-. rewrite DP in Y. injection Y as <-. exact P2.
      - intros q NI. rewrite O2; [rewrite (dw_view _ _ _ _ W1)|].
        + apply dset_other. intros ->. apply NI. unfold hpins. rewrite EP. left. reflexivity.
        + intros X. apply NI. unfold hpins. rewrite !map_app, !in_app_iff. auto. }
  apply wps_bind.
  pose proof (dstable_next _ _ _ _ _ _ HS W12 O2') as HS2.
  assert (NL : In P_link (hnames h) /\ In P_link_extra (hnames h)).
  { unfold hnames. rewrite EL, !in_app_iff. cbn. intuition auto. }
  assert (DW : forall f, desc_of k2 p f = desc_of k p f) by (intros f; apply (dwr_desc _ _ _ _ _ _ W12)).
  eapply wps_post with (I := I); [auto| |eapply (link_pin_ok F p I d i md (hnames h) l k2)]; cycle 1.
  { exact (dw_sane _ _ _ _ W12). }
  { rewrite DW. exact DD. }
  { intros q f X. rewrite DW. apply (OP q f). unfold hpins. rewrite !in_app_iff, EL. auto. }
  { exact HS2. }
  { apply NL. }
  { apply NL. }
  intros r k3 (D3 & W3 & R). pose proof (dwr_trans _ _ _ _ _ _ W12 W3) as W13.
  destruct r as [u'|e].
  - destruct R as [O3 R]. apply wps_ret.
    { eapply HS2; [exact W3|]. eapply off_incl; [exact O3|]. intros q X. apply in_map_iff in X as ([a b] & <- & X).
      eapply hpins_names. unfold hpins. rewrite EL, !in_app_iff. eauto. }
    exists D3. split; [exact W13|].
    assert (NLI : forall q, In q (map fst (lpins (Some l))) -> q = P_link \/ q = P_link_extra).
    { intros q. cbn [lpins map fst]. intros [<-|X]; [auto|]. destruct (l_extra l); cbn in X; [|destruct X]. destruct X as [<-|[]]. auto. }
    assert (O3' : forall q, q <> P_link -> q <> P_link_extra -> D3 q = D2 q).
    { intros q A B. rewrite O3; [apply (dw_view _ _ _ _ W12)|]. intros X. destruct (NLI q X); contradiction. }
    split; [|split].
    + intros q NI. rewrite O3; [rewrite (dw_view _ _ _ _ W12); apply O2', NI|]. intros X. destruct (NLI q X) as [->| ->]; apply NI, NL.
    + intros q f o. unfold hpins. rewrite EP, EL, !in_app_iff. intros [X|[X|X]] Y.
      * cbn [opt_map In] in X. destruct X as [X|[]]. injection X as <- <-. rewrite DP in Y. injection Y as <-. rewrite O3' by discriminate. exact P2.
      * pose proof (in_map fst _ _ X) as X'. cbn [fst] in X'. rewrite O3'; [eapply R1'; eauto| |].
        -- intros ->. exact (hok_link h HK X').
        -- intros ->. exact (hok_extra h HK X').
      * eapply R; [exact X|]. rewrite DW. exact Y.
    + intros q NI. rewrite O3.
      * rewrite (dw_view _ _ _ _ W12). rewrite O2; [rewrite (dw_view _ _ _ _ W1)|].
        -- apply dset_other. intros ->. apply NI. unfold hpins. rewrite EP. left. reflexivity.
        -- intros X. apply NI. unfold hpins. rewrite !map_app, !in_app_iff. auto.
      * intros X. apply NI. unfold hpins. rewrite EL, !map_app, !in_app_iff. auto.
  - destruct R as (O3 & R & _). eapply HE; [exact W13| |].
    + intros q NI. rewrite O3; [rewrite (dw_view _ _ _ _ W12); apply O2', NI|]. intros [<-|[<-|[]]]; apply NI, NL.
    + destruct R as [R|[(q & X & Y)|R]]; [left; exact R| |].
      * right. left. exists q. split.
        { cbn [lpins map fst] in X. destruct X as [<-|X]; [apply NL|]. destruct (l_extra l); cbn in X; [|destruct X]. destruct X as [<-|[]]. apply NL. }
        rewrite (dw_view _ _ _ _ W12) in Y.
        assert (q = P_link \/ q = P_link_extra) as Hq.
        { cbn [lpins map fst] in X. destruct X as [<-|X]; [auto|]. destruct (l_extra l); cbn in X; [|destruct X]. destruct X as [<-|[]]. auto. }
        rewrite O2 in Y by (destruct Hq as [->| ->]; [exact (hok_link h HK)|exact (hok_extra h HK)]).
        rewrite (dw_view _ _ _ _ W1), dset_other in Y by (destruct Hq as [->| ->]; discriminate). exact Y.
      * exfalso. apply R. cbn [lpins]. destruct (l_extra l); cbn; repeat constructor; cbn; intuition discriminate.
Qed.

(** ** Storing the context *)
Lemma evo_at p k i : sane k -> i < k_next k -> evo p (k_ents k) (Some (i, dview k i)) [] [] k k.
Proof. intros K L. apply evo_open; [apply evo_refl, K|exact L]. Qed.
Lemma evo_none p E M S k k' : evo p E None M S k k' -> forall i, i < k_next k -> evo p E (Some (i, dview k i)) M S k k'.
Proof. intros H i L. apply evo_open; assumption. Qed.
Lemma dir_lt k p d i md : sane k -> desc_of k p d = Some (D_dir i md) -> i < k_next k.
Proof. intros K D. eapply sane_dir; [exact K|apply desc_of_find, D]. Qed.

Definition ctx_at (k : kst) (D : view) (c : nchain) (hd : hdesc) : Prop :=
  exists o t, D P_ctx = Some o /\ k_objs k o = Some (O_ctx (Some (t, hd))) /\ chain_pack c = Ok t.

Lemma persist_ok F p (I : kst -> Prop) g d i md k : sane k -> desc_of k p d = Some (D_dir i md) ->
  (forall S D k', evo p (k_ents k) (Some (i, D)) [] S k k' -> off [P_ctx_tmp] (dview k i) D -> I k') ->
  (forall S D k', evo p (k_ents k) (Some (i, D)) [] S k k' -> off [P_ctx_tmp; P_ctx] (dview k i) D -> ctx_at k' D (g_chain g) (handle_desc (g_handle g)) -> I k') ->
  wps F p I (persist g d) (fun r k' => exists D, evo p (k_ents k) (Some (i, D)) [] [] k k' /\
    match r with
    | Ok _ => off [P_ctx_tmp; P_ctx] (dview k i) D /\ D P_ctx_tmp = None /\ ctx_at k' D (g_chain g) (handle_desc (g_handle g))
    | Er e => off [P_ctx_tmp] (dview k i) D /\ (D P_ctx_tmp = dview k i P_ctx_tmp \/ D P_ctx_tmp = None) /\
              (faulty F \/ chain_pack (g_chain g) = Er e)
    end) k.
Proof.
  intros K DD H1 H2. pose proof (dir_lt _ _ _ _ _ K DD) as LI. pose proof (evo_at p k i K LI) as E0.
  set (Q := fun (r : res unit) k' => exists D, evo p (k_ents k) (Some (i, D)) [] [] k k' /\
    match r with
    | Ok _ => off [P_ctx_tmp; P_ctx] (dview k i) D /\ D P_ctx_tmp = None /\ ctx_at k' D (g_chain g) (handle_desc (g_handle g))
    | Er e => off [P_ctx_tmp] (dview k i) D /\ (D P_ctx_tmp = dview k i P_ctx_tmp \/ D P_ctx_tmp = None) /\
              (faulty F \/ chain_pack (g_chain g) = Er e)
    end).
  assert (I0 : I k) by (eapply H1; [exact E0|apply off_refl]).
  assert (HE : forall e, faulty F \/ chain_pack (g_chain g) = Er e -> wps F p I (Ret (Er e : res unit)) Q k).
  { intros e X. apply wps_ret; [exact I0|]. exists (dview k i). split; [exact E0|]. split; [apply off_refl|auto]. }
  unfold persist. apply wps_alloc; [exact I0| |intros HF e; apply HE; left; exists C_alloc; exact HF].
  destruct (chain_pack (g_chain g)) as [t|e] eqn:CP; [|apply HE; auto].
  apply wps_create; [exact K|exact Logic.I|exact I0| |intros HF e; apply HE; left; eapply faulty_intro, HF].
  intros k1 mf mo G1 D1 O1 L1 L2. cbn [fresh_obj] in O1.
  pose proof (evo_none _ _ _ _ _ _ G1 i LI) as E1.
  assert (HC : forall k2 D (e : N), evo p (k_ents k) (Some (i, D)) [] [mf] k k2 -> off [P_ctx_tmp] (dview k i) D ->
     (D P_ctx_tmp = dview k i P_ctx_tmp \/ D P_ctx_tmp = None) -> faulty F ->
     wps F p I (pbind (sys_ (C_close mf)) (fun _ => Ret (Er e : res unit))) Q k2).
  { intros k2 D e E2 O2 T FT. eapply wps_close with (S' := []); [exact E2|exact K|exact L2|intros x [<-|[]]; auto|eapply H1; eauto|].
    intros k3 _ _ _ _ E3. apply wps_ret; [eapply H1; eauto|]. exists D. split; [exact E3|]. auto. }
  eapply wps_ctx_write; [exact D1|exact O1|eapply H1; [exact E1|apply off_refl]| |].
  2:{ intros HF e. eapply HC; [exact E1|apply off_refl|auto|eapply faulty_intro, HF]. }
  set (k2 := with_obj k1 mo (O_ctx (Some (t, handle_desc (g_handle g))))).
  assert (E2 : evo p (k_ents k) (Some (i, dview k i)) [] [mf] k k2) by (apply evo_put_new; [exact E1|lia]).
  pose proof (ev_sane _ _ _ _ _ _ _ E2) as K2.
  assert (DD2 : desc_of k2 p d = Some (D_dir i md)) by (eapply evo_desc; [exact E2|exact K|exact DD]).
  assert (V2 : forall q, dview k2 i q = dview k i q) by (destruct (ev_view _ _ _ _ _ _ _ E2 i _ eq_refl) as [_ V]; exact V).
  assert (LI2 : i < k_next k2) by (pose proof (ev_next _ _ _ _ _ _ _ E2); lia).
  assert (OC : k_objs k2 mo = Some (O_ctx (Some (t, handle_desc (g_handle g))))) by (cbn; apply updN_same).
  eapply wps_unlink; [exact K2|exact DD2|eapply H1; [exact E2|apply off_refl]|].
  intros k3 W3. pose proof (evo_dwr _ _ _ _ _ _ _ _ _ _ E2 eq_refl LI2 W3) as E3. pose proof (ev_sane _ _ _ _ _ _ _ E3) as K3.
  assert (O3 : off [P_ctx_tmp] (dview k i) (dset (dview k2 i) P_ctx_tmp None)).
  { intros q NI. rewrite dset_other by (intros ->; apply NI; left; reflexivity). apply V2. }
  assert (DM : desc_of k3 p mf = Some (D_obj mo)) by (rewrite (dwr_desc _ _ _ _ _ _ W3); exact D1).
  assert (DD3 : desc_of k3 p d = Some (D_dir i md)) by (rewrite (dwr_desc _ _ _ _ _ _ W3); exact DD2).
  eapply wps_pin; [exact K3|exact DD3|exact DM|eapply H1; eauto| |].
  2:{ intros e X. eapply HC; [exact E3|exact O3|right; apply dset_same|]. destruct X as [HF|V]; [eapply faulty_intro, HF|].
      rewrite (dw_view _ _ _ _ W3), dset_same in V. congruence. }
  intros k4 V3 W4. assert (LI3 : i < k_next k3) by (rewrite (dw_next _ _ _ _ W3); exact LI2).
  pose proof (evo_dwr _ _ _ _ _ _ _ _ _ _ E3 eq_refl LI3 W4) as E4. pose proof (ev_sane _ _ _ _ _ _ _ E4) as K4.
  assert (O4 : off [P_ctx_tmp] (dview k i) (dset (dview k3 i) P_ctx_tmp (Some mo))).
  { intros q NI. rewrite dset_other by (intros ->; apply NI; left; reflexivity). rewrite (dw_view _ _ _ _ W3). apply O3, NI. }
  assert (DD4 : desc_of k4 p d = Some (D_dir i md)) by (rewrite (dwr_desc _ _ _ _ _ _ W4); exact DD3).
  assert (LI4 : i < k_next k4) by (rewrite (dw_next _ _ _ _ W4); exact LI3).
  eapply wps_rename_pin with (o := mo); [exact K4|exact DD4| |discriminate|eapply H1; eauto| |].
  { rewrite (dw_view _ _ _ _ W4). apply dset_same. }
  - intros k5 W5. pose proof (evo_dwr _ _ _ _ _ _ _ _ _ _ E4 eq_refl LI4 W5) as E5.
    set (D5 := dset (dset (dview k4 i) P_ctx_tmp None) P_ctx (Some mo)) in *.
    assert (O5 : off [P_ctx_tmp; P_ctx] (dview k i) D5).
    { intros q NI. unfold D5. rewrite !dset_other by (intros ->; apply NI; cbn; auto). rewrite (dw_view _ _ _ _ W4). apply O4. intros [X|[]]. apply NI. left. exact X. }
    assert (C5 : forall kk, k_objs kk = k_objs k5 -> ctx_at kk D5 (g_chain g) (handle_desc (g_handle g))).
    { intros kk OK. exists mo, t. split; [apply dset_same|]. split; [|exact CP].
      rewrite OK, (dw_objs _ _ _ _ W5), (dw_objs _ _ _ _ W4), (dw_objs _ _ _ _ W3). exact OC. }
    eapply wps_close with (S' := []); [exact E5|exact K|exact L2|intros x [<-|[]]; auto|eapply H2; eauto|].
    intros k6 _ _ OB _ E6. apply wps_ret; [eapply H2; eauto|]. exists D5. split; [exact E6|]. split; [exact O5|]. split; [|apply C5, OB].
    unfold D5. rewrite dset_other by discriminate. apply dset_same.
  - intros HF e. eapply wps_unlink; [exact K4|exact DD4|eapply H1; eauto|].
    intros k5 W5. pose proof (evo_dwr _ _ _ _ _ _ _ _ _ _ E4 eq_refl LI4 W5) as E5.
    eapply HC; [exact E5| |right; apply dset_same|eapply faulty_intro, HF].
    intros q NI. rewrite dset_other by (intros ->; apply NI; left; reflexivity). rewrite (dw_view _ _ _ _ W4). apply O4, NI.
Qed.
