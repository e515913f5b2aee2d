(** Every call of the API does only allowed things. *)
From Coq Require Import NArith ZArith List Bool Lia.
From Verif Require Import Bytes Types World BpfModel GenModel BytesFacts StrModel SetModel PackModel HookModel KernModel LockModel CtlModel SysSpec SysFacts RelyFacts LockFacts LockFacts2 NeutFacts NeutFacts2.
Import ListNotations.
Local Open Scope N_scope.

Definition dcond (lk : lock) (d : option fd) (wr : bool) : Prop :=
  forall x, d = Some x -> exists n m, lk_chain lk = Some (x, n, m) /\ (wr = true -> m = L_WRITE).
Lemma dcond_none lk wr : dcond lk None wr.
Proof. intros x X. discriminate X. Qed.

Lemma neut_step {A B} p lk (S : fd -> Prop) k d wr (m : prog A) (f : A -> prog B) P Q :
  st p lk S k -> dcond lk d wr -> neut d wr S m P ->
  (forall a (T : fd -> Prop) k', st p lk T k' -> (forall y, S y -> T y) -> P a T -> wpc p (f a) Q k') ->
  wpc p (pbind m f) Q k.
Proof.
  intros H D N F. apply wpc_bind.
  assert (N' : neut d wr S m (fun a T => P a T /\ (forall y, S y -> T y))).
  { eapply neut_mono; [|exact N]. intros a T HT HP. split; assumption. }
  eapply wpc_post; [|exact (neut_wpc p lk d wr m S _ k N' H D)].
  intros a k' (T & H' & HP & HT). eapply F; eauto.
Qed.

(** What a call of the API leaves: no lock. *)
Definition done {A} (p : pid) : A -> kst -> Prop := fun _ k => exists T, st p empty_lock T k.

Lemma wpc_done {A} p lk S (a : A) k : st p lk S k -> wpc p (Ret a) (done p) k.
Proof. intros H. eapply wpc_ret_st; [exact H|]. intros k1 H1 _ _. exists S. eapply st_empty; eauto. Qed.

Lemma cleanup_done {A} p lk S k (a : A) : st p lk S k -> wpc p (pbind (lock_cleanup lk) (fun _ => Ret a)) (done p) k.
Proof.
  intros H. apply wpc_bind. eapply wpc_post; [|exact (wpc_cleanup p lk S k H)]. intros [] k1 H1. eapply wpc_done; eauto.
Qed.

Lemma lk_with_none lk : lk_chain lk = None -> lk_with lk None = lk.
Proof. intros H. destruct lk as [a b c d]. cbn in *. unfold lk_with. cbn. congruence. Qed.

(** Release after a successful acquisition gives the lock back as it was. *)
Lemma wpc_release_back {A} p lk S k f n m (Q : A -> kst -> Prop) (g : lock -> prog A) :
  st p (lk_with lk (Some (f, n, m))) S k -> lk_bpffs lk <> None -> lk_pin lk <> None -> lk_chain lk = None ->
  (forall k', st p lk S k' -> (wl lk -> released k k' n) -> wpc p (g lk) Q k') ->
  wpc p (pbind (release_chain (lk_with lk (Some (f, n, m)))) g) Q k.
Proof.
  intros H B P C F. apply wpc_bind. eapply wpc_post; [|exact (wpc_release p _ S k H)].
  intros lk' k' (E & H' & R). cbn [lk_with lk_bpffs lk_pin lk_chain] in *.
  assert (lk' = lk).
  { destruct E as [->|[_ [X|[X|X]]]]; [|congruence|congruence|discriminate X]. unfold lk_with. cbn. apply lk_with_none, C. }
  subst lk'. apply F; [exact H'|]. intros W. eapply R; eauto.
Qed.

Lemma get_cgen_eq mm lk f n m : get_cgen mm (lk_with lk (Some (f, n, m))) = cgen_restore mm f.
Proof. reflexivity. Qed.

Lemma dcond_with lk f n m wr : (wr = true -> m = L_WRITE) -> dcond (lk_with lk (Some (f, n, m))) (Some f) wr.
Proof. intros H x X. injection X as <-. exists n, m. split; [reflexivity|exact H]. Qed.

Definition full (lk : lock) : Prop := lk_bpffs lk <> None /\ lk_pin lk <> None /\ lk_chain lk = None.

Lemma wpc_restore_entries p lk mm : rl lk -> full lk -> forall l i acc S k,
  st p lk S k -> (forall g, In g acc -> hokr S (g_handle g)) ->
  wpc p (restore_entries mm lk i l acc)
    (fun gs k' => exists T : fd -> Prop, st p lk T k' /\ (forall y, S y -> T y) /\ forall g, In g gs -> hokr T (g_handle g)) k.
Proof.
  intros W (F1 & F2 & F3). induction l as [|n l IH]; intros i acc S k H HA; cbn [restore_entries].
  - eapply wpc_ret_st; [exact H|]. intros k1 H1 _ _. exists S. auto.
  - assert (NEXT : forall (T : fd -> Prop) k' acc', st p lk T k' -> (forall y, S y -> T y) -> (forall g, In g acc' -> hokr T (g_handle g)) ->
      wpc p (restore_entries mm lk (Datatypes.S i) l acc')
        (fun gs k' => exists T : fd -> Prop, st p lk T k' /\ (forall y, S y -> T y) /\ forall g, In g gs -> hokr T (g_handle g)) k').
    { intros T k' acc' H' HT HA'. eapply wpc_post; [|exact (IH (Datatypes.S i) acc' T k' H' HA')].
      intros gs k2 (U & A1 & A2 & A3). exists U. auto. }
    destruct (is_staging n); [apply NEXT with (T := S); auto|].
    apply wpc_bind. eapply wpc_post; [|exact (wpc_acquire p lk S k n L_READ false H W ltac:(discriminate))].
    intros [lk'|e] k1 B; [|apply NEXT with (T := S); auto; apply B].
    destruct B as (f & -> & _ & H1 & _). rewrite get_cgen_eq.
    eapply neut_step; [exact H1|apply dcond_with with (wr := false); discriminate|apply neut_cgen_restore; reflexivity|].
    intros r T k2 H2 HT P. eapply wpc_release_back; eauto. intros k3 H3 _.
    destruct r as [g|e].
    + specialize (P g eq_refl).
      eapply neut_step with (P := anyq); [exact H3|apply (dcond_none _ false)|nt|]. intros [[]|e] U k4 H4 HU _.
      * apply NEXT with (T := U); auto. intros g' G. apply in_app_or in G. destruct G as [G|[<-|[]]].
        -- eapply hokr_mono; [|apply HA, G]. auto.
        -- eapply hokr_mono; eauto.
      * eapply neut_step; [exact H4|apply (dcond_none _ false)|apply neut_cgen_free; eapply hokr_mono; eauto|].
        intros [] V k5 H5 HV _. apply NEXT with (T := V); auto. intros g' G. eapply hokr_mono; [|apply HA, G]. auto.
    + apply NEXT with (T := T); auto. intros g' G. eapply hokr_mono; [|apply HA, G]. auto.
Qed.

Lemma wpc_get_cgens p lk mm S k : rl lk -> full lk -> st p lk S k ->
  wpc p (get_cgens mm lk)
    (fun r k' => exists T : fd -> Prop, st p lk T k' /\ (forall y, S y -> T y) /\ match r with Ok gs => forall g, In g gs -> hokr T (g_handle g) | Er _ => True end) k.
Proof.
  intros W F H. unfold get_cgens.
  eapply neut_step with (P := anyq); [exact H|apply (dcond_none _ false)|nt|]. intros [[]|e] T k1 H1 HT _.
  2:{ eapply wpc_ret_st; [exact H1|]. intros k2 H2 _ _. exists T. auto. }
  destruct (lk_pin lk) as [pd|]; [|eapply wpc_ret_st; [exact H1|]; intros k2 H2 _ _; exists T; auto].
  eapply wpc_plain; [reflexivity|exact H1|intros; exact Logic.I|]. intros k2 d H2 _ H3 _.
  destruct (snd (ksys k2 p (C_readdir pd) d));
    try (eapply wpc_ret_st; [exact H3|]; intros k4 H4 _ _; exists T; auto; fail).
  apply wpc_bind. eapply wpc_post; [|apply (wpc_restore_entries p lk mm W F l 0 [] T _ H3); intros g []].
  intros gs k4 (U & A1 & A2 & A3). eapply wpc_ret_st; [exact A1|]. intros k5 H5 _ _. exists U. auto.
Qed.

Lemma wpc_unload_all p lk : wl lk -> full lk -> forall l S k,
  st p lk S k -> (forall g, In g l -> hokr S (g_handle g)) ->
  wpc p (unload_all lk l) (fun _ k' => exists T : fd -> Prop, st p lk T k' /\ (forall y, S y -> T y)) k.
Proof.
  intros W (F1 & F2 & F3). induction l as [|g l IH]; intros S k H HA; cbn [unload_all].
  - eapply wpc_ret_st; [exact H|]. intros k1 H1 _ _. exists S. auto.
  - apply wpc_bind. eapply wpc_post; [|exact (wpc_acquire p lk S k _ L_WRITE false H (wl_rl _ W) ltac:(discriminate))].
    intros [lk'|e] k1 B.
    + destruct B as (f & -> & _ & H1 & _). cbn [chain_fd lk_with lk_chain]. fold (lk_with lk (Some (f, nc_name (g_chain g), L_WRITE))).
      eapply neut_step; [exact H1|apply dcond_with with (wr := true); reflexivity|apply neut_cgen_unload; try reflexivity; apply HA; left; reflexivity|].
      intros [] T k2 H2 HT _. eapply wpc_release_back; eauto. intros k3 H3 _.
      eapply wpc_post; [|apply (IH T k3 H3)].
      * intros [] k4 (U & A1 & A2). exists U. auto.
      * intros g' G. eapply hokr_mono; [exact HT|]. apply HA. right. exact G.
    + destruct B as [H1 _]. apply wpc_bind. eapply wpc_post; [|apply (IH S k1 H1)].
      * intros [] k2 (T & H2 & HT).
        assert (N : neut None false T (cgen_free g) anyq).
        { apply neut_cgen_free. eapply hokr_mono; [exact HT|]. apply HA. left. reflexivity. }
        assert (N' : neut None false T (cgen_free g) (fun _ U => forall y, T y -> U y)) by (eapply neut_mono; [|exact N]; auto).
        eapply wpc_post; [|exact (neut_wpc p lk None false _ T _ k2 N' H2 (dcond_none _ _))].
        intros [] k3 (U & A1 & A2). exists U. auto.
      * intros g' G. apply HA. right. exact G.
Qed.

Lemma wpc_flush_all p lk mm S k : wl lk -> full lk -> st p lk S k ->
  wpc p (flush_all mm lk) (fun _ k' => exists T : fd -> Prop, st p lk T k' /\ (forall y, S y -> T y)) k.
Proof.
  intros W F H. unfold flush_all. apply wpc_bind. eapply wpc_post; [|exact (wpc_get_cgens p lk mm S k (wl_rl _ W) F H)].
  intros [gs|e] k1 (T & H1 & HT & G).
  - apply wpc_bind. eapply wpc_post; [|exact (wpc_unload_all p lk W F gs T k1 H1 G)].
    intros [] k2 (U & H2 & HU). eapply wpc_ret_st; [exact H2|]. intros k3 H3 _ _. exists U. auto.
  - eapply wpc_ret_st; [exact H1|]. intros k3 H3 _ _. exists T. auto.
Qed.

Lemma wpc_set_one p lk mm c o : wl lk -> full lk -> forall S k,
  st p lk S k -> wpc p (set_one mm lk c o) (fun _ k' => exists T, st p lk T k') k.
Proof.
  intros W (F1 & F2 & F3) S k H.
  assert (ER : forall (T : fd -> Prop) k' (r : res unit), st p lk T k' -> wpc p (Ret r) (fun _ k' => exists T, st p lk T k') k').
  { intros T k' e H'. eapply wpc_ret_st; [exact H'|]. intros k1 H1 _ _. exists T. exact H1. }
  unfold set_one.
  eapply neut_step; [exact H|apply (dcond_none _ false)|apply neut_copy_chain|]. intros [c'|e] T1 k1 H1 HT1 _; [|eapply ER; eauto].
  eapply neut_step; [exact H1|apply (dcond_none _ false)|apply neut_copy_opts|]. intros [[]|e] T2 k2 H2 HT2 _; [|eapply ER; eauto].
  eapply neut_step; [exact H2|apply (dcond_none _ false)|apply neut_cgen_new|]. intros [g|e] T3 k3 H3 HT3 P; [|eapply ER; eauto].
  specialize (P g eq_refl). subst g.
  apply wpc_bind. eapply wpc_post; [|exact (wpc_acquire p lk T3 k3 _ L_WRITE true H3 (wl_rl _ W) ltac:(discriminate))].
  intros [lk'|e] k4 B.
  + destruct B as (f & -> & _ & H4 & _). cbn [chain_fd lk_with lk_chain g_chain nc_name].
    fold (lk_with lk (Some (f, nc_name c', L_WRITE))).
    eapply neut_step; [exact H4|apply dcond_with with (wr := true); reflexivity|apply neut_cgen_set; try reflexivity; apply hokr_new|].
    intros [g r] T4 k5 H5 HT4 P. eapply wpc_release_back; eauto. intros k6 H6 _.
    eapply neut_step; [exact H6|apply (dcond_none _ false)|apply neut_cgen_free; exact P|]. intros [] T5 k7 H7 HT5 _.
    eapply ER; exact H7.
  + destruct B as [H4 _].
    eapply neut_step; [exact H4|apply (dcond_none _ false)|apply neut_cgen_free; apply hokr_new|]. intros [] T5 k7 H7 HT5 _. eapply ER; exact H7.
Qed.
Lemma wpc_set_chains p lk mm : wl lk -> full lk -> forall l i S k,
  st p lk S k -> wpc p (set_chains mm lk i l) (fun _ k' => exists T, st p lk T k') k.
Proof.
  intros W F. induction l as [|[c o] l IH]; intros i S k H; cbn [set_chains].
  - eapply wpc_ret_st; [exact H|]. intros k1 H1 _ _. exists S. auto.
  - apply wpc_bind. eapply wpc_post; [|exact (wpc_set_one p lk (mm i) c o W F S k H)].
    intros [[]|e] k1 (T & H1); [eapply IH; exact H1|]. eapply wpc_ret_st; [exact H1|]. intros k2 H2 _ _. exists T. exact H2.
Qed.

Lemma init_full {lk : lock} : lk_bpffs lk <> None -> lk_pin lk <> None -> lk_chain lk = None -> full lk.
Proof. repeat split; assumption. Qed.

(** Start of a call: the lock on the pin directory. *)
Lemma with_init {A} p S k m (f : res lock -> prog A) :
  st p empty_lock S k -> (forall e k', st p empty_lock S k' -> wpc p (f (Er e)) (done p) k') ->
  (forall lk k', st p lk S k' -> full lk -> lk_pinmode lk = m -> wpc p (f (Ok lk)) (done p) k') ->
  wpc p (pbind (lock_init m) f) (done p) k.
Proof.
  intros H E O. apply wpc_bind. eapply wpc_post; [|exact (wpc_lock_init p S k m H)].
  intros [lk|e] k1 B; [|apply E, B]. destruct B as (B1 & B2 & B3 & B4 & H1). apply O; auto. apply init_full; auto.
Qed.

Lemma wpc_ruleset_get p S k mm : st p empty_lock S k -> wpc p (ruleset_get mm) (done p) k.
Proof.
  intros H. unfold ruleset_get. eapply with_init; [exact H| |].
  - intros e k1 H1. eapply wpc_done; eauto.
  - intros lk k1 H1 F M. assert (W : rl lk) by (split; [apply F|rewrite M; discriminate]).
    apply wpc_bind. eapply wpc_post; [|exact (wpc_get_cgens p lk mm S k1 W F H1)].
    intros [gs|e] k2 (T & H2 & HT & G); [|eapply cleanup_done; exact H2].
    eapply neut_step; [exact H2|apply (dcond_none _ false)|apply neut_get_rules|]. intros x U k3 H3 HU _.
    eapply neut_step; [exact H3|apply (dcond_none _ false)|apply neut_free_cgens|].
    + intros g X. eapply hokr_mono; [exact HU|]. apply G, X.
    + intros [] V k4 H4 HV _. eapply cleanup_done; exact H4.
Qed.

Lemma wpc_ruleset_flush p S k mm : st p empty_lock S k -> wpc p (ruleset_flush mm) (done p) k.
Proof.
  intros H. unfold ruleset_flush. eapply with_init; [exact H| |].
  - intros e k1 H1. eapply wpc_done; eauto.
  - intros lk k1 H1 F M. assert (W : wl lk) by (split; [apply F|exact M]).
    apply wpc_bind. eapply wpc_post; [|exact (wpc_flush_all p lk mm S k1 W F H1)].
    intros r k2 (T & H2 & _). eapply cleanup_done; exact H2.
Qed.

Lemma wpc_ruleset_set p S k m1 m2 m3 cs os : st p empty_lock S k -> wpc p (ruleset_set m1 m2 m3 cs os) (done p) k.
Proof.
  intros H. unfold ruleset_set. destruct (negb _); [eapply wpc_done; exact H|]. eapply with_init; [exact H| |].
  - intros e k1 H1. eapply wpc_done; eauto.
  - intros lk k1 H1 F M. assert (W : wl lk) by (split; [apply F|exact M]).
    apply wpc_bind. eapply wpc_post; [|exact (wpc_flush_all p lk m1 S k1 W F H1)].
    intros [[]|e] k2 (T & H2 & _); [|eapply cleanup_done; exact H2].
    apply wpc_bind. eapply wpc_post; [|exact (wpc_set_chains p lk m2 W F _ 0 T k2 H2)].
    intros [[]|e] k3 (U & H3); [eapply cleanup_done; exact H3|].
    apply wpc_bind. eapply wpc_post; [|exact (wpc_flush_all p lk m3 U k3 W F H3)].
    intros r k4 (V & H4 & _). eapply cleanup_done; exact H4.
Qed.

Lemma wpc_install p lk S k mm c o : wl lk -> full lk -> st p lk S k -> wpc p (install mm lk c o) (done p) k.
Proof.
  intros W F H. unfold install.
  eapply neut_step; [exact H|apply (dcond_none _ false)|apply neut_copy_chain|]. intros [c'|e] T1 k1 H1 HT1 _; [|eapply cleanup_done; exact H1].
  eapply neut_step; [exact H1|apply (dcond_none _ false)|apply neut_copy_opts|]. intros [[]|e] T2 k2 H2 HT2 _; [|eapply cleanup_done; exact H2].
  eapply neut_step; [exact H2|apply (dcond_none _ false)|apply neut_cgen_new|]. intros [g|e] T3 k3 H3 HT3 P; [|eapply cleanup_done; exact H3].
  specialize (P g eq_refl). subst g.
  apply wpc_bind. eapply wpc_post; [|exact (wpc_acquire p lk T3 k3 _ L_WRITE true H3 (wl_rl _ W) ltac:(discriminate))].
  intros [lk'|e] k4 B.
  - destruct B as (f & -> & _ & H4 & _). cbn [chain_fd lk_with lk_chain]. fold (lk_with lk (Some (f, nc_name c, L_WRITE))).
    eapply neut_step; [exact H4|apply dcond_with with (wr := true); reflexivity|apply neut_cgen_set; try reflexivity; apply hokr_new|].
    intros [g r] T4 k5 H5 HT4 P.
    eapply neut_step; [exact H5|apply (dcond_none _ false)|apply neut_cgen_free; exact P|]. intros [] T5 k6 H6 HT5 _.
    eapply cleanup_done; exact H6.
  - destruct B as [H4 _].
    eapply neut_step; [exact H4|apply (dcond_none _ false)|apply neut_cgen_free; apply hokr_new|]. intros [] T5 k6 H6 HT5 _.
    eapply cleanup_done; exact H6.
Qed.

Lemma wpc_chain_set p S k m1 m2 c o : st p empty_lock S k -> wpc p (chain_set m1 m2 c o) (done p) k.
Proof.
  intros H. unfold chain_set. eapply with_init; [exact H| |].
  - intros e k1 H1. eapply wpc_done; eauto.
  - intros lk k1 H1 F M. assert (W : wl lk) by (split; [apply F|exact M]).
    pose proof F as (F1 & F2 & F3).
    apply wpc_bind. eapply wpc_post; [|exact (wpc_acquire p lk S k1 _ L_WRITE false H1 (wl_rl _ W) ltac:(discriminate))].
    intros [lk'|e] k2 B.
    + destruct B as (f & -> & _ & H2 & _). rewrite get_cgen_eq.
      eapply neut_step; [exact H2|apply dcond_with with (wr := true); reflexivity|apply neut_cgen_restore; reflexivity|].
      intros [g|e] T k3 H3 HT P.
      * cbn [chain_fd lk_with lk_chain]. fold (lk_with lk (Some (f, nc_name c, L_WRITE))).
        eapply neut_step; [exact H3|apply dcond_with with (wr := true); reflexivity|apply neut_cgen_unload; try reflexivity; apply P; reflexivity|].
        intros [] U k4 H4 HU _. eapply wpc_release_back; eauto. intros k5 H5 _. eapply wpc_install; eauto.
      * destruct (e =? ENOENT).
        -- eapply wpc_release_back; eauto. intros k5 H5 _. eapply wpc_install; eauto.
        -- eapply wpc_release_back; eauto. intros k5 H5 _. eapply cleanup_done; exact H5.
    + destruct B as [H2 _]. destruct (e =? ENOENT); [eapply wpc_install; eauto|eapply cleanup_done; exact H2].
Qed.

Lemma lock_eta lk f n m : lk_chain lk = Some (f, n, m) -> lk = lk_with (lk_with lk None) (Some (f, n, m)).
Proof. destruct lk as [a b c d]. cbn. unfold lk_with. cbn. intros ->. reflexivity. Qed.

Lemma wpc_with_chain {A} p S k mm n pm cm (body : lock -> fd -> cgen -> prog (cgen * res A)) :
  st p empty_lock S k -> pm <> L_NONE -> cm <> L_NONE ->
  (forall lk d g (T : fd -> Prop), hokr T (g_handle g) -> neut (Some d) (is_write cm) T (body lk d g) cres2) ->
  wpc p (with_chain mm n pm cm body) (done p) k.
Proof.
  intros H Hp Hc HB. unfold with_chain. apply wpc_bind.
  eapply wpc_post; [|exact (wpc_init_for_chain p S k n pm cm false H Hp Hc)].
  intros [lk|e] k1 B; [|eapply wpc_done; exact B].
  destruct B as (f & B1 & B2 & B3 & B4 & H1).
  assert (D : forall wr, (wr = true -> is_write cm = true) -> dcond lk (Some f) wr).
  { intros wr Hw x X. injection X as <-. exists n, cm. split; [exact B4|]. intros E. specialize (Hw E). destruct cm; try discriminate Hw; reflexivity. }
  unfold get_cgen, chain_fd. rewrite B4.
  eapply neut_step; [exact H1|apply (D false); discriminate|apply neut_cgen_restore; reflexivity|].
  intros [g|e] T k2 H2 HT P; [|eapply cleanup_done; exact H2].
  eapply neut_step; [exact H2|apply (D (is_write cm)); auto|apply HB, P; reflexivity|].
  intros [g' r] U k3 H3 HU P3.
  eapply neut_step; [exact H3|apply (dcond_none _ false)|apply neut_cgen_free; exact P3|]. intros [] V k4 H4 HV _.
  eapply cleanup_done; exact H4.
Qed.

Lemma neut_dup d wr S f (g : cgen) : hokr S (g_handle g) -> neut d wr S (pbind (sys_fd (C_dup f)) (fun r => Ret (g, r))) cres2.
Proof.
  intros H. eapply neut_seq; [apply neut_sys_fd; exact Logic.I|]. intros r T HT _. cbn [neut]. exact (hokr_mono _ _ _ HT H).
Qed.

Lemma wpc_unlink_all p lk S s : wl lk -> forall l d k (i : ino) m,
  st p lk S k -> desc_of k p d = Some (D_dir i m) -> desc_of k p s = Some (D_dir i L_WRITE) -> wpc p (unlink_all d l) (fun _ k' => st p lk S k') k.
Proof.
  intros W. induction l as [|q l IH]; intros d k i m H D DS; cbn [unlink_all].
  - eapply wpc_ret_st; [exact H|]. auto.
  - apply wpc_do. intros k1 R. pose proof (st_rely _ _ _ _ _ R H) as H1. rewrite <- (re_desc _ _ _ R) in D, DS.
    split; [exists i, m; split; [exact D|split; [exact (st_locked _ _ _ _ H1 (wl_rl _ W))|exists s; exact DS]]|]. intros x.
    pose proof (st_sys p lk S k1 (C_unlink d q) x eq_refl eq_refl H1) as H2.
    assert (Dd : desc_of (fst (ksys k1 p (C_unlink d q) x)) p d = Some (D_dir i m)).
    { rewrite ksys_desc; [exact D| |reflexivity]. exact (desc_lt _ _ _ _ (st_inv _ _ _ _ H1) D). }
    assert (Ds : desc_of (fst (ksys k1 p (C_unlink d q) x)) p s = Some (D_dir i L_WRITE)).
    { rewrite ksys_desc; [exact DS| |reflexivity]. exact (desc_lt _ _ _ _ (st_inv _ _ _ _ H1) DS). }
    assert (E : forall a : res unit, wpc p (match a with Er e => Ret (Er e) | Ok _ => unlink_all d l end)
        (fun _ k' => st p lk S k') (fst (ksys k1 p (C_unlink d q) x))).
    { intros [[]|e]; [exact (IH d _ i m H2 Dd Ds)|]. eapply wpc_ret_st; [exact H2|]. auto. }
    destruct (snd (ksys k1 p (C_unlink d q) x)); first [exact (E (Er e)) | exact (E (Ok tt))].
Qed.

(** Removing a staging directory that is locked through another descriptor. *)
Lemma wpc_rmdir_recursive p lk S k pd n s :
  wl lk -> full lk -> lk_pin lk = Some pd -> st p (lk_with lk (Some (s, n, L_WRITE))) S k ->
  wpc p (rmdir_recursive pd n) (fun _ k' => st p lk S k') k.
Proof.
  intros W F PD H. pose proof F as (F1 & F2 & F3). set (lk' := lk_with lk (Some (s, n, L_WRITE))) in *.
  assert (W' : wl lk') by exact W.
  assert (DR : forall k', st p lk' S k' -> st p lk S k').
  { intros k' H'. rewrite <- (lk_with_none lk F3). exact (st_without_chain p lk' S k' H'). }
  unfold rmdir_recursive. apply wpc_bind. eapply wpc_post; [|exact (wpc_opendir p lk' S k pd n H (wl_rl _ W'))].
  intros [d|e] k1 (H1 & E1 & B); [|eapply wpc_ret_st; [exact H1|]; intros k2 H2 _ _; apply DR, H2].
  destruct B as (NH & i & Hd & Hi). specialize (Hi W'). rewrite <- (tq_ents _ _ _ (E1 W')) in Hi.
  assert (DS : desc_of k1 p s = Some (D_dir i L_WRITE)).
  { destruct (hl_chain _ _ _ (st_held _ _ _ _ H1) _ _ _ eq_refl) as (_ & _ & _ & j & Dj & Fj). congruence. }
  assert (CL : forall k', st p lk' S k' -> wpc p (sys_ (C_close d)) (fun _ k'' => st p lk S k'') k').
  { intros k' H'. eapply wpc_post; [|exact (wpc_close p lk' S k' d NH H')]. intros [] k'' H''. apply DR, H''. }
  apply wpc_do. intros k2 R. pose proof (st_rely _ _ _ _ _ R H1) as H2. rewrite <- (re_desc _ _ _ R) in Hd, DS.
  split; [exists i, L_NONE; split; [exact Hd|split; [exact (st_locked _ _ _ _ H2 (wl_rl _ W'))|exists s, L_WRITE; split; [exact DS|discriminate]]]|]. intros x.
  pose proof (st_sys p lk' S k2 (C_listdir d) x eq_refl eq_refl H2) as H3.
  assert (Dd : desc_of (fst (ksys k2 p (C_listdir d) x)) p d = Some (D_dir i L_NONE)).
  { rewrite ksys_desc; [exact Hd| |reflexivity]. exact (desc_lt _ _ _ _ (st_inv _ _ _ _ H2) Hd). }
  assert (Ds : desc_of (fst (ksys k2 p (C_listdir d) x)) p s = Some (D_dir i L_WRITE)).
  { rewrite ksys_desc; [exact DS| |reflexivity]. exact (desc_lt _ _ _ _ (st_inv _ _ _ _ H2) DS). }
  destruct (snd (ksys k2 p (C_listdir d) x)); try (apply CL, H3).
  apply wpc_bind. eapply wpc_post; [|exact (wpc_unlink_all p lk' S s W' l d _ i L_NONE H3 Dd Ds)].
  intros [[]|e] k3 H4; [|apply CL, H4].
  eapply wpc_close'; [exact NH|exact H4|]. intros k4 H5 _.
  apply wpc_do. intros k5 R5. pose proof (st_rely _ _ _ _ _ R5 H5) as H6.
  destruct (hl_chain _ _ _ (st_held _ _ _ _ H6) _ _ _ eq_refl) as (_ & _ & _ & j & Dj & Fj).
  split.
  - split; [exact (st_locked _ _ _ _ H6 (wl_rl _ W'))|]. intros j' Hj'. left. exists s. congruence.
  - intros y. eapply wpc_ret_st; [|intros k6 H7 _ _; exact H7]. apply st_sys_nochain; [reflexivity|exact F3|]. apply DR, H6.
Qed.

Lemma wpc_sweep_entries p lk S pd : wl lk -> full lk -> lk_pin lk = Some pd -> forall l k,
  st p lk S k -> wpc p (sweep_entries pd l) (fun _ k' => st p lk S k') k.
Proof.
  intros W F PD. induction l as [|n l IH]; intros k H; cbn [sweep_entries].
  - eapply wpc_ret_st; [exact H|]. auto.
  - apply wpc_bind. eapply wpc_post with (Q := fun _ k' => st p lk S k'); [intros [] k'; apply IH|].
    destruct (is_staging n); [|eapply wpc_ret_st; [exact H|]; auto].
    apply wpc_bind. eapply wpc_post; [|exact (wpc_opendir p lk S k pd n H (wl_rl _ W))].
    intros [s|e] k1 (H1 & E1 & B); [|eapply wpc_ret_st; [exact H1|]; auto].
    destruct B as (NH & i & Hd & Hi). specialize (Hi W).
    apply wpc_bind. eapply wpc_post; [|exact (wpc_flock p lk S k1 s L_WRITE i H1 NH Hd)].
    intros [[]|e] k2 (H2 & E2 & B); [|apply wpc_close; assumption].
    assert (Hi2 : ent_find n (k_ents k2) = Some i).
    { rewrite (tq_ents _ _ _ (E2 W)), (tq_ents _ _ _ (E1 W)). exact Hi. }
    pose proof (st_with_chain p lk S k2 s n L_WRITE i H2 (wl_rl _ W) ltac:(discriminate) B Hi2) as H2'.
    apply wpc_bind. eapply wpc_post; [|exact (wpc_rmdir_recursive p lk S k2 pd n s W F PD H2')].
    intros [] k3 H3. apply wpc_close; assumption.
Qed.

Lemma wpc_sweep p S k : st p empty_lock S k -> wpc p sweep_staging (done p) k.
Proof.
  intros H. unfold sweep_staging. eapply with_init; [exact H| |].
  - intros e k1 H1. eapply wpc_done; eauto.
  - intros lk k1 H1 F M. assert (W : wl lk) by (split; [apply F|exact M]).
    assert (CL : forall k', st p lk S k' -> wpc p (lock_cleanup lk) (done p) k').
    { intros k' H'. eapply wpc_post; [|exact (wpc_cleanup p lk S k' H')]. intros [] k2 H2. exists S. exact H2. }
    destruct (lk_pin lk) as [pd|] eqn:PD; [|eapply wpc_done; eauto].
    eapply wpc_plain; [reflexivity|exact H1|intros; exact Logic.I|]. intros k2 d H2 _ H3 _.
    destruct (snd (ksys k2 p (C_readdir pd) d)); try (apply CL, H3).
    apply wpc_bind. eapply wpc_post; [|exact (wpc_sweep_entries p lk S pd W F PD l _ H3)].
    intros [] k4 H4. apply CL, H4.
Qed.

Lemma wpc_chain_load p S k mm c : st p empty_lock S k -> wpc p (chain_load mm c) (done p) k.
Proof.
  intros H. unfold chain_load. apply wpc_bind.
  eapply wpc_post; [|exact (wpc_init_for_chain p S k _ L_WRITE L_WRITE true H ltac:(discriminate) ltac:(discriminate))].
  intros [lk|e] k1 B; [|eapply wpc_done; exact B].
  destruct B as (f & B1 & B2 & B3 & B4 & H1).
  eapply neut_step; [exact H1|apply (dcond_none _ false)|apply neut_copy_chain|]. intros [c'|e] T1 k2 H2 HT1 _; [|eapply cleanup_done; exact H2].
  eapply neut_step; [exact H2|apply (dcond_none _ false)|apply neut_cgen_new|]. intros [g|e] T3 k3 H3 HT3 P; [|eapply cleanup_done; exact H3].
  specialize (P g eq_refl). subst g. unfold chain_fd. rewrite B4.
  assert (D : dcond lk (Some f) true).
  { intros x X. injection X as <-. exists (nc_name c), L_WRITE. split; [exact B4|reflexivity]. }
  eapply neut_step; [exact H3|exact D|apply neut_cgen_set; try reflexivity; apply hokr_new|]. intros [g r] T4 k4 H4 HT4 P.
  eapply neut_step; [exact H4|apply (dcond_none _ false)|apply neut_cgen_free; exact P|]. intros [] T5 k5 H5 HT5 _.
  eapply cleanup_done; exact H5.
Qed.

Lemma wpc_forget {A} p (m : prog A) k : wpc p m (done p) k -> wpc p (forget m) (done p) k.
Proof.
  intros H. unfold forget. apply wpc_bind. eapply wpc_post; [|exact H]. intros a k1 [T H1]. eapply wpc_done; exact H1.
Qed.

(** Every API call, from any state in which the process holds no lock. *)
Theorem wpc_api p k a : kinv k -> wpc p (run_api a) (done p) k.
Proof.
  intros K. assert (H : st p empty_lock (fun _ => False) k) by (apply st_bare; [exact K|intros f []]).
  destruct a; cbn [run_api]; try apply wpc_forget.
  - eapply wpc_sweep; exact H.
  - eapply wpc_ruleset_get; exact H.
  - eapply wpc_ruleset_set; exact H.
  - eapply wpc_ruleset_flush; exact H.
  - eapply wpc_chain_set; exact H.
  - unfold chain_get; eapply wpc_with_chain; [exact H|discriminate|discriminate|]. intros lk d g T HG.
    eapply neut_seq; [apply neut_load_counters|]. intros [cs|e] U HU _; [|exact (hokr_mono _ _ _ HU HG)].
    eapply neut_seq; [apply neut_copy_opts|]. intros [[]|e] V HV _; cbn [neut]; unfold cres2; cbn [fst];
      (eapply hokr_mono; [|exact HG]); auto.
  - unfold chain_prog_fd; eapply wpc_with_chain; [exact H|discriminate|discriminate|]. intros lk d g T HG.
    destruct (h_prog (g_handle g)); [apply neut_dup, HG|exact HG].
  - unfold chain_logs_fd; eapply wpc_with_chain; [exact H|discriminate|discriminate|]. intros lk d g T HG.
    destruct (h_lmap (g_handle g)); [apply neut_dup, HG|exact HG].
  - eapply wpc_chain_load; exact H.
  - unfold chain_attach; eapply wpc_with_chain; [exact H|discriminate|discriminate|]. intros lk d g T HG.
    destruct (h_link (g_handle g)); [exact HG|]. destruct (validate _ _); [|exact HG].
    eapply neut_seq; [apply neut_copy_opts|]. intros [[]|e] V HV _; [|exact (hokr_mono _ _ _ HV HG)].
    apply neut_cgen_attach; try reflexivity. exact (hokr_mono _ _ _ HV HG).
  - unfold chain_update; eapply wpc_with_chain; [exact H|discriminate|discriminate|]. intros lk d g T HG.
    eapply neut_seq; [apply neut_copy_chain|]. intros [c'|e] V HV _; [|exact (hokr_mono _ _ _ HV HG)].
    apply neut_cgen_update; try reflexivity. exact (hokr_mono _ _ _ HV HG).
  - unfold chain_update_set. destruct (negb _); [eapply wpc_done; exact H|].
    eapply wpc_with_chain; [exact H|discriminate|discriminate|]. intros lk d g T HG.
    eapply neut_seq; [apply neut_copy_chain|]. intros [c'|e] V HV _; [|exact (hokr_mono _ _ _ HV HG)].
    destruct (find_set _ _ _) as [[i u]|]; [|exact (hokr_mono _ _ _ HV HG)].
    eapply neut_seq; [apply neut_copy_set|]. intros [a|e] W HW _; [|cbn [neut]; unfold cres2; cbn [fst]; eapply hokr_mono; [|exact HG]; auto].
    eapply neut_seq; [apply neut_copy_set|]. intros [r|e] X HX _; [|cbn [neut]; unfold cres2; cbn [fst]; eapply hokr_mono; [|exact HG]; auto].
    destruct (set_edit _ _ _ _ _) as [u'|e]; [|cbn [neut]; unfold cres2; cbn [fst]; eapply hokr_mono; [|exact HG]; auto].
    destruct (bset_of u') as [b|e]; [|cbn [neut]; unfold cres2; cbn [fst]; eapply hokr_mono; [|exact HG]; auto].
    apply neut_cgen_update; try reflexivity. eapply hokr_mono; [|exact HG]; auto.
  - unfold chain_flush; eapply wpc_with_chain; [exact H|discriminate|discriminate|]. intros lk d g T HG.
    eapply neut_seq; [apply neut_cgen_unload; try reflexivity; exact HG|]. intros [] V HV _. cbn [neut]. apply hokr_new.
Qed.

(** ** The system *)
Definition sinv (s : system) : Prop :=
  kinv (s_kernel s) /\ forall p m, s_proc s p = Inside m -> wpc p m (done p) (s_kernel s).

Lemma quiet_sinv s : quiet s -> sinv s.
Proof.
  intros (A & B & C & D & E). split.
  - constructor.
    + rewrite A. discriminate.
    + intros n i H. apply ent_find_in in H. eapply E; exact H.
    + intros n m i H1 H2. apply ent_find_in in H1, H2.
      revert C D H1 H2. generalize (k_ents (s_kernel s)). induction l as [|[a j] l IH]; intros C D H1 H2; [contradiction H1|].
      cbn [map fst snd] in C, D. inversion C; subst. inversion D; subst.
      destruct H1 as [H1|H1]; destruct H2 as [H2|H2].
      * congruence.
      * injection H1 as -> ->. exfalso. apply H5. apply (in_map snd) in H2. exact H2.
      * injection H2 as -> ->. exfalso. apply H5. apply (in_map snd) in H1. exact H1.
      * apply IH; assumption.
    + rewrite A. discriminate.
    + rewrite A. discriminate.
  - intros p m H. rewrite B in H. discriminate H.
Qed.

(** In every step the others can rely on their part. *)

Lemma step_rely s e s' p : sinv s -> step s e s' -> actor e <> p -> rely p (s_kernel s) (s_kernel s').
Proof.
  intros [K I] H N. destruct H; cbn [s_kernel actor] in *; try apply rely_refl.
  - apply rely_sys; [exact K|congruence|]. specialize (I _ _ H). cbn [wpc] in I. apply (I _ (rely_refl _ _)).
  - eapply rely_close with (q := p0); [congruence|]. exists d. exact H0.
Qed.

Lemma step_sinv s e s' : sinv s -> step s e s' -> sinv s'.
Proof.
  intros HI H. pose proof HI as [K I]. split.
  - destruct H; cbn [s_kernel]; try exact K; [apply ksys_kinv, K|apply kinv_del, K].
  - intros q m Hq.
    destruct (N.eq_dec (actor e) q) as [E|E].
    + destruct H; cbn [actor s_kernel s_proc set_proc] in *; subst q; unfold set_proc, updN in Hq; try rewrite N.eqb_refl in Hq.
      * injection Hq as <-. apply wpc_api, K.
      * injection Hq as <-. specialize (I _ _ H). cbn [wpc] in I. apply (I _ (rely_refl _ _)).
      * discriminate Hq.
      * discriminate Hq.
      * congruence.
    + apply wpc_rely with (k := s_kernel s); [eapply step_rely; eauto|].
      apply I. rewrite <- Hq. symmetry. destruct H; cbn [actor s_proc set_proc] in *; unfold set_proc, updN; try reflexivity;
        (destruct (N.eqb_spec q p) as [->|]; [congruence|reflexivity]).
Qed.

Lemma execution_sinv s0 l s : sinv s0 -> execution s0 l s -> sinv s.
Proof. intros H E. induction E; [exact H|]. eapply step_sinv; eauto. Qed.

Lemma reachable_sinv s : reachable s -> sinv s.
Proof. intros (s0 & l & Q & E). eapply execution_sinv; [apply quiet_sinv, Q|exact E]. Qed.
