(** The operations on one existing chain: lock, restore, act, release. *)
From Coq Require Import NArith ZArith List Bool Lia.
From Verif Require Import Bytes Types World BpfModel GenModel BytesFacts StrModel SetModel MapModel PackModel PackSpec PackFacts4 HookModel KernModel LockModel CtlModel SysSpec SysFacts RelyFacts SeqFacts StageFacts EvoFacts CtlSpec HandleFacts PinFacts AttachFacts LockSeqFacts LoadFacts RestoreFacts.
Import ListNotations.
Local Open Scope N_scope.

Lemma trim_grow p S k0 k m n : sane k0 -> grow p S k0 k -> trim k m n = trim k0 m n.
Proof.
  intros S0 G. unfold trim. destruct m; try apply (ev_ents _ _ _ _ _ _ _ G). rewrite (ev_ents _ _ _ _ _ _ _ G).
  destruct (ent_find n (k_ents k0)) as [i|] eqn:E; [|reflexivity].
  rewrite (ev_dirs _ _ _ _ _ _ _ G i (sane_ent _ S0 _ _ E)); [reflexivity|discriminate].
Qed.
Lemma loaded_grow F p mm S k0 k1 i r k' : sane k0 -> grow p S k0 k1 -> i < k_next k0 -> loaded F p mm k1 i r k' ->
  match r with
  | Ok g => exists o t hd, dview k0 i P_ctx = Some o /\ k_objs k0 o = Some (O_ctx (Some (t, hd))) /\
      chain_unpack (m_nd mm) (m_tb mm) t = Ok (g_chain g) /\ grow p (hfds (g_handle g) ++ S) k0 k' /\
      (forall q f, In (q, f) (hpins (g_handle g)) -> k_next k1 <= f /\ got1 k0 k' p i q f) /\
      handle_desc (g_handle g) = hd /\ h_prog (g_handle g) <> None /\ lost_extra F k0 i (h_link (g_handle g)) /\ prog_apart (g_handle g)
  | Er e => grow p S k0 k' /\
      (faulty F \/ (dview k0 i P_ctx = None /\ e = ENOENT) \/
       (exists o, dview k0 i P_ctx = Some o /\ forall x, k_objs k0 o <> Some (O_ctx (Some x))) \/
       exists o t hd, dview k0 i P_ctx = Some o /\ k_objs k0 o = Some (O_ctx (Some (t, hd))) /\
         (chain_unpack (m_nd mm) (m_tb mm) t = Er e \/ lacks F k0 i (rnames hd) e))
  end.
Proof.
  intros S0 G L. pose proof (ev_next _ _ _ _ _ _ _ G) as NX. destruct r as [g|e]; cbn [loaded].
  - intros (o & t & hd & A & B & C & (G1 & GO & HD & HP & LX & AP)). rewrite (dview_grow _ _ _ _ _ _ G L) in A.
    exists o, t, hd. destruct (sane_pin _ S0 _ _ _ A) as (v & OV). rewrite (grow_obj _ _ _ _ _ _ G S0 OV) in B.
    split; [exact A|]. split; [congruence|]. split; [exact C|]. split; [exact (grow_trans _ _ _ _ _ _ G G1)|]. split; [|split; [exact HD|split; [exact HP|split; [|exact AP]]]].
    + intros q f H. destruct (GO q f H) as (L1 & ob & X & Y). rewrite (dview_grow _ _ _ _ _ _ G L) in X. split; [exact L1|]. split; [lia|]. eauto.
    + unfold lost_extra in *. rewrite (dview_grow _ _ _ _ _ _ G L) in LX. exact LX.
  - intros (G1 & C). split; [exact (grow_trans _ _ _ _ _ _ G G1)|]. rewrite (dview_grow _ _ _ _ _ _ G L) in C.
    destruct C as [C|[C|[(o & A & B)|(o & t & hd & A & B & C)]]]; [auto|auto| |].
    + right. right. left. exists o. split; [exact A|]. destruct (sane_pin _ S0 _ _ _ A) as (v & OV). rewrite (grow_obj _ _ _ _ _ _ G S0 OV) in B. rewrite OV. exact B.
    + right. right. right. exists o, t, hd. destruct (sane_pin _ S0 _ _ _ A) as (v & OV). rewrite (grow_obj _ _ _ _ _ _ G S0 OV) in B.
      split; [exact A|]. split; [congruence|]. destruct C as [C|[C|(C & q & C1 & C2)]]; [auto|right; left; exact C|].
      right. right. split; [exact C|]. exists q. rewrite (dview_grow _ _ _ _ _ _ G L) in C2. auto.
Qed.

(** Why an existing chain cannot be worked on. *)
Definition unread (F : call -> bool) (mm : mem) (k0 : kst) (i : ino) (e : N) : Prop :=
  faulty F \/ (dview k0 i P_ctx = None /\ e = ENOENT) \/
  (exists o, dview k0 i P_ctx = Some o /\ forall x, k_objs k0 o <> Some (O_ctx (Some x))) \/
  exists o t hd, dview k0 i P_ctx = Some o /\ k_objs k0 o = Some (O_ctx (Some (t, hd))) /\
    (chain_unpack (m_nd mm) (m_tb mm) t = Er e \/ lacks F k0 i (rnames hd) e).
Definition unopened (F : call -> bool) (mm : mem) (k0 : kst) (n : name) (pm cm : lmode) (e : N) : Prop :=
  faulty F \/ clash k0 (D_pindir L_NONE) pm \/ (e = ENOENT /\ ent_find n (k_ents k0) = None) \/
  exists i, ent_find n (k_ents k0) = Some i /\ (clash k0 (D_dir i L_NONE) cm \/ unread F mm k0 i e).

Lemma clash_dir_back p S k0 k b f i m pm' : sane k0 -> grow p S k0 k -> (forall x, In x S -> x = b \/ x = f) ->
  desc_of k p b = Some D_bpffs -> desc_of k p f = Some (D_pindir pm') -> clash k (D_dir i L_NONE) m -> clash k0 (D_dir i L_NONE) m.
Proof.
  intros S0 G HS DB DF (g & q & d & A & B & C). exists g, q, d. split; [|auto].
  destruct (N.lt_ge_cases g (k_next k0)) as [L|L].
  - rewrite <- (ev_old _ _ _ _ _ _ _ G g L). exact A.
  - exfalso. destruct (ev_new _ _ _ _ _ _ _ G g L) as [X|[X (d' & Y)]]; [congruence|]. rewrite A in Y. injection Y as -> ->.
    destruct (HS g X) as [-> | ->].
    + rewrite (find_desc_of _ _ _ _ A) in DB. injection DB as ->. discriminate B.
    + rewrite (find_desc_of _ _ _ _ A) in DF. injection DF as ->. discriminate B.
Qed.

(** The state in which the body starts. *)
Record opened_chain (F : call -> bool) (p : pid) (mm : mem) (k0 : kst) (n : name) (pm cm : lmode) (b pd cf : fd) (i : ino) (hd : hdesc) (g : cgen) (k1 : kst) : Prop := {
  oc_ent : ent_find n (k_ents k0) = Some i;
  oc_ctx : exists o t, dview k0 i P_ctx = Some o /\ k_objs k0 o = Some (O_ctx (Some (t, hd))) /\ chain_unpack (m_nd mm) (m_tb mm) t = Ok (g_chain g);
  oc_grow : grow p (hfds (g_handle g) ++ [cf; pd; b]) k0 k1;
  oc_got : forall q f, In (q, f) (hpins (g_handle g)) -> f <> cf /\ f <> pd /\ f <> b /\ got1 k0 k1 p i q f;
  oc_hd : handle_desc (g_handle g) = hd;
  oc_prog : h_prog (g_handle g) <> None;
  oc_extra : lost_extra F k0 i (h_link (g_handle g));
  oc_apart : prog_apart (g_handle g);
  oc_cf : desc_of k1 p cf = Some (D_dir i cm);
  oc_pd : desc_of k1 p pd = Some (D_pindir pm);
  oc_new : k_next k0 <= b /\ k_next k0 <= pd /\ k_next k0 <= cf
}.

(** What the body must leave. *)
Definition leaves {A} (p : pid) (I : kst -> Prop) (Q : res A -> kst -> Prop) (k0 : kst) (n : name) (pm cm : lmode) (b pd cf : fd) (rb : cgen * res A) (k2 : kst) : Prop :=
  exists X M, evo p (k_ents k0) X M (hfds (g_handle (fst rb)) ++ [cf; pd; b]) k0 k2 /\ desc_of k2 p pd = Some (D_pindir pm) /\
    (forall f, In f (hfds (g_handle (fst rb))) -> k_next k0 <= f /\ f <> pd) /\
    (forall E' Z k', cle (trim k2 cm n) k2 k' -> evo p E' X M Z k0 k' -> I k') /\
    (forall k', cle (trim k2 cm n) k2 k' -> evo p (trim k2 cm n) X M [] k0 k' -> Q (snd rb) k').

Lemma with_chain_ok {A} F p (I : kst -> Prop) mm n pm cm (body : lock -> fd -> cgen -> prog (cgen * res A)) (Q : res A -> kst -> Prop) k0 : sane k0 ->
  (forall S k', grow p S k0 k' -> I k') -> (forall S k', evo p (trim k0 cm n) None [] S k0 k' -> I k') ->
  (forall e k', (grow p [] k0 k' \/ evo p (trim k0 cm n) None [] [] k0 k') -> unopened F mm k0 n pm cm e -> Q (Er e) k') ->
  (forall b pd cf i hd g k1, opened_chain F p mm k0 n pm cm b pd cf i hd g k1 ->
     wps F p I (body (mkLk (Some b) (Some pd) pm (Some (cf, n, cm))) cf g) (leaves p I Q k0 n pm cm b pd cf) k1) ->
  wps F p I (with_chain mm n pm cm body) Q k0.
Proof.
  intros S0 HG HT HE HB. unfold with_chain, lock_init_for_chain. cbn [andb].
  apply pbind_assoc. apply wps_bind.
  eapply wps_post with (I := I); [auto| |apply (lock_init_ok F p I pm k0 S0 HG)].
  intros [lk|e] k1.
  2:{ intros (G & C). cbn [pbind]. apply wps_ret; [eapply HG; exact G|]. apply HE; [left; exact G|]. unfold unopened. tauto. }
  intros (b & f & OW & G1 & LB & LF). pose proof (ev_sane _ _ _ _ _ _ _ G1) as S1. pose proof (ev_next _ _ _ _ _ _ _ G1) as N1.
  destruct OW as (-> & DB & DF & NE).
  apply pbind_assoc. apply wps_bind.
  eapply wps_post with (I := I); [auto| |apply (acquire_old_ok F p I _ b f pm n cm k1 S1)]; cycle 1.
  { split; [reflexivity|auto]. }
  { intros S k' G. eapply HG. eapply grow_trans; [exact G1|exact G]. }
  assert (CLEAN0 : forall e k, grow p [f; b] k0 k -> unopened F mm k0 n pm cm e ->
     wps F p I (lock_cleanup (mkLk (Some b) (Some f) pm None) ;;; Ret (Er e)) Q k).
  { intros e k G C. apply wps_bind. eapply wps_post with (I := I); [auto| |apply (lock_cleanup_ok F p I b f pm _ None [] [f; b] [] k0 k S0 G LB LF)].
    - intros [] k3 (G3 & _). apply wps_ret; [eapply HG; exact G3|]. apply HE; [left; exact G3|exact C].
    - intros x [<-|[<-|[]]]; auto.
    - intros Z k' _ E'. eapply HG. exact E'. }
  intros [lk'|e] k2.
  2:{ intros (G & C). apply pbind_assoc. pose proof (grow_trans _ _ _ _ _ _ G1 G) as G2. cbn [app] in G2.
      assert (UO : unopened F mm k0 n pm cm e).
      { rewrite (ev_ents _ _ _ _ _ _ _ G1) in C. destruct C as [C|[C|(i & C1 & C2)]]; [left; exact C|right; right; left; exact C|].
        right. right. right. exists i. split; [exact C1|]. left. eapply clash_dir_back; [exact S0|exact G1| |exact DB|exact DF|exact C2].
        intros x [<-|[<-|[]]]; auto. }
      specialize (CLEAN0 e k2 G2 UO).
      assert (Y : forall (X : prog unit) k, wps F p I (X ;;; Ret (Er e)) Q k ->
          wps F p I (X ;;; (Ret (Er e : res lock) ;;; Ret (Er e))) Q k) by (intros; assumption).
      revert CLEAN0. generalize (lock_cleanup (mkLk (Some b) (Some f) pm None)). intros X0 HX. exact HX. }
  intros (cf & i & -> & FN & G2 & DC & LC). pose proof (grow_trans _ _ _ _ _ _ G1 G2) as G02. cbn [app] in G02.
  rewrite (ev_ents _ _ _ _ _ _ _ G1) in FN. pose proof (sane_ent _ S0 _ _ FN) as LI.
  pose proof (ev_sane _ _ _ _ _ _ _ G2) as S2. pose proof (ev_next _ _ _ _ _ _ _ G2) as N2.
  assert (DF2 : desc_of k2 p f = Some (D_pindir pm)) by (eapply grow_desc; [exact G2|exact S1|exact DF]).
  assert (LF2 : f < k_next k1 /\ b < k_next k1) by (split; [eapply desc_lt; [exact S1|exact DF]|eapply desc_lt; [exact S1|exact DB]]).
  assert (LC2 : cf < k_next k2) by (eapply desc_lt; [exact S2|exact DC]).
  cbn [pbind get_cgen chain_fd lk_chain].
  apply wps_bind. eapply wps_post with (I := I); [auto| |apply (cgen_restore_ok F p I mm cf i cm k2 S2)]; cycle 1.
  { intros S k' G. eapply HG. eapply grow_trans; [exact G02|exact G]. }
  { exact DC. }
  intros [g|e] k3 L; pose proof L as L0; apply (loaded_grow _ _ _ _ _ _ _ _ _ S0 G02 LI) in L.
  - destruct L as (o & t & hd & A1 & A2 & A3 & G3 & GO & HD & HP & LX & AP). destruct L0 as (_ & _ & _ & _ & _ & _ & (G23 & _)).
    assert (OC : opened_chain F p mm k0 n pm cm b f cf i hd g k3).
    { constructor; auto.
      - eauto.
      - intros q x H. destruct (GO q x H) as (Lx & Y). split; [lia|]. split; [lia|]. split; [lia|exact Y].
      - eapply grow_desc; [exact G23|exact S2|exact DC].
      - eapply grow_desc; [exact G23|exact S2|exact DF2].
      - split; [lia|]. split; lia. }
    apply wps_bind. eapply wps_post with (I := I); [auto| |apply (HB b f cf i hd g k3 OC)].
    intros rb k4 (X & M & E4 & DP4 & NEW & HI & HQ).
    apply wps_bind. eapply wps_post with (I := I); [auto| |apply (closes_cgen p (fst rb) F I k0 _ _ _ _ [cf; f; b] k4 E4 S0)]; cycle 1.
    { intros x Hx. apply NEW, Hx. }
    { intros x Hx. apply in_app_or in Hx as [Y|Y]; auto. }
    { intros Z k' C E'. eapply HI; [|exact E']. eapply cl_cle; [exact C|apply cle_refl, C]. }
    intros [] k5 (C5 & E5 & F5).
    assert (TE : trim k5 cm n = trim k4 cm n) by (unfold trim; rewrite (cl_ents _ _ C5), (cl_dirs _ _ C5); reflexivity).
    assert (DP5 : desc_of k5 p f = Some (D_pindir pm)).
    { apply find_desc_of. rewrite F5; [apply desc_of_find, DP4|]. intros Y. destruct (NEW _ Y) as [_ Z]. congruence. }
    apply wps_bind. eapply wps_post with (I := I); [auto| |apply (chain_cleanup_ok F p I b f pm cf n cm _ _ _ [cf; f; b] [] k0 k5 S0 E5 DP5)]; try lia; cycle 1.
    { intros x [<-|[<-|[<-|[]]]]; auto. }
    { intros E' Z k' C E6. rewrite TE in C. eapply HI; [|exact E6]. eapply cl_cle; [exact C5|exact C]. }
    intros [] k6 (E6 & C6). rewrite TE in *. pose proof (cl_cle _ _ _ _ C5 C6) as C46.
    apply wps_ret; [eapply HI; [exact C46|exact E6]|]. apply HQ; assumption.
  - destruct L as (G3 & C). pose proof (ev_sane _ _ _ _ _ _ _ G3) as S3. destruct L0 as (G23 & _).
    assert (TE : trim k3 cm n = trim k0 cm n) by (eapply trim_grow; [exact S0|exact G3]).
    assert (UO : unopened F mm k0 n pm cm e) by (right; right; right; exists i; split; [exact FN|right; exact C]).
    apply wps_bind. eapply wps_post with (I := I); [auto| |apply (chain_cleanup_ok F p I b f pm cf n cm _ _ _ [cf; f; b] [] k0 k3 S0 G3)]; try lia; cycle 1.
    { eapply grow_desc; [exact G23|exact S2|exact DF2]. }
    { intros x [<-|[<-|[<-|[]]]]; auto. }
    { intros E' Z k' C4 E4. pose proof (ev_ents _ _ _ _ _ _ _ E4) as EE. destruct (ce_ents _ _ _ C4) as [Y|Y]; rewrite EE in Y; clear EE.
      - rewrite (ev_ents _ _ _ _ _ _ _ G3) in Y. subst E'. eapply HG. exact E4.
      - rewrite TE in Y. subst E'. eapply HT. exact E4. }
    intros [] k6 (E6 & C6). rewrite TE in E6. apply wps_ret; [eapply HT; exact E6|]. apply HE; [right; exact E6|exact UO].
Qed.
