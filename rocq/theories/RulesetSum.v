(** What bf_ruleset_flush and bf_ruleset_set leave behind. *)
From Coq Require Import NArith ZArith List Bool Lia.
From Verif Require Import Bytes Types World BpfModel GenModel BytesFacts StrModel SetModel MapModel PackModel PackSpec PackFacts3 PackFacts4 HookModel KernModel LockModel CtlModel SysSpec SysFacts RelyFacts SeqFacts StageFacts EvoFacts CtlSpec HandleFacts PinFacts AttachFacts LockSeqFacts LoadFacts RestoreFacts WithFacts IsolFacts UnloadFacts AttachOpFacts SetOpFacts HistSpec HistFacts RulesetFacts RulesetSetFacts CtlFacts CountFacts UpdSpec UpdFacts UpdOpFacts UpdSetFacts HistInv UpdSum.
Import ListNotations.
Local Open Scope N_scope.

Definition readable_t (t : node) : Prop := exists c, chain_pack c = Ok t /\ chain_built c /\ storable c /\ modest c.
Definition readable (k : kst) : Prop := forall n i o t hd, ent_find n (k_ents k) = Some i -> dview k i P_ctx = Some o ->
  k_objs k o = Some (O_ctx (Some (t, hd))) -> readable_t t.
Lemma modest_readable k : inv k -> all_modest k -> readable k.
Proof.
  intros IN H n i o t hd EN P O. destruct (in_named _ IN n i EN) as [X|(c & hd' & HC & B & S & _)]; [unfold pin in X; unfold dview in P; congruence|].
  exists c. pose proof HC as ((x & t' & P1 & P2 & P3) & _). unfold pin in P1. unfold dview in P. assert (x = o) by congruence. subst x. rewrite P2 in O. injection O as -> ->.
  split; [exact P3|]. split; [exact B|]. split; [exact S|]. eapply H; eassumption.
Qed.
Lemma readable_reads mm k i c hd n e : readable k -> plenty mm -> ent_find n (k_ents k) = Some i -> holds_chain k i c hd -> ~ unread no_fault mm k i e.
Proof.
  intros R PL EN HC. pose proof HC as ((x & t & P1 & P2 & P3) & _). destruct (R n i x t hd EN P1 P2) as (c0 & A & B & C & D).
  destruct (chain_round_trip_generous (m_nd mm) (m_tb mm) c0 PL B C D) as (c' & RT & _).
  eapply (held_readable mm k i c hd c'); [exact HC|]. unfold chain_copy in *. rewrite P3. rewrite A in RT. exact RT.
Qed.

(** After a flush in which no call failed, nothing is left. *)
Record gone (k0 k : kst) : Prop := {
  gn_none : forall n i, ent_find n (k_ents k) = Some i -> pin k i P_ctx = None;
  gn_each : forall n i c hd, ent_find n (k_ents k0) = Some i -> holds_chain k0 i c hd ->
    (forall q, q = P_ctx \/ In q (pin_names hd) -> pin k i q = None) /\
    (forall o, hd_link hd <> None -> pin k0 i P_link = Some o \/ pin k0 i P_link_extra = Some o -> detached k o) /\
    (tidy k0 i -> ent_find n (k_ents k) = None)
}.
Lemma flush_gone mm k0 k : inv k0 -> readable k0 -> (forall j, plenty (mm j)) -> (forall i m, ~ clash k0 (D_dir i L_NONE) m) ->
  flush_result no_fault mm k0 k -> less k0 k -> gone k0 k.
Proof.
  intros IN RD PL NC FR LS.
  assert (EACH : forall n i c hd, ent_find n (k_ents k0) = Some i -> holds_chain k0 i c hd -> wiped no_fault k0 k n i hd).
  { intros n i c hd EN HC. pose proof HC as ((o & t & P1 & _) & _). destruct (is_staging n) eqn:ST.
    - pose proof (in_swept _ IN n i ST EN) as X. unfold pin in P1. rewrite X in P1. discriminate P1.
    - destruct (FR n i c hd EN ST HC) as [X|[X|X]]; [|destruct (NC _ _ X)|exact X]. exfalso.
      destruct X as [X|[X|(j & EJ & [X|(a & e & X)])]]; [exact (no_fault_not X)|congruence|exact (NC _ _ X)|].
      assert (j = i) by congruence. subst j. exact (readable_reads _ _ _ _ _ _ _ RD (PL a) EN HC X). }
  constructor.
  - intros n i EN. pose proof (ls_ents _ _ LS n i EN) as E0. destruct (in_named _ IN n i E0) as [X|(c & hd & HC & _)].
    + destruct (pin k i P_ctx) eqn:Y; [|reflexivity]. pose proof (ls_pins _ _ LS i P_ctx _ Y) as Z. unfold dview in Z. unfold pin in X. congruence.
    + exact (wp_ctx _ _ _ _ _ _ (EACH n i c hd E0 HC)).
  - intros n i c hd EN HC. pose proof (EACH n i c hd EN HC) as [W1 W2 W3 W4 W5]. split; [|split].
    + intros q [->|X]; [exact W1|exact (W2 q X)].
    + intros o L [P|P]; [exact (W3 o L P)|]. destruct (W4 o L P) as [X|X]; [exact X|destruct (no_fault_not X)].
    + intros TD. apply W5. destruct TD as (o & t & hd' & A & B & C). pose proof (holds_ctx _ _ _ _ _ _ _ HC A B). subst hd'. exact C.
Qed.

Lemma flush_all_gone p mm k r k' : history no_update k -> (forall j, plenty (mm j)) ->
  all_modest k ->
  ends no_fault p (ruleset_flush mm) k r k' -> r = Ok tt /\ gone k k' /\ forall f, fd_find f (k_fds k') = None.
Proof.
  intros H PL MD EN. destruct (history_all k H) as (IN & FD & UN).
  pose proof (wps_ends _ _ _ _ _ _ _ _ EN (ruleset_flush_ok no_fault p (fun _ => True) mm k IN UN (fun _ _ _ => Logic.I))) as (kb & B1 & B2 & B3 & B4 & B5 & B6).
  destruct r as [[]|e]; [|destruct B6 as (_ & [X|X]); [destruct (no_fault_not X)|destruct (rest_clash _ _ _ FD X)]].
  assert (LS : less kb k') by (eapply grow_less; [apply B1|exact B5]).
  split; [reflexivity|]. split.
  - eapply flush_gone; [exact IN|apply modest_readable; assumption|exact PL|intros i m; apply rest_clash, FD| |eapply less_trans; [exact B4|exact LS]].
    eapply flush_later; [apply IN| |exact B6|exact LS]. rewrite B2. lia.
  - intros f. destruct (N.lt_ge_cases f (k_next kb)) as [L|L]; [rewrite (ev_old _ _ _ _ _ _ _ B5 f L), B3, FD; reflexivity|].
    destruct (ev_new _ _ _ _ _ _ _ B5 f L) as [X|([] & _)]. exact X.
Qed.

(** ** bf_ruleset_set *)
Lemma placed_old F k0 l k n i : placed F k0 l k -> sane k0 -> ent_find n (k_ents k0) = Some i -> k_dirs k i = k_dirs k0 i.
Proof. intros P S E. apply (pl_dirs _ _ _ _ P). exact (sane_ent _ S _ _ E). Qed.

Lemma quiet_calm p k0 k : k_fds k0 = [] -> quiet p k -> strangers p k0 k -> forall i m, ~ clash k (D_dir i L_NONE) m.
Proof.
  intros FD Q ST i m (g & q & d & A & B & _). assert (q = p).
  { destruct (ST (g, (q, d)) (fd_find_in _ _ _ A)) as [X|X]; [rewrite FD in X; destruct X|exact X]. }
  subst q. apply find_desc_of in A. destruct (Q g d A) as [->|(m' & ->)]; discriminate B.
Qed.

Lemma less_readable k0 k : readable k0 -> less k0 k -> sane k0 -> readable k.
Proof.
  intros R LS S n i o t hd EN P O. pose proof (ls_pins _ _ LS _ _ _ P) as P0. destruct (ls_objs _ _ LS o (sane_pin_lt _ _ _ _ S P0)) as [X|(h & tt & po & x & X1 & X2)]; [|congruence].
  eapply (R n i o t hd); [exact (ls_ents _ _ LS _ _ EN)|exact P0|]. congruence.
Qed.
Lemma placed_readable F k0 l k : sane k0 -> readable k0 -> placed F k0 l k -> (forall c o, In (c, o) l -> usual c /\ modest c) -> readable k.
Proof.
  intros S R P U n i o t hd EN PN O. destruct (pl_more _ _ _ _ P n i EN) as [X|(c & oo & X & Y)].
  - pose proof (placed_old _ _ _ _ _ _ P S X) as D. unfold dview in PN. rewrite D in PN.
    eapply (R n i o t hd); [exact X|exact PN|]. rewrite <- (pl_objs _ _ _ _ P); [exact O|exact (sane_pin_lt _ i P_ctx _ S PN)].
  - destruct (pl_there _ _ _ _ P c oo X) as (j & hd' & E1 & _ & ((x & t' & P1 & P2 & P3) & _) & _). rewrite Y in E1. assert (j = i) by congruence. subst j.
    unfold pin in P1. unfold dview in PN. assert (x = o) by congruence. subst x. rewrite P2 in O. injection O as <- <-. destruct (U c oo X) as ((B & C & _) & M). exists c. auto.
Qed.
Lemma grow_readable p S k0 k : sane k0 -> readable k0 -> grow p S k0 k -> readable k.
Proof. intros S0 R G. eapply less_readable; [exact R|eapply grow_less; [exact S0|exact G]|exact S0]. Qed.

(** The chains are there, whatever failed. *)
Lemma ruleset_set_done F p m1 m2 m3 cs os k k' : history no_update k -> Forall usual cs ->
  ends F p (ruleset_set m1 m2 m3 cs os) k (Ok tt) k' ->
  length cs = length os /\ forall c o, In (c, o) (combine cs os) ->
    exists i hd, ent_find (nc_name c) (k_ents k') = Some i /\ holds_chain k' i c hd /\ as_asked F (nc_chain c) o hd /\ tidy k' i.
Proof.
  intros H US EN. destruct (history_all k H) as (IN & FD & UN).
  pose proof (wps_ends _ _ _ _ _ _ _ _ EN (ruleset_set_ok F p (fun _ => True) m1 m2 m3 cs os k IN UN (none_no_fds _ p FD) US (fun _ _ => Logic.I))) as (_ & LE & kb & _ & _ & _ & _ & P).
  split; [exact LE|]. intros c o X. destruct (pl_there _ _ _ _ P c o X) as (i & hd & A & _ & B). exists i, hd. split; [exact A|exact B].
Qed.

Lemma set_first mm k kb : inv k -> k_fds k = [] -> readable k -> (forall j, plenty (mm j)) -> flush_result no_fault mm k kb -> less k kb -> gone k kb.
Proof. intros IN FD R PL FR LS. eapply flush_gone; [exact IN|exact R|exact PL|intros i m; apply rest_clash, FD|exact FR|exact LS]. Qed.

Lemma ruleset_set_exact p m1 m2 m3 cs os k k' : history no_update k -> Forall usual cs -> (forall j, plenty (m1 j)) ->
  all_modest k ->
  ends no_fault p (ruleset_set m1 m2 m3 cs os) k (Ok tt) k' ->
  forall n i, ent_find n (k_ents k') = Some i -> pin k' i P_ctx <> None -> exists c, In c cs /\ nc_name c = n.
Proof.
  intros H US PL MD EN n i EI PC. destruct (history_all k H) as (IN & FD & UN).
  pose proof (wps_ends _ _ _ _ _ _ _ _ EN (ruleset_set_ok no_fault p (fun _ => True) m1 m2 m3 cs os k IN UN (none_no_fds _ p FD) US (fun _ _ => Logic.I))) as (_ & LE & kb & B1 & _ & B3 & B4 & P).
  pose proof (set_first m1 k kb IN FD (modest_readable _ IN MD) PL B4 B3) as GN.
  destruct (pl_more _ _ _ _ P n i EI) as [X|(c & o & X & Y)].
  - destruct PC. pose proof (placed_old _ _ _ _ _ _ P (in_sane _ B1) X) as D. unfold pin. rewrite D. exact (gn_none _ _ GN n i X).
  - exists c. split; [exact (in_combine_l _ _ _ _ X)|exact Y].
Qed.

(** If it fails, and no system call did, there is no chain left at all. *)
Lemma ruleset_set_failed p m1 m2 m3 cs os k e k' : history no_update k -> Forall usual cs -> Forall modest cs -> (forall j, plenty (m3 j)) ->
  all_modest k ->
  ends no_fault p (ruleset_set m1 m2 m3 cs os) k (Er e) k' ->
  length cs <> length os \/ forall n i, ent_find n (k_ents k') = Some i -> pin k' i P_ctx = None.
Proof.
  intros H US MS PL MD EN. destruct (history_all k H) as (IN & FD & UN).
  pose proof (wps_ends _ _ _ _ _ _ _ _ EN (ruleset_set_ok no_fault p (fun _ => True) m1 m2 m3 cs os k IN UN (none_no_fds _ p FD) US (fun _ _ => Logic.I))) as (_ & [(_ & [X|[X|X]])|R]).
  - left. exact X.
  - destruct (no_fault_not X).
  - destruct (rest_clash _ _ _ FD X).
  - right. destruct R as (kb & l1 & c & o & l2 & k1 & k2 & B1 & _ & _ & B4 & _ & EL & P & _ & I1 & G & I2 & Q2 & ST & FR & LS).
    refine (gn_none k2 k' (flush_gone m3 k2 k' I2 _ PL (quiet_calm p k k2 FD Q2 ST) FR LS)).
    pose proof (less_readable _ _ (modest_readable _ IN MD) B4 (in_sane _ IN)) as RB.
    assert (R1 : readable k1).
    { eapply placed_readable; [apply B1|exact RB|exact P|]. intros c1 o1 X. assert (Y : In c1 cs) by (apply (in_combine_l cs os c1 o1); rewrite EL; apply in_or_app; left; exact X).
      rewrite Forall_forall in US, MS. auto. }
    eapply grow_readable; [apply I1|exact R1|exact G].
Qed.

Lemma combine_names (cs : list nchain) (os : list (option hookopts)) l1 c o l2 : combine cs os = l1 ++ (c, o) :: l2 -> NoDup (map nc_name cs) -> In c cs /\ forall c1 o1, In (c1, o1) l1 -> In c1 cs /\ nc_name c1 <> nc_name c.
Proof.
  revert os l1. induction cs as [|a cs IH]; intros os l1 E ND; [destruct l1; discriminate E|].
  destruct os as [|a' os]; [destruct l1; discriminate E|]. cbn [combine] in E. cbn [map] in ND. inversion ND as [|x y NI ND']; subst. destruct l1 as [|z l1].
  - cbn [app] in E. injection E as -> -> _. split; [left; reflexivity|intros c1 o1 []].
  - cbn [app] in E. injection E as <- E. destruct (IH os l1 E ND') as (A & B). split; [right; exact A|]. intros c1 o1 [X|X].
    + injection X as <- <-. split; [left; reflexivity|]. intros X. apply NI. rewrite X. apply in_map, A.
    + destruct (B c1 o1 X) as (Y1 & Y2). split; [right; exact Y1|exact Y2].
Qed.

Lemma ruleset_set_works p m1 m2 m3 cs os k : history no_update k -> at_rest k -> Forall loadable cs -> NoDup (map nc_name cs) -> length cs = length os ->
  (forall j, plenty (m1 j)) -> (forall j, plenty (m2 j)) ->
  all_modest k ->
  (forall c i, In c cs -> ent_find (nc_name c) (k_ents k) = Some i -> tidy k i) ->
  fst (solo p (ruleset_set m1 m2 m3 cs os) k) = Ok tt.
Proof.
  intros H (FD & NS) LD ND LE P1 P2 MD TD. destruct (history_all k H) as (IN & _ & UN).
  assert (US : Forall usual cs) by (eapply Forall_impl; [|exact LD]; intros c X; apply X).
  pose proof (solo_ends no_fault p (ruleset_set m1 m2 m3 cs os) k) as EN. destruct (fst (solo p (ruleset_set m1 m2 m3 cs os) k)) as [[]|e] eqn:R; [reflexivity|exfalso].
  pose proof (wps_ends _ _ _ _ _ _ _ _ EN (ruleset_set_ok no_fault p (fun _ => True) m1 m2 m3 cs os k IN UN (none_no_fds _ p FD) US (fun _ _ => Logic.I))) as (_ & [(_ & [X|[X|X]])|Z]).
  { exact (X LE). }
  { exact (no_fault_not X). }
  { exact (rest_clash _ _ _ FD X). }
  destruct Z as (kb & l1 & c & o & l2 & k1 & k2 & B1 & _ & _ & B4 & FR & EL & P & RF & _).
  pose proof (set_first m1 k kb IN FD (modest_readable _ IN MD) P1 FR B4) as GN.
  destruct (combine_names _ _ _ _ _ _ EL ND) as (IC & ID). rewrite Forall_forall in LD. destruct (LD c IC) as ((CB & CS & NST) & (img & GP) & NDS & SZ).
  destruct (chain_round_trip_generous (m_nd (m2 (length l1))) (m_tb (m2 (length l1))) c (P2 _) CB CS SZ) as (c' & RT & _).
  assert (PK : exists t, chain_pack c = Ok t) by (unfold chain_copy in RT; destruct (chain_pack c) eqn:PK; [eauto|cbn [bind] in RT; congruence]).
  destruct RF as [X|[X|[X|[X|X]]]]; [|congruence|congruence|destruct PK; congruence|exact (X NDS)].
  destruct X as [X|[(s & A & B)|[X|X]]]; [exact (no_fault_not X)| | |congruence].
  - destruct (ent_find s (k_ents k1)) as [j|] eqn:ES; [|exact (B eq_refl)]. destruct (pl_more _ _ _ _ P s j ES) as [Y|(c1 & o1 & Y & NM)].
    + pose proof (ls_ents _ _ B4 _ _ Y) as Y0. rewrite (NS s A) in Y0. discriminate Y0.
    + destruct (ID c1 o1 Y) as (I1 & _). destruct (LD c1 I1) as ((_ & _ & N1) & _). rewrite NM in N1. congruence.
  - destruct (ent_find (nc_name c) (k_ents k1)) as [j|] eqn:ES; [|exact (X eq_refl)]. destruct (pl_more _ _ _ _ P _ j ES) as [Y|(c1 & o1 & Y & NM)].
    + pose proof (ls_ents _ _ B4 _ _ Y) as Y0. pose proof (TD c j IC Y0) as T. pose proof T as (oc & t & hd & T1 & _).
      destruct (in_named _ IN _ _ Y0) as [Z|(c0 & hd0 & HC & _)]; [congruence|]. pose proof (proj2 (proj2 (gn_each _ _ GN _ j c0 hd0 Y0 HC)) T) as Z. congruence.
    + exact (proj2 (ID c1 o1 Y) NM).
Qed.

(** The stored text tells how large the sets are. *)
Lemma map_res_pack_sizes (l l' : list uset) ts : map_res set_pack l = Ok ts -> map_res set_pack l' = Ok ts ->
  Forall (fun u => forall x, set_read u = Ok x -> N.of_nat (length x) < two32) l -> Forall (fun u => forall x, set_read u = Ok x -> N.of_nat (length x) < two32) l'.
Proof.
  revert l' ts. induction l as [|u l IH]; intros l' ts H H' FA.
  - cbn [map_res] in H. injection H as <-. destruct l' as [|v l']; [constructor|]. cbn [map_res] in H'. destruct (set_pack v); cbn [bind] in H'; [|discriminate H']. destruct (map_res set_pack l'); discriminate H'.
  - cbn [map_res] in H. destruct (set_pack u) as [t|] eqn:TU; cbn [bind] in H; [|discriminate H]. destruct (map_res set_pack l) as [tl|] eqn:TL; cbn [bind] in H; [|discriminate H]. injection H as <-.
    destruct l' as [|v l']; [discriminate H'|]. cbn [map_res] in H'. destruct (set_pack v) as [t'|] eqn:TV; cbn [bind] in H'; [|discriminate H']. destruct (map_res set_pack l') as [tl'|] eqn:TL'; cbn [bind] in H'; [|discriminate H']. injection H' as -> ->.
    inversion FA as [|x y F1 F2]; subst. constructor; [|eapply IH; [reflexivity|exact TL'|exact F2]].
    intros x RX. unfold set_pack in TU, TV. rewrite RX in TV. cbn [bind] in TV. destruct (set_read u) as [y|] eqn:RU; cbn [bind] in TU; [|discriminate TU].
    specialize (F1 y eq_refl). rewrite <- TV in TU. injection TU as _ _ E. apply (f_equal (@length node)) in E. rewrite !map_length in E. rewrite <- E. exact F1.
Qed.
Lemma pack_modest c c' t : chain_pack c = Ok t -> chain_pack c' = Ok t -> modest c -> modest c'.
Proof.
  unfold chain_pack, modest. destruct (map_res set_pack (nc_sets c)) as [ts|] eqn:T; cbn [bind]; [|discriminate]. destruct (map_res set_pack (nc_sets c')) as [ts'|] eqn:T'; cbn [bind]; [|discriminate].
  intros H H'. rewrite <- H' in H. assert (E : ts = ts') by (injection H; auto). subst ts'. intros M. exact (map_res_pack_sizes _ _ _ T T' M).
Qed.
Lemma held_modest k i c hd c' hd' : holds_chain k i c hd -> holds_chain k i c' hd' -> modest c -> modest c'.
Proof.
  intros [(o & t & A & B & C) _] [(o' & t' & A' & B' & C') _] M. rewrite A in A'. injection A' as <-. rewrite B in B'. injection B' as <- _.
  exact (pack_modest _ _ _ C C' M).
Qed.
