(** Flushing all the chains: bf_ruleset_flush and the flushes of bf_ruleset_set. *)
From Coq Require Import NArith ZArith List Bool Lia.
From Verif Require Import Bytes Types World BpfModel GenModel BytesFacts StrModel SetModel MapModel PackModel PackSpec PackFacts4 HookModel KernModel LockModel CtlModel SysSpec SysFacts RelyFacts SeqFacts StageFacts EvoFacts CtlSpec HandleFacts PinFacts AttachFacts LockSeqFacts LoadFacts RestoreFacts WithFacts IsolFacts UnloadFacts AttachOpFacts SetOpFacts HistSpec HistFacts.
Import ListNotations.
Local Open Scope N_scope.

(** ** Calls that only take away *)
Definition thin (c : call) : Prop :=
  match c with C_unlink _ _ | C_link_detach _ => True | _ => ro c end.
Definition turned1 (a b : option obj) : Prop :=
  a = b \/ exists h t po x, a = Some (O_link h t po x) /\ b = Some (O_link h t po true).
Record less (k0 k : kst) : Prop := {
  ls_sane : sane k;
  ls_next : k_next k0 <= k_next k;
  ls_ents : forall n i, ent_find n (k_ents k) = Some i -> ent_find n (k_ents k0) = Some i;
  ls_pins : forall j q o, dview k j q = Some o -> dview k0 j q = Some o;
  ls_objs : forall o, o < k_next k0 -> turned1 (k_objs k0 o) (k_objs k o);
  ls_keep : forall n i, ent_find n (k_ents k0) = Some i -> ent_find n (k_ents k) = Some i \/ forall q, dview k i q = None
}.
Lemma less_refl k : sane k -> less k k.
Proof. intros S. constructor; auto; [lia|]. intros o _. left. reflexivity. Qed.
Lemma turned1_trans a b c : turned1 a b -> turned1 b c -> turned1 a c.
Proof.
  intros [->|(h & t & po & x & -> & ->)] H2; [exact H2|]. right. exists h, t, po, x. split; [reflexivity|].
  destruct H2 as [<-|(h' & t' & po' & x' & A & ->)]; [reflexivity|]. injection A as <- <- <- <-. reflexivity.
Qed.
Lemma less_trans a b c : less a b -> less b c -> less a c.
Proof.
  intros [A1 A2 A3 A4 A5 A6] [B1 B2 B3 B4 B5 B6]. constructor; auto; [lia| |].
  - intros o L. eapply turned1_trans; [apply A5, L|apply B5; lia].
  - intros n i H. destruct (A6 n i H) as [X|X]; [exact (B6 n i X)|right].
    intros q. destruct (dview c i q) as [o|] eqn:Y; [|reflexivity]. apply B4 in Y. rewrite X in Y. discriminate Y.
Qed.
Lemma kept_less k k' : kept k k' -> k_next k <= k_next k' -> (forall o, o < k_next k -> k_objs k' o = k_objs k o) ->
  (forall n i, ent_find n (k_ents k) = Some i -> ent_find n (k_ents k') = Some i \/ k_dirs k i = []) -> less k k'.
Proof.
  intros [A1 A2 A3 A4] N O E. constructor; auto.
  - intros j q o. unfold dview. rewrite A2. auto.
  - intros o L. left. symmetry. apply O, L.
  - intros n i H. destruct (E n i H) as [X|X]; [auto|right]. intros q. unfold dview. rewrite A2, X. reflexivity.
Qed.
Lemma kdo_less k p c s : sane k -> thin c -> less k (fst (kdo k p c s)).
Proof.
  intros S H. pose proof (kdo_sane k p c s S) as S'.
  assert (RO : ro c -> less k (fst (kdo k p c s))).
  { intros R. apply kept_less; [apply kdo_kept; assumption| | |].
    - destruct c; cbn [ro] in R; try contradiction; cbn [kdo]; repeat match goal with
        |- context [match ?x with _ => _ end] => destruct x
      | |- context [if ?x then _ else _] => destruct x end; cbn; lia.
    - intros o L. destruct c; cbn [ro] in R; try contradiction; cbn [kdo]; repeat match goal with
        |- context [match ?x with _ => _ end] => destruct x
      | |- context [if ?x then _ else _] => destruct x end; try reflexivity; cbn; rewrite updN_other; [reflexivity|lia|reflexivity|lia|reflexivity|lia|reflexivity|lia|reflexivity|lia|reflexivity|lia].
    - intros n i E. destruct c; cbn [ro] in R; try contradiction; cbn [kdo]; try (repeat match goal with
        |- context [match ?x with _ => _ end] => destruct x
      | |- context [if ?x then _ else _] => destruct x end; left; exact E).
      destruct (negb _); [left; exact E|]. destruct (ent_find n0 (k_ents k)) as [j|] eqn:EJ; [|left; exact E].
      destruct (k_dirs k j) eqn:DJ; [|left; exact E]. cbn. rewrite ent_find_del. destruct (bytes_eqb n n0) eqn:B; [|left; exact E].
      apply bytes_eqb_eq in B. subst n0. right. congruence. }
  destruct c; try (apply RO, H); clear RO; cbn [kdo] in *.
  - match goal with |- context [C_unlink ?d ?q] => rename d into dd; rename q into qq | |- context [match dir_of k p ?d with _ => _ end] => rename d into dd end.
    match goal with |- context [pin_find ?q _] => rename q into qq end.
    destruct (dir_of k p dd) as [i|] eqn:DI; [|apply less_refl, S]. destruct (pin_find qq (k_dirs k i)) eqn:PF; [|apply less_refl, S].
    cbn [fst] in *. assert (V : forall j x y, dview (with_dir k i (pin_del qq (k_dirs k i))) j x = Some y -> dview k j x = Some y).
    { intros j x y. unfold dview. cbn. destruct (N.eq_dec j i) as [->|NE]; [rewrite updN_same, pin_find_del; destruct (pname_eqb x qq); [discriminate|auto]|rewrite updN_other by exact NE; auto]. }
    constructor; auto; [cbn; lia|]. intros o' _. left. reflexivity.
  - match goal with |- context [obj_of k p ?l] => rename l into ll end.
    destruct (obj_of k p ll) as [[o v]|] eqn:O; [|apply less_refl, S]. apply obj_of_obj in O as [_ O].
    destruct v; try (apply less_refl, S). cbn [fst] in *. constructor; auto; [cbn; lia|].
    intros x L. cbn. destruct (N.eq_dec x o) as [->|NE]; [rewrite updN_same; right; eauto 8|rewrite updN_other by exact NE; left; reflexivity].
Qed.
Lemma ksys_less k p c d : sane k -> thin c -> less k (fst (ksys k p c d)).
Proof. intros S H. destruct d as [|e|s]; cbn [ksys]; try (apply kdo_less; assumption). destruct (can_fail c); [apply less_refl, S|apply kdo_less; assumption]. Qed.
Lemma less_go {A} F p (m : prog A) k0 : allc thin m -> forall k, less k0 k -> wps F p (less k0) m (fun _ k' => less k0 k') k.
Proof.
  intros AL. induction m as [a|c f IH]; intros k1 K1; [apply wps_ret; exact K1|]. cbn [allc] in AL. destruct AL as [A1 A2].
  apply wps_do; [exact K1|]. intros d _. apply IH; [apply A2|]. eapply less_trans; [exact K1|apply ksys_less; [exact (ls_sane _ _ K1)|exact A1]].
Qed.
Lemma ro_thin {A} (m : prog A) : allc ro m -> allc thin m.
Proof. apply allc_mono. intros []; cbn; auto. Qed.

(** Names of entries do not repeat. *)
Definition uniq_names (k : kst) : Prop := NoDup (map fst (k_ents k)).
Lemma ent_none_in n (l : list (name * ino)) : ent_find n l = None -> ~ In n (map fst l).
Proof.
  induction l as [|[m i] l IH]; cbn; [auto|]. destruct (bytes_eqb n m) eqn:E; [discriminate|].
  intros H [X|X]; [subst m; rewrite (proj2 (bytes_eqb_eq n n) eq_refl) in E; discriminate E|exact (IH H X)].
Qed.
Lemma ent_del_in m n (l : list (name * ino)) : In m (map fst (ent_del n l)) -> In m (map fst l).
Proof. unfold ent_del. rewrite !in_map_iff. intros (x & A & B). apply filter_In in B as [B _]. eauto. Qed.
Lemma ent_del_nd n (l : list (name * ino)) : NoDup (map fst l) -> NoDup (map fst (ent_del n l)).
Proof.
  unfold ent_del. induction l as [|x l IH]; cbn; [auto|]. intros H. inversion H; subst. destruct (negb _); [|auto].
  cbn. constructor; [|auto]. intros X. apply H2. exact (ent_del_in _ n l X).
Qed.
Lemma kdo_uniq k p c s : uniq_names k -> uniq_names (fst (kdo k p c s)).
Proof.
  unfold uniq_names. intros H. destruct c; cbn [kdo]; try (repeat match goal with
        |- context [match ?x with _ => _ end] => destruct x
      | |- context [if ?x then _ else _] => destruct x end; exact H).
  - destruct (negb _); [exact H|]. destruct (ent_find n (k_ents k)) eqn:E; [exact H|]. cbn. constructor; [apply ent_none_in, E|exact H].
  - destruct (negb _); [exact H|]. destruct (ent_find a (k_ents k)); [|exact H]. destruct (ent_find b (k_ents k)) eqn:E; [exact H|]. cbn.
    constructor; [|apply ent_del_nd, H]. intros X. apply ent_del_in in X. exact (ent_none_in _ _ E X).
  - destruct (negb _); [exact H|]. destruct (ent_find n (k_ents k)); [|exact H]. destruct (k_dirs k i); [|exact H]. cbn. apply ent_del_nd, H.
Qed.
Lemma ksys_uniq k p c d : uniq_names k -> uniq_names (fst (ksys k p c d)).
Proof. intros H. destruct d as [|e|s]; cbn [ksys]; try (apply kdo_uniq; assumption). destruct (can_fail c); [exact H|apply kdo_uniq; assumption]. Qed.
Lemma stops_uniq {A} F p (m : prog A) k k' : stops F p m k k' -> uniq_names k -> uniq_names k'.
Proof. induction 1 as [m k|c f k d k' HE HS IH]; intros H; [exact H|]. apply IH, ksys_uniq, H. Qed.

(** ** What the flush of one chain does *)
Ltac th_step :=
  match goal with
  | |- allc _ (pbind _ _) => apply allc_bind; [|intros ?]
  | |- allc _ (Ret _) => exact Logic.I
  | |- True => exact Logic.I
  | |- allc _ (Do _ _) => cbn [allc]; split; [cbn [thin ro]; try exact Logic.I; try reflexivity|intros ?]
  | |- allc _ (match ?x with _ => _ end) => destruct x
  | |- allc _ (if ?x then _ else _) => destruct x
  | |- allc _ (let '(_, _) := ?x in _) => destruct x
  | |- allc _ (sys _) => unfold sys
  | |- allc _ (sys_ _) => unfold sys_
  | |- allc _ (sys_fd _) => unfold sys_fd
  | |- allc _ (sys_unit _) => unfold sys_unit
  end.
Create HintDb th.
Ltac thx := repeat first [th_step|solve [apply ro_thin; auto with ro nocore]|solve [auto with th nocore]].
Lemma th_unpin_maps d l : allc thin (unpin_maps d l).
Proof. induction l as [|[q f] l IH]; cbn [unpin_maps]; thx. Qed.
Global Hint Resolve th_unpin_maps : th.
Lemma th_handle_unpin h d : allc thin (handle_unpin h d).
Proof. unfold handle_unpin, link_unpin. thx. Qed.
Lemma th_handle_detach h : allc thin (handle_detach h).
Proof. unfold handle_detach. thx. Qed.
Global Hint Resolve th_handle_unpin th_handle_detach : th.
Lemma th_handle_unload h : allc thin (handle_unload h).
Proof. unfold handle_unload. thx. Qed.
Global Hint Resolve th_handle_unload : th.
Lemma th_cgen_unload g d : allc thin (cgen_unload g d).
Proof. unfold cgen_unload. thx. Qed.
Global Hint Resolve th_cgen_unload : th.
Lemma th_unload_all lk l : allc thin (unload_all lk l).
Proof. induction l as [|g l IH]; cbn [unload_all]; thx. Qed.
Global Hint Resolve th_unload_all : th.
Lemma th_flush_all mm lk : allc thin (flush_all mm lk).
Proof. unfold flush_all. thx. Qed.

Lemma grow_less p S k0 k : sane k0 -> grow p S k0 k -> less k0 k.
Proof.
  intros S0 G. constructor.
  - exact (ev_sane _ _ _ _ _ _ _ G).
  - exact (ev_next _ _ _ _ _ _ _ G).
  - intros n i. rewrite (ev_ents _ _ _ _ _ _ _ G). auto.
  - intros j q o H. unfold dview in *. destruct (N.lt_ge_cases j (k_next k0)) as [L|L].
    + rewrite (ev_dirs _ _ _ _ _ _ _ G) in H; [exact H|exact L|discriminate].
    + rewrite (ev_fresh _ _ _ _ _ _ _ G) in H; [discriminate H|exact L|discriminate].
  - intros o L. left. rewrite (ev_objs _ _ _ _ _ _ _ G o L). reflexivity.
  - intros n i H. left. rewrite (ev_ents _ _ _ _ _ _ _ G). exact H.
Qed.
Lemma inv_grow p S k0 k : inv k0 -> grow p S k0 k -> inv k.
Proof.
  intros I0 G. pose proof (in_sane _ I0) as S0. pose proof (grow_less _ _ _ _ S0 G) as L.
  assert (DV : forall j, k_dirs k j = k_dirs k0 j).
  { intros j. destruct (N.lt_ge_cases j (k_next k0)) as [X|X]; [apply (ev_dirs _ _ _ _ _ _ _ G); [exact X|discriminate]|].
    rewrite (ev_fresh _ _ _ _ _ _ _ G); [symmetry; apply (sane_fresh _ S0), X|exact X|discriminate]. }
  constructor.
  - exact (ls_sane _ _ L).
  - intros a b q q' o H1 H2. exact (in_sep _ I0 a b q q' o (ls_pins _ _ L _ _ _ H1) (ls_pins _ _ L _ _ _ H2)).
  - intros n i H. apply (ls_ents _ _ L) in H. eapply as_evo; [exact S0|exact G|exact (sane_ent _ S0 _ _ H)|discriminate|exact (in_named _ I0 _ _ H)].
  - intros n i ST H. rewrite DV. exact (in_swept _ I0 _ _ ST (ls_ents _ _ L _ _ H)).
Qed.
(** Directory [i] of the chain [n] is being emptied. *)
Lemma inv_wipe k k' n i : inv k -> less k k' -> ent_find n (k_ents k) = Some i ->
  (forall j, j < k_next k -> j <> i -> k_dirs k' j = k_dirs k j) -> dview k' i P_ctx = None ->
  (forall o, o < k_next k -> k_objs k' o = k_objs k o \/ exists q, dview k i q = Some o) -> inv k'.
Proof.
  intros I0 L EN DV PC OB. pose proof (in_sane _ I0) as S0. constructor.
  - exact (ls_sane _ _ L).
  - intros a b q q' o H1 H2. exact (in_sep _ I0 a b q q' o (ls_pins _ _ L _ _ _ H1) (ls_pins _ _ L _ _ _ H2)).
  - intros m j H. apply (ls_ents _ _ L) in H. destruct (N.eq_dec j i) as [->|NE]; [left; exact PC|].
    pose proof (sane_ent _ S0 _ _ H) as LJ. eapply as_frame; [exact (in_named _ I0 _ _ H)| |].
    + intros q. unfold dview. rewrite (DV j LJ NE). reflexivity.
    + intros q o v X Y. destruct (OB o (sane_pin_lt _ _ _ _ S0 X)) as [Z|(q' & Z)]; [congruence|].
      destruct NE. exact (in_sep _ I0 _ _ _ _ _ X Z).
  - intros m j ST H. apply (ls_ents _ _ L) in H. apply view_empty. intros q.
    destruct (dview k' j q) as [o|] eqn:X; [|reflexivity]. apply (ls_pins _ _ L) in X. unfold dview in X.
    rewrite (in_swept _ I0 _ _ ST H) in X. discriminate X.
Qed.

(** A chain that was read: [g], of name [n], from directory [i] with description [hd]. *)
Record ready (F : call -> bool) (p : pid) (kb k : kst) (n : name) (i : ino) (hd : hdesc) (g : cgen) : Prop := {
  rd_name : nc_name (g_chain g) = n;
  rd_ent : ent_find n (k_ents kb) = Some i;
  rd_ctx : exists o t, dview kb i P_ctx = Some o /\ k_objs kb o = Some (O_ctx (Some (t, hd)));
  rd_got : got kb k p i (g_handle g);
  rd_hd : handle_desc (g_handle g) = hd;
  rd_extra : lost_extra F kb i (h_link (g_handle g));
  rd_apart : prog_apart (g_handle g);
  rd_hok : hok (g_handle g)
}.
(** What is left of it. *)
Record wiped (F : call -> bool) (kb k' : kst) (n : name) (i : ino) (hd : hdesc) : Prop := {
  wp_ctx : dview k' i P_ctx = None;
  wp_pins : forall q, In q (pin_names hd) -> dview k' i q = None;
  wp_link : forall o, hd_link hd <> None -> dview kb i P_link = Some o -> down k' o;
  wp_extra : forall o, hd_link hd <> None -> dview kb i P_link_extra = Some o -> down k' o \/ faulty F;
  wp_ent : (forall q, dview kb i q <> None -> q = P_ctx \/ In q (pin_names hd)) -> ent_find n (k_ents k') = None
}.
Lemma ready_links F p kb k n i hd g : ready F p kb k n i hd g ->
  exists O, link_oids k p (h_link (g_handle g)) O /\
    (forall o, hd_link hd <> None -> dview kb i P_link = Some o -> In o O) /\
    (forall o, hd_link hd <> None -> dview kb i P_link_extra = Some o -> In o O \/ faulty F) /\
    (forall o, In o O -> exists q, dview kb i q = Some o).
Proof.
  intros [_ _ _ GO HD LX _ _].
  assert (GL : forall q f, In (q, f) (lpins (h_link (g_handle g))) -> exists o, dview kb i q = Some o /\ desc_of k p f = Some (D_obj o)).
  { intros q f H. destruct (GO q f) as (_ & X); [unfold hpins; rewrite !in_app_iff; auto|exact X]. }
  subst hd. cbn [handle_desc hd_link]. unfold link_oids. destruct (h_link (g_handle g)) as [l|].
  2:{ exists []. split; [constructor|]. split; [congruence|]. split; [congruence|]. intros o []. }
  unfold lpins in *. cbn [lost_extra] in LX.
  destruct (GL P_link (l_fd l) (or_introl eq_refl)) as (o & V & D).
  destruct (l_extra l) as [fx|].
  - destruct (GL P_link_extra fx) as (ox & VX & DX); [right; left; reflexivity|].
    exists [o; ox]. split; [constructor; [exact D|constructor; [exact DX|constructor]]|].
    split; [intros x _ H; left; congruence|]. split; [intros x _ H; left; right; left; congruence|].
    intros x [<-|[<-|[]]]; [exists P_link|exists P_link_extra]; auto.
  - exists [o]. split; [constructor; [exact D|constructor]|]. split; [intros x _ H; left; congruence|].
    split; [intros x _ H; right; destruct (LX eq_refl) as [Y|Y]; [exact (extra_is_faulty _ Y)|congruence]|]. intros x [<-|[]]. exists P_link; auto.
Qed.

Lemma base_less kb k' : less kb k' -> sane (base kb k') -> less kb (base kb k').
Proof.
  intros L S. assert (V : forall j q o, dview (base kb k') j q = Some o -> dview k' j q = Some o).
  { intros j q o. unfold dview, base. cbn [k_dirs]. destruct (j <? k_next kb); [auto|discriminate]. }
  constructor; [exact S|cbn [base k_next]; lia|exact (ls_ents _ _ L)| | |].
  - intros j q o H. exact (ls_pins _ _ L _ _ _ (V _ _ _ H)).
  - intros o H. unfold base. cbn [k_objs]. apply N.ltb_lt in H as H'. rewrite H'. exact (ls_objs _ _ L o H).
  - intros n i H. destruct (ls_keep _ _ L n i H) as [X|X]; [left; exact X|right]. intros q.
    destruct (dview (base kb k') i q) as [o|] eqn:Y; [|reflexivity]. apply V in Y. rewrite X in Y. discriminate Y.
Qed.
(** The state as if the chains so far had been removed before the process began. *)
Record stripped (p : pid) (n : name) (i : ino) (kb kb' : kst) : Prop := {
  sp_inv : inv kb';
  sp_next : k_next kb' = k_next kb;
  sp_fds : k_fds kb' = k_fds kb;
  sp_less : less kb kb';
  sp_dirs : forall j, j <> i -> k_dirs kb' j = k_dirs kb j;
  sp_ents : forall m, m <> n -> ent_find m (k_ents kb') = ent_find m (k_ents kb)
}.
Lemma drop_ok F p (I : kst -> Prop) b f c n i hd g Z kb k1 : inv kb -> ready F p kb k1 n i hd g ->
  grow p (hfds (g_handle g) ++ c :: Z) kb k1 -> desc_of k1 p c = Some (D_dir i L_WRITE) -> desc_of k1 p f = Some (D_pindir L_WRITE) ->
  k_next kb <= c -> (forall k', inv k' -> less kb k' -> I k') ->
  wps F p I (cgen_unload g c ;;; release_chain (mkLk (Some b) (Some f) L_WRITE (Some (c, n, L_WRITE)))) (fun _ k' =>
    exists kb', stripped p n i kb kb' /\ grow p Z kb' k' /\ wiped F kb kb' n i hd /\
      k_next k1 <= k_next k' /\ (forall x, ~ In x (hfds (g_handle g)) -> x <> c -> fd_find x (k_fds k') = fd_find x (k_fds k1))) k1.
Proof.
  intros IB RD G1 DC DF LC HI. pose proof (in_sane _ IB) as SB. pose proof (rd_ent _ _ _ _ _ _ _ _ RD) as EN. pose proof (sane_ent _ SB _ _ EN) as LI.
  pose proof (grow_less _ _ _ _ SB G1) as L1. pose proof (ev_sane _ _ _ _ _ _ _ G1) as S1.
  destruct (ready_links _ _ _ _ _ _ _ _ RD) as (O & LO & O1 & O2 & O3).
  pose proof (rd_got _ _ _ _ _ _ _ _ RD) as GO. pose proof (rd_hd _ _ _ _ _ _ _ _ RD) as HD. pose proof (rd_hok _ _ _ _ _ _ _ _ RD) as HOK.
  set (W := fun k' => less k1 k' -> I k').
  assert (FG : forall x, In x (hfds (g_handle g)) -> k_next kb <= x /\ exists o, desc_of k1 p x = Some (D_obj o)).
  { intros x H. unfold hfds in H. apply in_map_iff in H as ((q & y) & <- & H). destruct (GO q y H) as (A & o & _ & B). cbn [snd]. eauto. }
  assert (WI : forall D M S k', evo p (k_ents kb) (Some (i, D)) M S kb k' \/ evo p (ent_del n (k_ents kb)) (Some (i, D)) M S kb k' -> D P_ctx = None ->
     (forall o, k_objs k' o = k_objs k1 o \/ In o O) -> less kb k' -> inv k').
  { intros D M S k' EV DP OB L.
    assert (EV' : exists E, evo p E (Some (i, D)) M S kb k') by (destruct EV; eauto). clear EV. destruct EV' as (E & EV).
    eapply inv_wipe; [exact IB|exact L|exact EN| | |].
    - intros j LJ NE. apply (ev_dirs _ _ _ _ _ _ _ EV); [exact LJ|congruence].
    - rewrite (proj2 (ev_view _ _ _ _ _ _ _ EV i D eq_refl)). exact DP.
    - intros o L'. destruct (OB o) as [X|X]; [left|right; exact (O3 o X)]. rewrite X. rewrite (ev_objs _ _ _ _ _ _ _ G1 o L'). reflexivity. }
  set (Q := fun (_ : lock) k' => exists kb', stripped p n i kb kb' /\ grow p Z kb' k' /\ wiped F kb kb' n i hd /\
      k_next k1 <= k_next k' /\ (forall x, ~ In x (hfds (g_handle g)) -> x <> c -> fd_find x (k_fds k') = fd_find x (k_fds k1))).
  eapply wps_post; [| |eapply (wps_conj F p W (less k1) _ (fun a k' => less k1 k' -> Q a k') (fun _ k' => less k1 k')); [|apply less_go; [thx|apply less_refl, S1]]].
  { intros k' [A B]. exact (A B). }
  { intros a k' [A B]. exact (A B). }
  apply wps_bind. eapply wps_post with (I := W); [auto| |apply (cgen_unload_ok F p W g c i L_WRITE O (k_ents kb) [] (c :: Z) kb k1 G1 SB LI DC LO HOK)]; cycle 1.
  { intros x H. apply FG, H. }
  { exact (rd_apart _ _ _ _ _ _ _ _ RD). }
  { intros L. apply HI; [eapply inv_grow; [exact IB|exact G1]|exact L1]. }
  { intros D M S k' EV DP OB L. apply (less_trans _ _ _ L1) in L. apply HI; [|exact L]. eapply WI; [left; exact EV|exact DP|exact OB|exact L]. }
  intros [] k2 U. destruct U as [(D & M & E2 & DP & UN & KEEP) UO DN UF].
  assert (OB2 : forall o, k_objs k2 o = k_objs k1 o \/ In o O) by (intros o; destruct (UO o) as [X|[X _]]; auto).
  assert (DF2 : desc_of k2 p f = Some (D_pindir L_WRITE)).
  { apply find_desc_of. rewrite UF; [apply desc_of_find, DF|]. intros X. destruct (FG f X) as (_ & o & Y). congruence. }
  assert (EE : k_ents k2 = k_ents kb) by apply (ev_ents _ _ _ _ _ _ _ E2).
  assert (V2 : forall q, dview k2 i q = D q) by apply (ev_view _ _ _ _ _ _ _ E2 i D eq_refl).
  assert (TR : (trim k2 L_WRITE n = ent_del n (k_ents kb) /\ forall q, D q = None) \/ (trim k2 L_WRITE n = k_ents kb /\ exists q, D q <> None)).
  { pose proof EN as EN2. rewrite <- EE in EN2. destruct (trim_write k2 n i EN2) as [(A & Y)|(A & q & B)]; rewrite EE in A; [left; split; [exact A|intros q; rewrite <- V2; apply Y]|right].
    split; [exact A|]. exists q. rewrite <- V2. exact B. }
  eapply wps_post with (I := W); [auto| |apply (release_chain_ok F p W b f L_WRITE c n L_WRITE (k_ents kb) (Some (i, D)) M (c :: Z) Z kb k2 SB E2 DF2 LC)]; cycle 1.
  { intros x [<-|H]; auto. }
  { intros E' S k' C EV L. apply (less_trans _ _ _ L1) in L. apply HI; [|exact L]. pose proof (ev_ents _ _ _ _ _ _ _ EV) as Y.
    eapply WI; [|exact DP| |exact L].
    - destruct (ce_ents _ _ _ C) as [X|X]; rewrite Y in X; rewrite X in EV; [left; rewrite EE in EV; exact EV|].
      destruct TR as [(T & _)|(T & _)]; rewrite T in EV; [right|left]; exact EV.
    - intros o. rewrite (ce_objs _ _ _ C). apply OB2. }
  intros lk' k3 (_ & E3 & C3 & F3) L13. pose proof (less_trans _ _ _ L1 L13) as L3.
  assert (OB3 : forall o, k_objs k3 o = k_objs k1 o \/ In o O) by (intros o; rewrite (ce_objs _ _ _ C3); apply OB2).
  assert (V3 : forall q, dview k3 i q = D q) by apply (ev_view _ _ _ _ _ _ _ E3 i D eq_refl).
  assert (XI : forall j D', Some (i, D) = Some (j, D') -> j < k_next kb) by (intros j D' X; injection X as <- _; exact LI).
  destruct (base_grow p _ _ _ _ kb k3 SB E3) as [SB' GB'].
  { intros m j. destruct TR as [(-> & _)|(-> & _)]; [apply del_sub|auto]. }
  { exact XI. }
  { intros j q o _ H. apply (ls_pins _ _ L3) in H. exact (sane_pin_lt _ _ _ _ SB H). }
  pose proof (base_less _ _ L3 SB') as LB.
  pose proof (base_evo p _ _ _ _ kb k3 SB SB' E3 XI) as EB.
  exists (base kb k3). assert (VB : forall q, dview (base kb k3) i q = D q) by apply (ev_view _ _ _ _ _ _ _ EB i D eq_refl).
  assert (OBB : forall o, o < k_next kb -> k_objs (base kb k3) o = k_objs k3 o).
  { intros o L. unfold base. cbn [k_objs]. apply N.ltb_lt in L. rewrite L. reflexivity. }
  assert (DNB : forall o, In o O -> down (base kb k3) o).
  { intros o H. destruct (O3 o H) as (q & V). pose proof (sane_pin_lt _ _ _ _ SB V) as L. unfold down. rewrite (OBB o L), (ce_objs _ _ _ C3). exact (DN o H). }
  split; [constructor|split; [exact GB'|split]].
  - eapply inv_wipe; [exact IB|exact LB|exact EN| | |].
    + intros j LJ NE. apply (ev_dirs _ _ _ _ _ _ _ EB); [exact LJ|congruence].
    + rewrite VB. exact DP.
    + intros o L. rewrite (OBB o L). destruct (OB3 o) as [X|X]; [left|right; exact (O3 o X)]. rewrite X, (ev_objs _ _ _ _ _ _ _ G1 o L). reflexivity.
  - reflexivity.
  - reflexivity.
  - exact LB.
  - intros j NE. destruct (N.lt_ge_cases j (k_next kb)) as [L|L]; [apply (ev_dirs _ _ _ _ _ _ _ EB); [exact L|congruence]|].
    rewrite (ev_fresh _ _ _ _ _ _ _ EB); [symmetry; apply (sane_fresh _ SB), L|exact L|congruence].
  - intros m NE. rewrite (ev_ents _ _ _ _ _ _ _ EB). destruct TR as [(-> & _)|(-> & _)]; [|reflexivity]. rewrite ent_find_del.
    destruct (bytes_eqb m n) eqn:X; [apply bytes_eqb_eq in X; congruence|reflexivity].
  - constructor.
    + rewrite VB. exact DP.
    + intros q H. rewrite VB. apply UN, desc_hnames. rewrite HD. exact H.
    + intros o H1 H2. apply DNB, O1; assumption.
    + intros o H1 H2. destruct (O2 o H1 H2) as [X|X]; [left; apply DNB, X|right; exact X].
    + intros TD. rewrite (ev_ents _ _ _ _ _ _ _ EB). destruct TR as [(-> & _)|(_ & q & NQ)].
      * rewrite ent_find_del, (proj2 (bytes_eqb_eq n n) eq_refl). reflexivity.
      * destruct NQ. destruct (D q) as [o|] eqn:X; [|reflexivity]. exfalso.
        assert (Y : dview kb i q <> None). { rewrite <- VB in X. apply (ls_pins _ _ LB) in X. congruence. }
        destruct (TD q Y) as [->|H]; [congruence|]. rewrite (UN q) in X; [discriminate X|]. apply desc_hnames. rewrite HD. exact H.
  - split; [exact (ls_next _ _ L13)|]. intros x N1 N2. rewrite (F3 x N2), (UF x N1). reflexivity.
Qed.

(** ** The loop over the chains that were read *)
Definition gfds (gs : list cgen) : list fd := flat_map (fun g => hfds (g_handle g)) gs.
Definition apart (g g' : cgen) : Prop :=
  nc_name (g_chain g) <> nc_name (g_chain g') /\ forall x, In x (hfds (g_handle g)) -> ~ In x (hfds (g_handle g')).
Lemma ready_step F p kb k kb' k' n i n' i' hd' g' : sane kb -> stripped p n i kb kb' -> ent_find n (k_ents kb) = Some i -> n' <> n ->
  (forall x, In x (hfds (g_handle g')) -> fd_find x (k_fds k') = fd_find x (k_fds k)) ->
  ready F p kb k n' i' hd' g' -> ready F p kb' k' n' i' hd' g'.
Proof.
  intros SB [SI SN SF SL SD SE] EN NE FD [R1 R2 (o & t & R3 & R4) R5 R6 R7 R8 R9].
  assert (NI : i' <> i) by (intros ->; apply NE; exact (sane_inj _ SB _ _ _ R2 EN)).
  assert (DV : forall q, dview kb' i' q = dview kb i' q) by (intros q; unfold dview; rewrite (SD _ NI); reflexivity).
  constructor; auto.
  - rewrite SE; assumption.
  - exists o, t. rewrite DV. split; [exact R3|].
    destruct (ls_objs _ _ SL o (sane_obj _ SB _ _ R4)) as [<-|(h & tt & po & x & X & _)]; [exact R4|congruence].
  - intros q f H. destruct (R5 q f H) as (A & o' & B & C). split; [rewrite SN; exact A|]. exists o'. rewrite DV. split; [exact B|].
    apply find_desc_of. rewrite FD; [apply desc_of_find, C|]. unfold hfds. apply in_map_iff. exists (q, f). auto.
  - unfold lost_extra in *. destruct (h_link (g_handle g')) as [l|]; [|exact R7]. intros X. rewrite DV. exact (R7 X).
Qed.
Lemma wiped_later F kb k1 k2 n i hd : sane kb -> k_next kb <= k_next k1 -> wiped F kb k1 n i hd -> less k1 k2 -> wiped F kb k2 n i hd.
Proof.
  intros SB NX [A B C D E] L.
  assert (NP : forall q, dview k1 i q = None -> dview k2 i q = None).
  { intros q H. destruct (dview k2 i q) eqn:X; [|reflexivity]. apply (ls_pins _ _ L) in X. congruence. }
  assert (DN : forall o q, dview kb i q = Some o -> down k1 o -> down k2 o).
  { intros o q V H h t po x Y. pose proof (sane_pin_lt _ _ _ _ SB V).
    destruct (ls_objs _ _ L o) as [X|(h' & t' & po' & x' & _ & X)]; [lia|rewrite <- X in Y; exact (H _ _ _ _ Y)|congruence]. }
  constructor; auto.
  - intros o H1 H2. eapply DN; [exact H2|exact (C o H1 H2)].
  - intros o H1 H2. destruct (D o H1 H2) as [X|X]; [left; eapply DN; [exact H2|exact X]|right; exact X].
  - intros H. destruct (ent_find n (k_ents k2)) eqn:X; [|reflexivity]. apply (ls_ents _ _ L) in X. rewrite (E H) in X. discriminate X.
Qed.
Lemma wiped_back F p kb kb' k n i n' i' hd : sane kb -> stripped p n i kb kb' -> i' <> i -> wiped F kb' k n' i' hd -> wiped F kb k n' i' hd.
Proof.
  intros SB SP NI [A B C D E]. assert (DV : forall q, dview kb' i' q = dview kb i' q) by (intros q; unfold dview; rewrite (sp_dirs _ _ _ _ _ SP _ NI); reflexivity).
  constructor; auto.
  - intros o H1 H2. apply C; [exact H1|rewrite DV; exact H2].
  - intros o H1 H2. apply D; [exact H1|rewrite DV; exact H2].
  - intros H. apply E. intros q. rewrite DV. apply H.
Qed.
(** Descriptors that are open, not of a chain directory. *)
Definition calm (p : pid) (k : kst) (S : list fd) : Prop := forall x, In x S -> x < k_next k /\ forall j m, fd_find x (k_fds k) <> Some (p, D_dir j m).
Lemma clash_back p S kb k i m : grow p S kb k -> calm p k S -> clash k (D_dir i L_NONE) m -> clash kb (D_dir i L_NONE) m.
Proof.
  intros G ND (x & q & d & A & B & C). destruct (N.lt_ge_cases x (k_next kb)) as [L|L].
  - exists x, q, d. rewrite <- (ev_old _ _ _ _ _ _ _ G x L). auto.
  - destruct (ev_new _ _ _ _ _ _ _ G x L) as [X|(H & d' & X)]; [congruence|]. rewrite A in X. injection X as -> ->.
    destruct d'; try discriminate B. destruct (ND x H) as (_ & NX). exact (False_ind _ (NX _ _ A)).
Qed.
Definition unloads (F : call -> bool) (p : pid) (kb k : kst) (gs : list cgen) (kb' : kst) : Prop :=
  forall g n i hd, In g gs -> ready F p kb k n i hd g -> faulty F \/ clash kb (D_dir i L_NONE) L_WRITE \/ wiped F kb kb' n i hd.
Lemma ready_fds F p kb k n i hd g x : ready F p kb k n i hd g -> In x (hfds (g_handle g)) -> k_next kb <= x /\ exists o, desc_of k p x = Some (D_obj o).
Proof. intros R H. unfold hfds in H. apply in_map_iff in H as ((q & y) & <- & H). destruct (rd_got _ _ _ _ _ _ _ _ R q y H) as (A & o & _ & B). cbn [snd]. eauto. Qed.
Lemma unload_all_ok F p (I : kst -> Prop) k0 b f : (forall k', inv k' -> less k0 k' -> I k') -> forall gs Z kb k,
  inv kb -> less k0 kb -> grow p (gfds gs ++ Z) kb k -> Forall (fun g => exists n i hd, ready F p kb k n i hd g) gs -> ForallOrdPairs apart gs ->
  desc_of k p b = Some D_bpffs -> desc_of k p f = Some (D_pindir L_WRITE) -> f <> b -> calm p k Z -> (forall x, In x Z -> ~ In x (gfds gs)) ->
  wps F p I (unload_all (mkLk (Some b) (Some f) L_WRITE None) gs) (fun _ k' =>
    exists kb', inv kb' /\ k_next kb' = k_next kb /\ k_fds kb' = k_fds kb /\ less kb kb' /\ grow p Z kb' k' /\ unloads F p kb k gs kb' /\
      (forall x, ~ In x (gfds gs) -> x < k_next k -> fd_find x (k_fds k') = fd_find x (k_fds k)) /\ k_next k <= k_next k') k.
Proof.
  intros HI. induction gs as [|g gs IH]; intros Z kb k IB LB G RD AP DB DF NE CZ NZ; cbn [unload_all].
  { apply wps_ret; [apply HI; [eapply inv_grow; [exact IB|exact G]|]; eapply less_trans; [exact LB|eapply grow_less; [apply IB|exact G]]|].
    exists kb. split; [exact IB|]. split; [reflexivity|]. split; [reflexivity|]. split; [apply less_refl, IB|]. split; [exact G|].
    split; [intros g n i hd []|]. split; [auto|lia]. }
  pose proof (in_sane _ IB) as SB. pose proof (ev_sane _ _ _ _ _ _ _ G) as SK. pose proof (ev_next _ _ _ _ _ _ _ G) as NX.
  inversion RD as [|g0 gs0 (n & i & hd & R) RD']; subst g0 gs0. inversion AP as [|g0 gs0 AP1 AP2]; subst g0 gs0. rewrite Forall_forall in AP1.
  assert (GI : forall S k', grow p S kb k' -> I k').
  { intros S k' X. apply HI; [eapply inv_grow; [exact IB|exact X]|]. eapply less_trans; [exact LB|eapply grow_less; [exact SB|exact X]]. }
  rewrite (rd_name _ _ _ _ _ _ _ _ R).
  apply wps_bind. eapply wps_post with (I := I); [auto| |apply (acquire_old_ok F p I (mkLk (Some b) (Some f) L_WRITE None) b f L_WRITE n L_WRITE k SK)]; cycle 1.
  { repeat split; assumption. }
  { intros S k' X. eapply GI. eapply grow_trans; [exact G|exact X]. }
  intros [lk'|e] k1.
  - intros (c & j & -> & EJ & G1 & DC & LC). rewrite (ev_ents _ _ _ _ _ _ _ G) in EJ.
    assert (j = i) by (pose proof (rd_ent _ _ _ _ _ _ _ _ R); congruence). subst j.
    cbn [chain_fd lk_chain].
    assert (G2 : grow p (hfds (g_handle g) ++ c :: gfds gs ++ Z) kb k1).
    { eapply evo_incl; [exact (grow_trans _ _ _ _ _ _ G G1)|]. intros x. cbn [gfds flat_map]. fold (gfds gs). rewrite !in_app_iff. cbn [In]. rewrite !in_app_iff. tauto. }
    assert (DK : forall x, x < k_next k -> fd_find x (k_fds k1) = fd_find x (k_fds k)) by exact (ev_old _ _ _ _ _ _ _ G1).
    assert (RFD : forall g' n' i' hd' x, ready F p kb k n' i' hd' g' -> In x (hfds (g_handle g')) -> x < k_next k).
    { intros g' n' i' hd' x R' H. destruct (ready_fds _ _ _ _ _ _ _ _ _ R' H) as (_ & o & D). eapply desc_lt; [exact SK|exact D]. }
    assert (R1 : ready F p kb k1 n i hd g).
    { destruct R as [Q1 Q2 Q3 Q4 Q5 Q6 Q7 Q8]. constructor; auto. eapply got_grow; [exact G1|exact SK|exact Q4]. }
    assert (DF1 : desc_of k1 p f = Some (D_pindir L_WRITE)) by (eapply grow_desc; [exact G1|exact SK|exact DF]).
    assert (DB1 : desc_of k1 p b = Some D_bpffs) by (eapply grow_desc; [exact G1|exact SK|exact DB]).
    assert (ASSOC : forall (m1 : prog unit) (m2 : prog lock) (m3 : prog unit) Q kk,
       wps F p I (m1 ;;; m2) (fun _ k' => wps F p I m3 Q k') kk -> wps F p I (m1 ;;; m2 ;;; m3) Q kk).
    { intros m1 m2 m3 Q kk H. assert (E : forall m : prog unit, forall kk, wps F p I (m ;;; m2) (fun _ k' => wps F p I m3 Q k') kk -> wps F p I (m ;;; m2 ;;; m3) Q kk).
      { induction m as [[]|c0 f0 IHm]; intros k9 H9.
        - cbn [pbind] in *. apply wps_bind. exact H9.
        - cbn [pbind wps] in *. destruct H9 as [A B]. split; [exact A|]. intros d E. apply IHm. exact (B d E). }
      apply E, H. }
    apply ASSOC. clear ASSOC.
    eapply wps_post with (I := I); [auto| |apply (drop_ok F p I b f c n i hd g (gfds gs ++ Z) kb k1 IB R1 G2 DC DF1)]; cycle 1.
    { lia. }
    { intros k' X Y. apply HI; [exact X|eapply less_trans; [exact LB|exact Y]]. }
    intros _ k2 (kb1 & SP & G3 & WP & N12' & F3). pose proof (rd_ent _ _ _ _ _ _ _ _ R) as EN.
    pose proof (sp_less _ _ _ _ _ SP) as L1.
    assert (FX : forall x, ~ In x (hfds (g_handle g)) -> x < k_next k -> fd_find x (k_fds k2) = fd_find x (k_fds k)).
    { intros x N1 L. rewrite F3; [apply DK, L|exact N1|]. pose proof (desc_lt _ _ _ _ SK DF). lia. }
    assert (NG : forall x d, desc_of k p x = Some d -> (forall o, d <> D_obj o) -> ~ In x (hfds (g_handle g))).
    { intros x d D NO X. destruct (ready_fds _ _ _ _ _ _ _ _ _ R X) as (_ & o & Y). apply (NO o). congruence. }
    assert (RST : forall g' n' i' hd', In g' gs -> ready F p kb k n' i' hd' g' -> ready F p kb1 k2 n' i' hd' g').
    { intros g' n' i' hd' H R'. destruct (AP1 g' H) as (NN & NF). eapply ready_step; [exact SB|exact SP|exact EN| | |exact R'].
      - rewrite <- (rd_name _ _ _ _ _ _ _ _ R), <- (rd_name _ _ _ _ _ _ _ _ R'). congruence.
      - intros x X. apply FX; [intros Y; exact (NF x Y X)|eapply RFD; [exact R'|exact X]]. }
    assert (N12 : k_next k <= k_next k2).
    { pose proof (ev_next _ _ _ _ _ _ _ G1). lia. }
    assert (CZ2 : calm p k2 Z).
    { intros x H. destruct (CZ x H) as (L & D). split; [lia|]. intros j m X. rewrite FX in X; [exact (D j m X)| |exact L].
      intros Y. apply (NZ x H). cbn [gfds flat_map]. apply in_or_app. left. exact Y. }
    assert (DF2 : desc_of k2 p f = Some (D_pindir L_WRITE)).
    { apply find_desc_of. rewrite FX; [apply desc_of_find, DF|eapply NG; [exact DF|discriminate]|eapply desc_lt; [exact SK|exact DF]]. }
    assert (DB2 : desc_of k2 p b = Some D_bpffs).
    { apply find_desc_of. rewrite FX; [apply desc_of_find, DB|eapply NG; [exact DB|discriminate]|eapply desc_lt; [exact SK|exact DB]]. }
    eapply wps_post with (I := I); [auto| |apply (IH Z kb1 k2 (sp_inv _ _ _ _ _ SP) (less_trans _ _ _ LB L1) G3)]; [|  |exact AP2|exact DB2|exact DF2|exact NE|exact CZ2|]; cycle 1.
    { rewrite Forall_forall in *. intros g' H. destruct (RD' g' H) as (n' & i' & hd' & R'). exists n', i', hd'. apply RST; assumption. }
    { intros x H X. apply (NZ x H). cbn [gfds flat_map]. apply in_or_app. right. exact X. }
    intros _ k3 (kb' & B1 & B2 & B3 & B4 & B5 & B6 & B7 & B8). exists kb'.
    split; [exact B1|]. split; [rewrite B2; exact (sp_next _ _ _ _ _ SP)|]. split; [rewrite B3; exact (sp_fds _ _ _ _ _ SP)|].
    split; [eapply less_trans; [exact L1|exact B4]|]. split; [exact B5|]. split; [|split; [|lia]].
    + intros g' n' i' hd' [<-|H] R'.
      * assert (n' = n) by (rewrite <- (rd_name _ _ _ _ _ _ _ _ R), <- (rd_name _ _ _ _ _ _ _ _ R'); reflexivity). subst n'.
        assert (i' = i) by (pose proof (rd_ent _ _ _ _ _ _ _ _ R'); congruence). subst i'.
        assert (hd' = hd) by (rewrite <- (rd_hd _ _ _ _ _ _ _ _ R), <- (rd_hd _ _ _ _ _ _ _ _ R'); reflexivity). subst hd'.
        right. right. eapply wiped_later; [exact SB| |exact WP|exact B4]. rewrite (sp_next _ _ _ _ _ SP). lia.
      * destruct (B6 g' n' i' hd' H (RST _ _ _ _ H R')) as [X|[X|X]]; [auto| |].
        -- right. left. destruct X as (y & q & d & Y1 & Y2). rewrite (sp_fds _ _ _ _ _ SP) in Y1. exists y, q, d. auto.
        -- right. right. eapply wiped_back; [exact SB|exact SP| |exact X]. intros ->.
           destruct (AP1 g' H) as (NN & _). apply NN. rewrite (rd_name _ _ _ _ _ _ _ _ R), (rd_name _ _ _ _ _ _ _ _ R').
           exact (sane_inj _ SB _ _ _ EN (rd_ent _ _ _ _ _ _ _ _ R')).
    + intros x NX' L. rewrite B7; [apply FX; [|exact L]| |lia]; intros X; apply NX'; cbn [gfds flat_map]; apply in_or_app; auto.
  - intros (G1 & C1).
    assert (G2 : grow p (gfds gs ++ hfds (g_handle g) ++ Z) kb k1).
    { eapply evo_incl; [exact (grow_trans _ _ _ _ _ _ G G1)|]. intros x. cbn [gfds flat_map app]. fold (gfds gs). rewrite !in_app_iff. tauto. }
    assert (DK : forall x, x < k_next k -> fd_find x (k_fds k1) = fd_find x (k_fds k)) by exact (ev_old _ _ _ _ _ _ _ G1).
    pose proof (ev_next _ _ _ _ _ _ _ G1) as N1.
    assert (RG : forall g' n' i' hd', ready F p kb k n' i' hd' g' -> ready F p kb k1 n' i' hd' g').
    { intros g' n' i' hd' [Q1 Q2 Q3 Q4 Q5 Q6 Q7 Q8]. constructor; auto. eapply got_grow; [exact G1|exact SK|exact Q4]. }
    assert (CS : calm p k (gfds (g :: gs) ++ Z)).
    { intros x H. apply in_app_or in H as [H|H]; [|exact (CZ x H)]. unfold gfds in H. apply in_flat_map in H as (g' & Y1 & Y2).
      rewrite Forall_forall in RD. destruct (RD g' Y1) as (n' & i' & hd' & R'). destruct (ready_fds _ _ _ _ _ _ _ _ _ R' Y2) as (_ & o & D).
      split; [eapply desc_lt; [exact SK|exact D]|]. intros j m X. apply desc_of_find in D. congruence. }
    apply wps_bind.
    eapply wps_post with (I := I); [auto| |apply (IH (hfds (g_handle g) ++ Z) kb k1 IB LB G2)]; [| |exact AP2|eapply grow_desc; [exact G1|exact SK|exact DB]|eapply grow_desc; [exact G1|exact SK|exact DF]|exact NE| |]; cycle 1.
    { rewrite Forall_forall in *. intros g' H. destruct (RD' g' H) as (n' & i' & hd' & R'). exists n', i', hd'. apply RG, R'. }
    { intros x H. destruct (CS x) as (L & D); [cbn [gfds flat_map]; rewrite !in_app_iff in *; tauto|]. split; [lia|]. intros j m. rewrite (DK x L). apply D. }
    { intros x H X. apply in_app_or in H as [H|H].
      - unfold gfds in X. apply in_flat_map in X as (g' & Y1 & Y2). exact (proj2 (AP1 g' Y1) x H Y2).
      - apply (NZ x H). cbn [gfds flat_map]. apply in_or_app. right. exact X. }
    intros [] k2 (kb' & B1 & B2 & B3 & B4 & B5 & B6 & B7 & B8).
    assert (GI2 : forall S k', grow p S kb' k' -> I k').
    { intros S k' X. apply HI; [eapply inv_grow; [exact B1|exact X]|]. eapply less_trans; [exact LB|]. eapply less_trans; [exact B4|]. eapply grow_less; [apply B1|exact X]. }
    eapply wps_post with (I := I); [auto| |apply (closes_cgen p g F I kb' _ _ _ _ Z k2 B5 (in_sane _ B1))]; cycle 1.
    { intros x H. rewrite B2. apply (ready_fds _ _ _ _ _ _ _ _ _ R H). }
    { intros x H. apply in_app_or in H as [H|H]; auto. }
    { intros S k' _ X. eapply GI2, X. }
    intros _ k3 (C3 & G3 & F3). exists kb'. split; [exact B1|]. split; [exact B2|]. split; [exact B3|]. split; [exact B4|]. split; [exact G3|]. split; [|split; [|rewrite (cl_next _ _ C3); lia]].
    + intros g' n' i' hd' [<-|H] R'; [|exact (B6 g' n' i' hd' H (RG _ _ _ _ R'))].
      destruct C1 as [X|[(_ & X)|(j & X & Y)]]; [auto| |]; rewrite (ev_ents _ _ _ _ _ _ _ G) in X.
      * pose proof (rd_ent _ _ _ _ _ _ _ _ R). congruence.
      * right. left. assert (n' = n) by (rewrite <- (rd_name _ _ _ _ _ _ _ _ R), <- (rd_name _ _ _ _ _ _ _ _ R'); reflexivity). subst n'.
        pose proof (rd_ent _ _ _ _ _ _ _ _ R'). assert (j = i') by congruence. subst j. eapply clash_back; [exact G|exact CS|exact Y].
    + intros x NX' L. rewrite F3, B7; [apply DK, L| |lia|]; intros X; apply NX'; cbn [gfds flat_map]; apply in_or_app; auto.
Qed.

(** ** Reading all the chains *)
(** Why a chain is not read. *)
Definition skipped (F : call -> bool) (mm : nat -> mem) (k0 : kst) (n : name) : Prop :=
  faulty F \/ ent_find n (k_ents k0) = None \/
  exists i, ent_find n (k_ents k0) = Some i /\ (clash k0 (D_dir i L_NONE) L_READ \/ exists j e, unread F (mm j) k0 i e).
Record read_all (F : call -> bool) (p : pid) (k0 k : kst) (Z : list fd) (gs : list cgen) : Prop := {
  ra_grow : grow p (gfds gs ++ Z) k0 k;
  ra_ready : Forall (fun g => exists n i hd, ready F p k0 k n i hd g) gs;
  ra_apart : ForallOrdPairs apart gs
}.
Lemma read_grow F p k0 k Z gs k' : sane k -> read_all F p k0 k Z gs -> grow p [] k k' -> read_all F p k0 k' Z gs.
Proof.
  intros SK [A B C] G. constructor; [exact (grow_trans _ _ _ _ _ _ A G)| |exact C].
  rewrite Forall_forall in *. intros g H. destruct (B g H) as (n & i & hd & [Q1 Q2 Q3 Q4 Q5 Q6 Q7 Q8]). exists n, i, hd. constructor; auto.
  eapply got_grow; [exact G|exact SK|exact Q4].
Qed.
Lemma fop_snoc {A} (R : A -> A -> Prop) l x : ForallOrdPairs R l -> Forall (fun y => R y x) l -> ForallOrdPairs R (l ++ [x]).
Proof.
  induction 1 as [|a l H1 H2 IH]; intros H; cbn; [constructor; [constructor|constructor]|]. inversion H; subst.
  constructor; [|apply IH; assumption]. rewrite Forall_app. split; [exact H1|]. constructor; [assumption|constructor].
Qed.
Lemma read_snoc F p k0 k Z gs g n i hd : sane k -> read_all F p k0 k Z gs -> forall k', k_next k <= k_next k' ->
  grow p (hfds (g_handle g) ++ gfds gs ++ Z) k0 k' -> (forall x, x < k_next k -> fd_find x (k_fds k') = fd_find x (k_fds k)) ->
  ready F p k0 k' n i hd g -> (forall x, In x (hfds (g_handle g)) -> k_next k <= x) -> (forall g', In g' gs -> nc_name (g_chain g') <> n) ->
  read_all F p k0 k' Z (gs ++ [g]).
Proof.
  intros SK [A B C] k' NX G FD R NF NN.
  assert (RO : forall g' n' i' hd' x, ready F p k0 k n' i' hd' g' -> In x (hfds (g_handle g')) -> x < k_next k).
  { intros g' n' i' hd' x R' H. destruct (ready_fds _ _ _ _ _ _ _ _ _ R' H) as (_ & o & D). eapply desc_lt; [exact SK|exact D]. }
  rewrite Forall_forall in B. constructor.
  - eapply evo_incl; [exact G|]. intros x. unfold gfds. rewrite flat_map_app, !in_app_iff. cbn [flat_map]. rewrite app_nil_r. tauto.
  - rewrite Forall_forall. intros g' H. apply in_app_or in H as [H|[<-|[]]]; [|eauto]. destruct (B g' H) as (n' & i' & hd' & R'). exists n', i', hd'.
    pose proof R' as [Q1 Q2 Q3 Q4 Q5 Q6 Q7 Q8]. constructor; auto. intros q y Y. destruct (Q4 q y Y) as (X1 & o & X2 & X3). split; [exact X1|]. exists o. split; [exact X2|].
    apply find_desc_of. rewrite FD; [apply desc_of_find, X3|eapply desc_lt; [exact SK|exact X3]].
  - apply fop_snoc; [exact C|]. rewrite Forall_forall. intros g' H. destruct (B g' H) as (n' & i' & hd' & R'). split.
    + rewrite (rd_name _ _ _ _ _ _ _ _ R). apply NN, H.
    + intros x X Y. specialize (RO _ _ _ _ x R' X). specialize (NF x Y). lia.
Qed.
Lemma restore_entries_ok F p (I : kst -> Prop) mm b f pm k0 : inv k0 -> (forall S k', grow p S k0 k' -> I k') -> f <> b -> forall Z, incl Z [f; b] ->
  forall l a acc k, read_all F p k0 k Z acc -> desc_of k p b = Some D_bpffs -> desc_of k p f = Some (D_pindir pm) ->
  NoDup l -> (forall g, In g acc -> ~ In (nc_name (g_chain g)) l) ->
  wps F p I (restore_entries mm (mkLk (Some b) (Some f) pm None) a l acc) (fun gs k' =>
    read_all F p k0 k' Z gs /\ desc_of k' p b = Some D_bpffs /\ desc_of k' p f = Some (D_pindir pm) /\ (forall g, In g acc -> In g gs) /\
    (forall n, In n l -> is_staging n = false -> (exists g, In g gs /\ nc_name (g_chain g) = n) \/ skipped F mm k0 n)) k.
Proof.
  intros IB HG NE Z0 IZ. pose proof (in_sane _ IB) as SB. induction l as [|n l IH]; intros a acc k RA DB DF NDL DIS; cbn [restore_entries].
  { apply wps_ret; [eapply HG, (ra_grow _ _ _ _ _ _ RA)|]. split; [exact RA|]. split; [exact DB|]. split; [exact DF|]. split; [auto|]. intros n []. }
  inversion NDL as [|x y NI NDL']; subst x y.
  pose proof (ra_grow _ _ _ _ _ _ RA) as G. pose proof (ev_sane _ _ _ _ _ _ _ G) as SK. pose proof (ev_next _ _ _ _ _ _ _ G) as NX.
  (* going on with the next entry *)
  assert (GO : forall acc' k', read_all F p k0 k' Z0 acc' -> desc_of k' p b = Some D_bpffs -> desc_of k' p f = Some (D_pindir pm) ->
     (forall g, In g acc -> In g acc') -> (forall g, In g acc' -> ~ In (nc_name (g_chain g)) l) ->
     (is_staging n = false -> (exists g, In g acc' /\ nc_name (g_chain g) = n) \/ skipped F mm k0 n) ->
     wps F p I (restore_entries mm (mkLk (Some b) (Some f) pm None) (S a) l acc') (fun gs k' =>
       read_all F p k0 k' Z0 gs /\ desc_of k' p b = Some D_bpffs /\ desc_of k' p f = Some (D_pindir pm) /\ (forall g, In g acc -> In g gs) /\
       (forall m, In m (n :: l) -> is_staging m = false -> (exists g, In g gs /\ nc_name (g_chain g) = m) \/ skipped F mm k0 m)) k').
  { intros acc' k' RA' DB' DF' INC DIS' SK'.
    eapply wps_post with (I := I); [auto| |eapply IH; [exact RA'|exact DB'|exact DF'|exact NDL'|exact DIS']].
    intros gs k9 (A1 & A2 & A3 & A4 & A5). split; [exact A1|]. split; [exact A2|]. split; [exact A3|]. split; [auto|].
    intros m [<-|H] ST; [|exact (A5 m H ST)]. destruct (SK' ST) as [(g & X & Y)|X]; [left; exists g; auto|right; exact X]. }
  assert (DIS1 : forall g, In g acc -> ~ In (nc_name (g_chain g)) l) by (intros g H X; apply (DIS g H); right; exact X).
  destruct (is_staging n) eqn:ST; [apply GO; auto; discriminate|].
  assert (CALM : calm p k (gfds acc ++ Z0)).
  { intros x H. apply in_app_or in H as [H|H]; [|apply IZ in H; destruct H as [<-|[<-|[]]]].
    - unfold gfds in H. apply in_flat_map in H as (g' & Y1 & Y2). pose proof (ra_ready _ _ _ _ _ _ RA) as RD. rewrite Forall_forall in RD.
      destruct (RD g' Y1) as (n' & i' & hd' & R'). destruct (ready_fds _ _ _ _ _ _ _ _ _ R' Y2) as (_ & o & D).
      split; [eapply desc_lt; [exact SK|exact D]|]. intros j m X. apply desc_of_find in D. congruence.
    - split; [eapply desc_lt; [exact SK|exact DF]|]. intros j m X. apply desc_of_find in DF. congruence.
    - split; [eapply desc_lt; [exact SK|exact DB]|]. intros j m X. apply desc_of_find in DB. congruence. }
  apply wps_bind. eapply wps_post with (I := I); [auto| |apply (acquire_old_ok F p I (mkLk (Some b) (Some f) pm None) b f pm n L_READ k SK)]; cycle 1.
  { repeat split; assumption. }
  { intros S k' X. eapply HG. eapply grow_trans; [exact G|exact X]. }
  intros [lk'|e] k1.
  2:{ intros (G1 & C1). apply GO; [eapply read_grow; [exact SK|exact RA|exact G1]|eapply grow_desc; [exact G1|exact SK|exact DB]|eapply grow_desc; [exact G1|exact SK|exact DF]|auto|exact DIS1|].
      intros _. right. unfold skipped. destruct C1 as [X|[(_ & X)|(j & X & Y)]]; [auto| |]; rewrite (ev_ents _ _ _ _ _ _ _ G) in X; [auto|].
      right. right. exists j. split; [exact X|]. left. eapply clash_back; [exact G|exact CALM|exact Y]. }
  intros (c & i & -> & EN & G1 & DC & LC). rewrite (ev_ents _ _ _ _ _ _ _ G) in EN. pose proof (sane_ent _ SB _ _ EN) as LI.
  pose proof (ev_sane _ _ _ _ _ _ _ G1) as S1. pose proof (ev_next _ _ _ _ _ _ _ G1) as N1.
  unfold get_cgen. cbn [chain_fd lk_chain].
  pose proof (grow_trans _ _ _ _ _ _ G G1) as G01.
  apply wps_bind. eapply wps_post with (I := I); [auto| |apply (cgen_restore_ok F p I (mm a) c i L_READ k1 S1)]; cycle 1.
  { intros S k' X. eapply HG. eapply grow_trans; [exact G01|exact X]. }
  { exact DC. }
  intros r k2 LD.
  assert (G12 : exists S, grow p S k1 k2 /\ match r with Ok g => S = hfds (g_handle g) | Er _ => S = [] end).
  { destruct r as [g|e]; cbn [loaded] in LD; [|exists []; split; [apply LD|reflexivity]]. destruct LD as (o & t & hd & _ & _ & _ & X & _). eauto. }
  destruct G12 as (S12 & G12 & ES). pose proof (ev_sane _ _ _ _ _ _ _ G12) as S2. pose proof (ev_next _ _ _ _ _ _ _ G12) as N2.
  assert (DF2 : desc_of k2 p f = Some (D_pindir pm)) by (eapply grow_desc; [exact G12|exact S1|]; eapply grow_desc; [exact G1|exact SK|exact DF]).
  assert (DB2 : desc_of k2 p b = Some D_bpffs) by (eapply grow_desc; [exact G12|exact S1|]; eapply grow_desc; [exact G1|exact SK|exact DB]).
  assert (FX : forall x, x < k_next k -> fd_find x (k_fds k2) = fd_find x (k_fds k)).
  { intros x L. rewrite (ev_old _ _ _ _ _ _ _ G12) by lia. apply (ev_old _ _ _ _ _ _ _ G1 x L). }
  apply (loaded_grow F p (mm a) _ k0 k1 i r k2 SB G01 LI) in LD.
  pose proof (grow_trans _ _ _ _ _ _ G01 G12) as G02.
  assert (TRM : trim k2 L_READ n = k_ents k0) by exact (ev_ents _ _ _ _ _ _ _ G02).
  apply wps_bind.
  eapply wps_post with (I := I); [auto| |apply (release_chain_ok F p I b f pm c n L_READ _ None [] (S12 ++ [c] ++ gfds acc ++ Z0) (S12 ++ gfds acc ++ Z0) k0 k2 SB G02 DF2)]; cycle 1.
  { lia. }
  { intros x. rewrite !in_app_iff. cbn [In]. intuition. }
  { intros E' Z k' C EV. eapply HG. pose proof (ev_ents _ _ _ _ _ _ _ EV) as Y. destruct (ce_ents _ _ _ C) as [X|X]; rewrite Y in X.
    - rewrite X, (ev_ents _ _ _ _ _ _ _ G02) in EV. exact EV.
    - rewrite X, TRM in EV. exact EV. }
  intros lk3 k3 (_ & E3 & C3 & F3). rewrite TRM in E3. pose proof (ev_sane _ _ _ _ _ _ _ E3) as S3. pose proof (ce_next _ _ _ C3) as N3.
  assert (F3k : forall x, x < k_next k -> fd_find x (k_fds k3) = fd_find x (k_fds k)) by (intros x L; rewrite F3 by lia; apply FX, L).
  assert (DF3 : desc_of k3 p f = Some (D_pindir pm)) by (apply find_desc_of; rewrite F3k; [apply desc_of_find, DF|eapply desc_lt; [exact SK|exact DF]]).
  assert (DB3 : desc_of k3 p b = Some D_bpffs) by (apply find_desc_of; rewrite F3k; [apply desc_of_find, DB|eapply desc_lt; [exact SK|exact DB]]).
  assert (RA3 : S12 = [] -> read_all F p k0 k3 Z0 acc).
  { intros ->. cbn [app] in E3. pose proof RA as [A1 A2 A3]. constructor; [exact E3| |exact A3]. rewrite Forall_forall in *. intros g H.
    destruct (A2 g H) as (n' & i' & hd' & R'). exists n', i', hd'. pose proof R' as [Q1 Q2 Q3 Q4 Q5 Q6 Q7 Q8]. constructor; auto.
    intros q y Y. destruct (Q4 q y Y) as (X1 & o & X2 & X3). split; [exact X1|]. exists o. split; [exact X2|].
    apply find_desc_of. rewrite F3k; [apply desc_of_find, X3|eapply desc_lt; [exact SK|exact X3]]. }
  destruct r as [g|e].
  2:{ destruct LD as (_ & LD). apply GO; [apply RA3, ES|exact DB3|exact DF3|auto|exact DIS1|]. intros _. right. right. right. exists i. split; [exact EN|]. right. exists a, e. exact LD. }
  destruct LD as (o & t & hd & V & OB & UP & _ & GT & HD & HP & LX & AP). subst S12.
  assert (HOLD : exists c0, holds_chain k0 i c0 hd /\ chain_built c0 /\ storable c0).
  { eapply consistent_sets; [eapply as_consistent, (in_named _ IB), EN|exact V|exact OB]. }
  destruct HOLD as (c0 & HC & CB & CS).
  assert (NM : nc_name (g_chain g) = n).
  { pose proof (named_holds _ _ _ _ _ (in_named _ IB _ _ EN) HC) as X. destruct HC as ((o' & t' & A & C & P) & _). unfold pin in A. unfold dview in V.
    assert (o' = o) by congruence. subst o'. rewrite OB in C. injection C as <-.
    destruct (chain_round_trip (m_nd (mm a)) (m_tb (mm a)) c0 CB CS) as [(c' & Y & SC)|Y]; unfold chain_copy in Y; rewrite P in Y; cbn [bind] in Y; rewrite UP in Y; [|discriminate Y].
    injection Y as <-. destruct SC as [SC _]. congruence. }
  assert (GT3 : forall q y, In (q, y) (hpins (g_handle g)) -> k_next k1 <= y /\ got1 k0 k3 p i q y).
  { intros q y Y. destruct (GT q y Y) as (A & B & o' & X1 & X2). split; [exact A|]. split; [exact B|]. exists o'. split; [exact X1|].
    apply find_desc_of. rewrite F3; [apply desc_of_find, X2|]. pose proof (desc_lt _ _ _ _ S1 DC). lia. }
  assert (RD : ready F p k0 k3 n i hd g).
  { constructor; auto; [exists o, t; auto| |].
    - intros q y Y. apply GT3, Y.
    - apply sets_hok. rewrite HD. intros q. eapply holds_sets; exact HC. }
  assert (NF : forall x, In x (hfds (g_handle g)) -> k_next k <= x).
  { intros x H. unfold hfds in H. apply in_map_iff in H as ((q & y) & <- & H). destruct (GT3 q y H) as (A & _). cbn [snd]. lia. }
  apply wps_alloc; [eapply HG, E3| |].
  - apply GO; [eapply read_snoc; [exact SK|exact RA|lia|exact E3|exact F3k|exact RD|exact NF|]|exact DB3|exact DF3| | |].
    + intros g' H X. apply (DIS g' H). left. symmetry. exact X.
    + intros g' H. apply in_or_app. auto.
    + intros g' H. apply in_app_or in H as [H|[<-|[]]]; [apply DIS1, H|rewrite NM; exact NI].
    + intros _. left. exists g. split; [apply in_or_app; right; left; reflexivity|exact NM].
  - intros HF e. apply wps_bind.
    eapply wps_post with (I := I); [auto| |apply (closes_cgen p g F I k0 _ _ _ _ (gfds acc ++ Z0) k3 E3 SB)]; cycle 1.
    { intros x H. specialize (NF x H). lia. }
    { intros x H. apply in_app_or in H as [H|H]; auto. }
    { intros Z k' _ X. eapply HG, X. }
    intros [] k4 (C4 & G4 & F4).
    assert (F4k : forall x, x < k_next k -> fd_find x (k_fds k4) = fd_find x (k_fds k)).
    { intros x L. rewrite F4; [apply F3k, L|]. intros X. specialize (NF x X). lia. }
    apply GO.
    + pose proof RA as [A1 A2 A3]. constructor; [exact G4| |exact A3]. rewrite Forall_forall in *. intros g' H.
      destruct (A2 g' H) as (n' & i' & hd' & R'). exists n', i', hd'. pose proof R' as [Q1 Q2 Q3 Q4 Q5 Q6 Q7 Q8]. constructor; auto.
      intros q y Y. destruct (Q4 q y Y) as (X1 & o' & X2 & X3). split; [exact X1|]. exists o'. split; [exact X2|].
      apply find_desc_of. rewrite F4k; [apply desc_of_find, X3|eapply desc_lt; [exact SK|exact X3]].
    + apply find_desc_of. rewrite F4k; [apply desc_of_find, DB|eapply desc_lt; [exact SK|exact DB]].
    + apply find_desc_of. rewrite F4k; [apply desc_of_find, DF|eapply desc_lt; [exact SK|exact DF]].
    + auto.
    + exact DIS1.
    + intros _. right. left. eapply faulty_intro; exact HF.
Qed.

Definition flush_result (F : call -> bool) (mm : nat -> mem) (k0 kb : kst) : Prop :=
  forall n i c hd, ent_find n (k_ents k0) = Some i -> is_staging n = false -> holds_chain k0 i c hd ->
    skipped F mm k0 n \/ clash k0 (D_dir i L_NONE) L_WRITE \/ wiped F k0 kb n i hd.
Lemma ent_find_in n i (l : list (name * ino)) : ent_find n l = Some i -> In n (map fst l).
Proof.
  induction l as [|[m j] l IH]; cbn; [discriminate|]. destruct (bytes_eqb n m) eqn:E; [apply bytes_eqb_eq in E; auto|]. intros H. right. exact (IH H).
Qed.
Lemma holds_ctx k i c hd o t hd' : holds_chain k i c hd -> dview k i P_ctx = Some o -> k_objs k o = Some (O_ctx (Some (t, hd'))) -> hd' = hd.
Proof. intros ((o' & t' & A & B & _) & _) V O. unfold pin in A. unfold dview in V. assert (o' = o) by congruence. subst o'. congruence. Qed.
Lemma get_cgens_ok F p (I : kst -> Prop) mm b f pm k0 k : inv k0 -> uniq_names k0 -> (forall S k', grow p S k0 k' -> I k') -> f <> b -> forall Z, incl Z [f; b] ->
  grow p Z k0 k -> desc_of k p b = Some D_bpffs -> desc_of k p f = Some (D_pindir pm) ->
  wps F p I (get_cgens mm (mkLk (Some b) (Some f) pm None)) (fun r k' =>
    desc_of k' p b = Some D_bpffs /\ desc_of k' p f = Some (D_pindir pm) /\
    match r with
    | Ok gs => read_all F p k0 k' Z gs /\
        (forall n i, ent_find n (k_ents k0) = Some i -> is_staging n = false -> (exists g, In g gs /\ nc_name (g_chain g) = n) \/ skipped F mm k0 n)
    | Er _ => grow p Z k0 k' /\ faulty F
    end) k.
Proof.
  intros IB UN HG NE Z IZ G DB DF. pose proof (ev_sane _ _ _ _ _ _ _ G) as SK. unfold get_cgens.
  apply wps_alloc; [eapply HG, G| |].
  2:{ intros HF e. apply wps_ret; [eapply HG, G|]. split; [exact DB|]. split; [exact DF|]. split; [exact G|eapply faulty_intro; exact HF]. }
  cbn [lk_pin]. apply wps_step; [eapply HG, G|]. split.
  2:{ intros HF _ e. apply wps_ret; [eapply HG, G|]. split; [exact DB|]. split; [exact DF|]. split; [exact G|eapply faulty_intro; exact HF]. }
  intros s. cbn [kdo]. unfold is_pindir. rewrite DF. cbn [fst snd].
  apply wps_bind. eapply wps_post with (I := I); [auto| |apply (restore_entries_ok F p I mm b f pm k0 IB HG NE Z IZ (names_of k) 0 [] k)]; cycle 1.
  { constructor; [exact G|constructor|constructor]. }
  { exact DB. }
  { exact DF. }
  { unfold names_of. rewrite (ev_ents _ _ _ _ _ _ _ G). exact UN. }
  { intros g []. }
  intros gs k1 (A1 & A2 & A3 & _ & A5). apply wps_ret; [eapply HG, (ra_grow _ _ _ _ _ _ A1)|].
  split; [exact A2|]. split; [exact A3|]. split; [exact A1|]. intros n i EN ST. apply A5; [|exact ST].
  unfold names_of. rewrite (ev_ents _ _ _ _ _ _ _ G). exact (ent_find_in _ _ _ EN).
Qed.
Lemma flush_all_ok F p (I : kst -> Prop) mm b f k0 k : inv k0 -> uniq_names k0 -> (forall k', inv k' -> less k0 k' -> I k') -> f <> b -> forall Z, incl Z [f; b] ->
  grow p Z k0 k -> desc_of k p b = Some D_bpffs -> desc_of k p f = Some (D_pindir L_WRITE) ->
  wps F p I (flush_all mm (mkLk (Some b) (Some f) L_WRITE None)) (fun r k' =>
    desc_of k' p b = Some D_bpffs /\ desc_of k' p f = Some (D_pindir L_WRITE) /\
    exists kb, inv kb /\ k_next kb = k_next k0 /\ k_fds kb = k_fds k0 /\ less k0 kb /\ grow p Z kb k' /\
    match r with Ok _ => flush_result F mm k0 kb | Er _ => kb = k0 /\ faulty F end) k.
Proof.
  intros IB UN HI NE Z IZ G DB DF. pose proof (in_sane _ IB) as SB.
  assert (HG : forall S k', grow p S k0 k' -> I k').
  { intros S k' X. apply HI; [eapply inv_grow; [exact IB|exact X]|eapply grow_less; [exact SB|exact X]]. }
  unfold flush_all. apply wps_bind. eapply wps_post with (I := I); [auto| |apply (get_cgens_ok F p I mm b f L_WRITE k0 k IB UN HG NE Z IZ G DB DF)].
  intros [gs|e] k1 (DB1 & DF1 & R).
  2:{ destruct R as (G1 & HF). apply wps_ret; [eapply HG, G1|]. split; [exact DB1|]. split; [exact DF1|]. exists k0. split; [exact IB|]. split; [reflexivity|]. split; [reflexivity|]. split; [apply less_refl, SB|]. split; [exact G1|auto]. }
  destruct R as (RA & ALL). pose proof RA as [G1 RD AP]. pose proof (ev_sane _ _ _ _ _ _ _ G1) as S1. pose proof RD as RD'. rewrite Forall_forall in RD'.
  assert (NG : forall x d, desc_of k1 p x = Some d -> (forall o, d <> D_obj o) -> ~ In x (gfds gs)).
  { intros x d D NO H. unfold gfds in H. apply in_flat_map in H as (g & Y1 & Y2). destruct (RD' g Y1) as (n & i & hd & R).
    destruct (ready_fds _ _ _ _ _ _ _ _ _ R Y2) as (_ & o & X). apply (NO o). congruence. }
  assert (NF : ~ In f (gfds gs)) by (eapply NG; [exact DF1|discriminate]). assert (NB : ~ In b (gfds gs)) by (eapply NG; [exact DB1|discriminate]).
  pose proof (desc_lt _ _ _ _ S1 DF1) as LF. pose proof (desc_lt _ _ _ _ S1 DB1) as LB.
  apply wps_bind. eapply wps_post with (I := I); [auto| |apply (unload_all_ok F p I k0 b f HI gs Z k0 k1 IB (less_refl _ SB) G1 RD AP DB1 DF1 NE)]; cycle 1.
  { intros x H. apply IZ in H. destruct H as [<-|[<-|[]]]; (split; [assumption|]); intros j m X; [apply desc_of_find in DF1|apply desc_of_find in DB1]; congruence. }
  { intros x H. apply IZ in H. destruct H as [<-|[<-|[]]]; assumption. }
  intros [] k2 (kb & B1 & B2 & B3 & B4 & B5 & B6 & B7 & _).
  apply wps_ret; [apply HI; [eapply inv_grow; [exact B1|exact B5]|eapply less_trans; [exact B4|eapply grow_less; [apply B1|exact B5]]]|].
  split; [apply find_desc_of; rewrite B7 by assumption; apply desc_of_find, DB1|]. split; [apply find_desc_of; rewrite B7 by assumption; apply desc_of_find, DF1|].
  exists kb. split; [exact B1|]. split; [exact B2|]. split; [exact B3|]. split; [exact B4|]. split; [exact B5|].
  intros n i c hd EN ST HC. destruct (ALL n i EN ST) as [(g & GI & GN)|X]; [|left; exact X].
  destruct (RD' g GI) as (n' & i' & hd' & R).
  assert (n' = n) by (pose proof (rd_name _ _ _ _ _ _ _ _ R); congruence). subst n'.
  assert (i' = i) by (pose proof (rd_ent _ _ _ _ _ _ _ _ R); congruence). subst i'.
  assert (hd' = hd) by (destruct (rd_ctx _ _ _ _ _ _ _ _ R) as (o & t & V & O); eapply holds_ctx; eassumption). subst hd'.
  destruct (B6 g n i hd GI R) as [X|[X|X]]; [left; left; exact X|auto|auto].
Qed.
Lemma ruleset_flush_ok F p (I : kst -> Prop) mm k0 : inv k0 -> uniq_names k0 -> (forall k', inv k' -> less k0 k' -> I k') ->
  wps F p I (ruleset_flush mm) (fun r k' =>
    exists kb, inv kb /\ k_next kb = k_next k0 /\ k_fds kb = k_fds k0 /\ less k0 kb /\ grow p [] kb k' /\
    match r with Ok _ => flush_result F mm k0 kb | Er _ => kb = k0 /\ (faulty F \/ clash k0 (D_pindir L_NONE) L_WRITE) end) k0.
Proof.
  intros IB UN HI. pose proof (in_sane _ IB) as SB.
  assert (HG : forall S k', grow p S k0 k' -> I k').
  { intros S k' X. apply HI; [eapply inv_grow; [exact IB|exact X]|eapply grow_less; [exact SB|exact X]]. }
  unfold ruleset_flush. apply wps_bind. eapply wps_post with (I := I); [auto| |apply (lock_init_ok F p I L_WRITE k0 SB HG)].
  intros [lk|e] k1.
  2:{ intros (G & C). apply wps_ret; [eapply HG, G|]. exists k0. split; [exact IB|]. split; [reflexivity|]. split; [reflexivity|]. split; [apply less_refl, SB|]. split; [exact G|auto]. }
  intros (b & f & (-> & DB & DF & NE) & G1 & LB & LF).
  apply wps_bind. eapply wps_post with (I := I); [auto| |apply (flush_all_ok F p I mm b f k0 k1 IB UN HI NE [f; b] (incl_refl _) G1 DB DF)].
  intros r k2 (DB2 & DF2 & kb & B1 & B2 & B3 & B4 & B5 & B6).
  assert (GI : forall S k', grow p S kb k' -> I k').
  { intros S k' X. apply HI; [eapply inv_grow; [exact B1|exact X]|eapply less_trans; [exact B4|eapply grow_less; [apply B1|exact X]]]. }
  apply wps_bind. eapply wps_post with (I := I); [auto| |apply (lock_cleanup_ok F p I b f L_WRITE _ None [] [f; b] [] kb k2 (in_sane _ B1) B5)]; cycle 1.
  { lia. }
  { lia. }
  { intros x [<-|[<-|[]]]; auto. }
  { intros Z k' _ X. eapply GI, X. }
  intros [] k3 (G3 & _). apply wps_ret; [eapply GI, G3|]. exists kb. split; [exact B1|]. split; [exact B2|]. split; [exact B3|]. split; [exact B4|]. split; [exact G3|].
  destruct r; [exact B6|]. destruct B6 as (X & Y). auto.
Qed.
