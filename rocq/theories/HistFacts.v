(** The invariant of histories. *)
From Coq Require Import NArith ZArith List Bool Lia.
From Verif Require Import Bytes Types World BpfModel GenModel BytesFacts StrModel SetModel MapModel PackModel PackSpec PackFacts4 HookModel KernModel LockModel CtlModel SysSpec SysFacts RelyFacts SeqFacts StageFacts EvoFacts CtlSpec HandleFacts PinFacts AttachFacts LockSeqFacts LoadFacts RestoreFacts WithFacts IsolFacts UnloadFacts AttachOpFacts SetOpFacts HistSpec.
Import ListNotations.
Local Open Scope N_scope.

Definition swept (k : kst) : Prop := forall n i, is_staging n = true -> ent_find n (k_ents k) = Some i -> k_dirs k i = [].
Record inv (k : kst) : Prop := {
  in_sane : sane k;
  in_sep : separate k;
  in_named : forall n i, ent_find n (k_ents k) = Some i -> consistent_as n k i;
  in_swept : swept k
}.
Lemma as_consistent n k i : consistent_as n k i -> consistent k i.
Proof. intros [H|(c & hd & A & B & C & _)]; [left; exact H|right; exists c, hd; auto]. Qed.
Lemma in_cons k : inv k -> all_consistent k.
Proof. intros I0 n i H. eapply as_consistent. exact (in_named _ I0 n i H). Qed.
Lemma pack_name c c' t : chain_pack c = Ok t -> chain_pack c' = Ok t -> nc_name c = nc_name c'.
Proof.
  unfold chain_pack. destruct (map_res set_pack (nc_sets c)); cbn [bind]; [|discriminate]. destruct (map_res set_pack (nc_sets c')); cbn [bind]; [|discriminate].
  intros H H'. rewrite <- H' in H. injection H as H. exact H.
Qed.
Lemma holds_name k i c hd c' hd' : holds_chain k i c hd -> holds_chain k i c' hd' -> nc_name c = nc_name c'.
Proof.
  intros [(o & t & A & B & C) _] [(o' & t' & A' & B' & C') _]. rewrite A in A'. injection A' as <-. rewrite B in B'. injection B' as <- _.
  eapply pack_name; eassumption.
Qed.
Lemma named_holds n k i c hd : consistent_as n k i -> holds_chain k i c hd -> nc_name c = n.
Proof.
  intros [H|(c' & hd' & A & _ & _ & <-)] HC; [destruct HC as [(o & t & X & _) _]; congruence|]. eapply holds_name; eassumption.
Qed.
Lemma as_frame n k k' i : consistent_as n k i ->
  (forall q, dview k' i q = dview k i q) -> (forall q o v, dview k i q = Some o -> k_objs k o = Some v -> k_objs k' o = Some v) -> consistent_as n k' i.
Proof.
  intros [H|(c & hd & H & B & S)] D O.
  - left. unfold pin in *. fold (dview k' i P_ctx). rewrite D. exact H.
  - right. exists c, hd. split; [|auto]. eapply holds_frame; eauto.
Qed.
Lemma as_evo n p E X S k0 k' j : sane k0 -> evo p E X [] S k0 k' -> j < k_next k0 -> (forall D, X <> Some (j, D)) ->
  consistent_as n k0 j -> consistent_as n k' j.
Proof.
  intros S0 EV L NX C. eapply as_frame; [exact C| |].
  - intros q. unfold dview. rewrite (ev_dirs _ _ _ _ _ _ _ EV j L NX). reflexivity.
  - intros q o v _ H. eapply evo_obj; [exact EV|exact S0|exact H|reflexivity].
Qed.

(** ** Descriptors *)
Lemma kdo_fds k p c s x : In x (k_fds (fst (kdo k p c s))) -> In x (k_fds k) \/ fst (snd x) = p.
Proof.
  assert (NF : forall k e, In x (k_fds (fst (new_fd k p e))) -> In x (k_fds k) \/ fst (snd x) = p).
  { intros k1 e [<-|H]; [right; reflexivity|left; exact H]. }
  assert (NO : forall k e, In x (k_fds (fst (new_obj k p e))) -> In x (k_fds k) \/ fst (snd x) = p).
  { intros k1 e [<-|H]; [right; reflexivity|left; exact H]. }
  destruct c; cbn [kdo]; intros H.
  all: repeat match goal with
  | H : context [match ?x with _ => _ end] |- _ => destruct x eqn:?
  | H : context [if ?x then _ else _] |- _ => destruct x eqn:?
  end; try exact (or_introl H); try exact (NF _ _ H); try exact (NO _ _ H).
  - cbn in H. apply in_map_iff in H as ([f' y] & E & H). cbn [fst] in E. destruct (f' =? f); subst x; [right; reflexivity|left; exact H].
  - cbn in H. unfold fd_del in H. apply filter_In in H. left. apply H.
Qed.
Lemma ksys_fds k p c d x : In x (k_fds (fst (ksys k p c d))) -> In x (k_fds k) \/ fst (snd x) = p.
Proof. destruct d as [|e|s]; cbn [ksys]; try apply kdo_fds. destruct (can_fail c); [auto|apply kdo_fds]. Qed.
Lemma stops_fds {A} F p (m : prog A) k k' x : stops F p m k k' -> In x (k_fds k') -> In x (k_fds k) \/ fst (snd x) = p.
Proof.
  induction 1 as [m k|c f k d k' HE HS IH]; [auto|]. intros H. destruct (IH H) as [Y|Y]; [|auto]. apply ksys_fds in Y. exact Y.
Qed.
Lemma stops_sane {A} F p (m : prog A) k k' : stops F p m k k' -> sane k -> sane k'.
Proof. induction 1; [auto|]. intros S. apply IHstops, ksys_sane, S. Qed.
Lemma closed_none {A} F p (m : prog A) k k' : stops F p m k k' -> k_fds k = [] -> k_fds (closed p k') = [].
Proof.
  intros H E. cbn. destruct (filter (fun x => negb (fst (snd x) =? p)) (k_fds k')) as [|x l] eqn:Z; [reflexivity|].
  assert (X : In x (k_fds k') /\ negb (fst (snd x) =? p) = true) by (apply (proj1 (filter_In (fun y : fd * (N * desc) => negb (fst (snd y) =? p)) x (k_fds k'))); rewrite Z; left; reflexivity).
  destruct X as [X Y]. destruct (stops_fds _ _ _ _ _ _ H X) as [W|W]; [rewrite E in W; destruct W|].
  destruct x as [f0 [q0 d0]]. cbn in W, Y. rewrite W, N.eqb_refl in Y. discriminate Y.
Qed.
Lemma stops_forget {A} F p (m : prog A) k k' : stops F p (forget m) k k' -> stops F p m k k'.
Proof.
  unfold forget. revert k. induction m as [a|c f IH]; intros k H; cbn [pbind] in H.
  - inversion H; subst; constructor.
  - inversion H; subst; [constructor|]. econstructor; [eassumption|]. apply IH. assumption.
Qed.
Lemma sane_fds_filter k g : sane k -> sane (with_fds k (filter g (k_fds k))).
Proof.
  intros S. assert (X : forall f x, fd_find f (filter g (k_fds k)) = Some x -> fd_find f (k_fds k) = Some x).
  { intros f x H. apply fd_in_find; [exact (sane_uniq _ S)|].
    assert (Y : In (f, x) (filter g (k_fds k))).
    { revert H. generalize (filter g (k_fds k)). induction l as [|[f' y] l IH]; cbn; [discriminate|].
      destruct (N.eqb_spec f f') as [->|]; [intros H; injection H as ->; left; reflexivity|intros H; right; auto]. }
    apply filter_In in Y. apply Y. }
  destruct S as [A B C D E F G H J K]. constructor; cbn; eauto.
  - clear -J. induction (k_fds k) as [|x l IH]; cbn; [constructor|]. inversion J; subst. destruct (g x); [|auto]. cbn. constructor; [|auto].
    intros X. apply H1. apply in_map_iff in X as (y & <- & Y). apply filter_In in Y. apply in_map, Y.
Qed.

(** Only entries, directories and objects matter. *)
Lemma inv_frame k k' : inv k -> sane k' -> k_ents k' = k_ents k -> k_dirs k' = k_dirs k -> k_objs k' = k_objs k -> inv k'.
Proof.
  intros [S E C W] S' H1 H2 H3. constructor.
  - exact S'.
  - unfold separate, dview in *. rewrite H2. exact E.
  - intros n i H. rewrite H1 in H. eapply as_frame; [exact (C n i H)| |].
    + intros q. unfold dview. rewrite H2. reflexivity.
    + intros q o v _ X. rewrite H3. exact X.
  - intros n i. rewrite H1, H2. apply W.
Qed.
Lemma inv_closed p k : inv k -> inv (closed p k).
Proof. intros H. eapply inv_frame; [exact H|apply sane_fds_filter, H|reflexivity..]. Qed.
Lemma inv_boot k : fresh_boot k -> inv k.
Proof.
  intros (S & E & _ & D). constructor; auto.
  - intros i j q q' o H. unfold dview in H. rewrite D in H. discriminate H.
  - intros n i H. rewrite E in H. discriminate H.
  - intros n i _ H. apply D.
Qed.

(** ** Separation *)
Lemma separate_new k0 p n k i' : sane k0 -> separate k0 -> reach k0 p (own_dir2 k0 n) (own_obj k0 n) k ->
  (forall j, k_next k0 <= j -> j <> i' -> k_dirs k j = []) ->
  (forall i0, k_dirs k i' <> [] -> k_next k0 <= i' -> ent_find n (k_ents k0) = Some i0 -> k_dirs k i0 = []) -> separate k.
Proof.
  intros S0 SE R HF HI.
  assert (NE : forall j q o, dview k j q = Some o -> k_dirs k j <> []) by (intros j q o H X; unfold dview in H; rewrite X in H; discriminate H).
  assert (OWN : forall j q o, dview k j q = Some o -> own_dir2 k0 n j -> ent_find n (k_ents k0) = Some j \/ (j = i' /\ k_next k0 <= i')).
  { intros j q o H [X|X]; [auto|]. destruct (N.eq_dec j i') as [->|Y]; [auto|]. destruct (NE _ _ _ H (HF _ X Y)). }
  assert (BOTH : forall a b q q' o, dview k a q = Some o -> dview k b q' = Some o -> ent_find n (k_ents k0) = Some a -> b = i' -> k_next k0 <= i' -> False).
  { intros a b q q' o H1 H2 X -> L. exact (NE _ _ _ H1 (HI _ (NE _ _ _ H2) L X)). }
  assert (MIX : forall a b q q' o q1, dview k a q = Some o -> dview k b q' = Some o -> dview k0 a q1 = Some o -> own_dir2 k0 n b -> own_obj k0 n o -> a = b).
  { intros a b q q' o q1 H1 H2 X Y [Z|(i0 & q0 & Z1 & Z2)]; [pose proof (sane_pin_lt _ _ _ _ S0 X); lia|].
    pose proof (SE _ _ _ _ _ X Z2). subst i0. destruct (OWN _ _ _ H2 Y) as [W|[W L]]; [congruence|].
    destruct (BOTH _ _ _ _ _ H1 H2 Z1 W L). }
  intros a b q q' o H1 H2. destruct (rc_pins _ _ _ _ _ R _ _ _ H1) as [(q1 & X)|[X1 X2]]; destruct (rc_pins _ _ _ _ _ R _ _ _ H2) as [(q2 & Y)|[Y1 Y2]].
  - exact (SE _ _ _ _ _ X Y).
  - exact (MIX _ _ _ _ _ _ H1 H2 X Y1 Y2).
  - symmetry. exact (MIX _ _ _ _ _ _ H2 H1 Y X1 X2).
  - destruct (OWN _ _ _ H1 X1) as [A|[A LA]]; destruct (OWN _ _ _ H2 Y1) as [B|[B LB]]; try congruence.
    + destruct (BOTH _ _ _ _ _ H1 H2 A B LB).
    + destruct (BOTH _ _ _ _ _ H2 H1 B A LA).
Qed.

(** ** Calls that change no directory and no existing object *)
Definition ro (c : call) : Prop :=
  match c with
  | C_mkdir _ _ | C_rename _ _ _ | C_unlink _ _ | C_rename_pin _ _ _ | C_pin _ _ _
  | C_set_fill _ _ | C_ctx_write _ _ | C_cnt_write _ _ _ | C_link_update _ _ | C_link_detach _ => False
  | _ => True
  end.
Record kept (k0 k : kst) : Prop := {
  kp_sane : sane k;
  kp_dirs : k_dirs k = k_dirs k0;
  kp_objs : forall o v, k_objs k0 o = Some v -> k_objs k o = Some v;
  kp_ents : forall n i, ent_find n (k_ents k) = Some i -> ent_find n (k_ents k0) = Some i
}.
Lemma kept_refl k : sane k -> kept k k. Proof. constructor; auto. Qed.
Lemma kept_trans a b c : kept a b -> kept b c -> kept a c.
Proof. intros [A1 A2 A3 A4] [B1 B2 B3 B4]. constructor; auto. congruence. Qed.
Lemma inv_kept k k' : inv k -> kept k k' -> inv k'.
Proof.
  intros [S E C W] [A1 A2 A3 A4]. constructor.
  - exact A1.
  - unfold separate, dview in *. rewrite A2. exact E.
  - intros n i H. eapply as_frame; [exact (C n i (A4 _ _ H))| |].
    + intros q. unfold dview. rewrite A2. reflexivity.
    + intros q o v _ X. apply A3, X.
  - intros n i X H. rewrite A2. exact (W _ _ X (A4 _ _ H)).
Qed.
Lemma kdo_kept k p c s : sane k -> ro c -> kept k (fst (kdo k p c s)).
Proof.
  intros S H. pose proof (kdo_sane k p c s S) as S'. constructor; [exact S'| | |]; clear S'.
  - destruct c; cbn [ro] in H; try contradiction; cbn [kdo]; repeat match goal with
      |- context [match ?x with _ => _ end] => destruct x
    | |- context [if ?x then _ else _] => destruct x end; reflexivity.
  - assert (NO : forall w o v, k_objs k o = Some v -> k_objs (fst (new_obj k p w)) o = Some v).
    { intros w o v X. cbn. rewrite updN_other; [exact X|]. intros ->. pose proof (sane_obj _ S _ _ X). lia. }
    intros o v X. destruct c; cbn [ro] in H; try contradiction; cbn [kdo]; repeat match goal with
      |- context [match ?x with _ => _ end] => destruct x
    | |- context [if ?x then _ else _] => destruct x end; try exact X; apply NO, X.
  - intros n i. destruct c; cbn [ro] in H; try contradiction; cbn [kdo]; repeat match goal with
      |- context [match ?x with _ => _ end] => destruct x
    | |- context [if ?x then _ else _] => destruct x end; try exact (fun X => X).
    cbn. rewrite ent_find_del. destruct (bytes_eqb n n0); [discriminate|auto].
Qed.
Lemma ksys_kept k p c d : sane k -> ro c -> kept k (fst (ksys k p c d)).
Proof. intros S H. destruct d as [|e|s]; cbn [ksys]; try (apply kdo_kept; assumption). destruct (can_fail c); [apply kept_refl, S|apply kdo_kept; assumption]. Qed.
Lemma ro_stops {A} F p (m : prog A) k k' : stops F p m k k' -> allc ro m -> sane k -> kept k k'.
Proof.
  induction 1 as [m k|c f k d k' HE HS IH]; intros AL S; [apply kept_refl, S|]. cbn [allc] in AL. destruct AL as [A1 A2].
  eapply kept_trans; [apply ksys_kept; [exact S|exact A1]|]. apply IH; [apply A2|apply ksys_sane, S].
Qed.
Lemma ro_wps {A} F p (m : prog A) k : allc ro m -> sane k -> wps F p (kept k) m (fun _ k' => kept k k') k.
Proof.
  intros AL S. assert (X : forall k1, kept k k1 -> wps F p (kept k) m (fun _ k' => kept k k') k1); [|apply X, kept_refl, S].
  induction m as [a|c f IH]; intros k1 K1; [apply wps_ret; exact K1|]. cbn [allc] in AL. destruct AL as [A1 A2].
  apply wps_do; [exact K1|]. intros d _. apply IH; [apply A2|]. eapply kept_trans; [exact K1|apply ksys_kept; [exact (kp_sane _ _ K1)|exact A1]].
Qed.

Ltac ro_step :=
  match goal with
  | |- allc _ (pbind _ _) => apply allc_bind; [|intros ?]
  | |- allc _ (Ret _) => exact Logic.I
  | |- True => exact Logic.I
  | |- allc _ (Do _ _) => cbn [allc]; split; [cbn [ro]; try exact Logic.I; try reflexivity|intros ?]
  | |- allc _ (match ?x with _ => _ end) => destruct x
  | |- allc _ (if ?x then _ else _) => destruct x
  | |- allc _ (let '(_, _) := ?x in _) => destruct x
  | |- allc _ (sys _) => unfold sys
  | |- allc _ (sys_ _) => unfold sys_
  | |- allc _ (sys_fd _) => unfold sys_fd
  | |- allc _ (sys_unit _) => unfold sys_unit
  end.
Create HintDb ro.
Ltac rox := repeat first [ro_step|solve [auto with ro nocore]].
Lemma ro_close_opt o : allc ro (close_opt o). Proof. destruct o; unfold close_opt; rox. Qed.
Lemma ro_release lk : allc ro (release_chain lk). Proof. unfold release_chain. rox. Qed.
Global Hint Resolve ro_close_opt ro_release : ro.
Lemma ro_cleanup lk : allc ro (lock_cleanup lk). Proof. unfold lock_cleanup. rox. Qed.
Lemma ro_opendir_pindir m b : allc ro (opendir_pindir m b). Proof. induction m; cbn [opendir_pindir]; rox. Qed.
Lemma ro_flock f m : allc ro (flock f m). Proof. unfold flock. rox. Qed.
Global Hint Resolve ro_cleanup ro_opendir_pindir ro_flock : ro.
Lemma ro_lock_init m : allc ro (lock_init m). Proof. unfold lock_init. rox. Qed.
Lemma ro_open_existing a pd n m : allc ro (open_existing a pd n m). Proof. induction a; cbn [open_existing]; rox. Qed.
Global Hint Resolve ro_lock_init ro_open_existing : ro.
Lemma ro_acquire lk n m : allc ro (acquire_chain lk n m false). Proof. unfold acquire_chain. cbn [andb]. rox. Qed.
Lemma ro_close_all l : allc ro (close_all l). Proof. induction l; cbn [close_all]; rox. Qed.
Global Hint Resolve ro_acquire ro_close_all : ro.
Lemma ro_link_free l : allc ro (link_free l). Proof. unfold link_free. rox. Qed.
Global Hint Resolve ro_link_free : ro.
Lemma ro_handle_free h : allc ro (handle_free h). Proof. unfold handle_free. rox. Qed.
Global Hint Resolve ro_handle_free : ro.
Lemma ro_link_restore d hk o : allc ro (link_restore d hk o). Proof. unfold link_restore. rox. Qed.
Lemma ro_map_restore d q b : allc ro (map_restore d q b). Proof. unfold map_restore. rox. Qed.
Global Hint Resolve ro_link_restore ro_map_restore : ro.
Lemma ro_sets_restore d l : forall h, allc ro (sets_restore d l h). Proof. induction l; intros h; cbn [sets_restore]; rox. Qed.
Global Hint Resolve ro_sets_restore : ro.
Lemma ro_handle_restore d hd : allc ro (handle_restore d hd). Proof. unfold handle_restore. cbv zeta. rox. Qed.
Global Hint Resolve ro_handle_restore : ro.
Lemma ro_cgen_restore mm d : allc ro (cgen_restore mm d). Proof. unfold cgen_restore. rox. Qed.
Global Hint Resolve ro_cgen_restore : ro.
Lemma ro_get_cgen mm lk : allc ro (get_cgen mm lk). Proof. unfold get_cgen. rox. Qed.
Lemma ro_cgen_free g : allc ro (cgen_free g). Proof. apply ro_handle_free. Qed.
Global Hint Resolve ro_get_cgen ro_cgen_free : ro.
Lemma ro_restore_entries mm lk l : forall i acc, allc ro (restore_entries mm lk i l acc).
Proof. induction l; intros i acc; cbn [restore_entries]; rox. Qed.
Global Hint Resolve ro_restore_entries : ro.
Lemma ro_get_cgens mm lk : allc ro (get_cgens mm lk). Proof. unfold get_cgens. rox. Qed.
Lemma ro_get_counter g i : allc ro (cgen_get_counter g i). Proof. unfold cgen_get_counter, handle_get_counter. rox. Qed.
Global Hint Resolve ro_get_cgens ro_get_counter : ro.
Lemma ro_rule_counters g l : allc ro (load_rule_counters g l). Proof. induction l; cbn [load_rule_counters]; rox. Qed.
Global Hint Resolve ro_rule_counters : ro.
Lemma ro_load_counters g : allc ro (load_counters g). Proof. unfold load_counters. rox. Qed.
Global Hint Resolve ro_load_counters : ro.
Lemma ro_get_rules l : allc ro (get_rules l). Proof. induction l; cbn [get_rules]; rox. Qed.
Lemma ro_free_cgens l : allc ro (free_cgens l). Proof. induction l; cbn [free_cgens]; rox. Qed.
Global Hint Resolve ro_get_rules ro_free_cgens : ro.
Lemma ro_ruleset_get mm : allc ro (ruleset_get mm). Proof. unfold ruleset_get. rox. Qed.
Lemma ro_with_chain {A} mm n pm cm (body : lock -> fd -> cgen -> prog (cgen * res A)) :
  (forall lk d g, allc ro (body lk d g)) -> allc ro (with_chain mm n pm cm body).
Proof. intros H. unfold with_chain, lock_init_for_chain. cbn [andb]. rox; apply H. Qed.
Lemma ro_chain_get mm n : allc ro (chain_get mm n).
Proof. unfold chain_get. apply ro_with_chain. intros. unfold copy_hookopts. rox. Qed.
Lemma ro_prog_fd mm n : allc ro (chain_prog_fd mm n).
Proof. unfold chain_prog_fd. apply ro_with_chain. intros. rox. Qed.
Lemma ro_logs_fd mm n : allc ro (chain_logs_fd mm n).
Proof. unfold chain_logs_fd. apply ro_with_chain. intros. rox. Qed.
Lemma ro_inv {A} F p (m : prog A) k k' : stops F p m k k' -> allc ro m -> inv k -> inv k'.
Proof. intros H AL I0. eapply inv_kept; [exact I0|]. eapply ro_stops; [exact H|exact AL|apply I0]. Qed.

(** ** One operation on the chain [n] *)
Definition after (n : name) (k0 k : kst) : Prop :=
  forall m j, ent_find m (k_ents k) = Some j ->
    (m <> n /\ ent_find m (k_ents k0) = Some j) \/ (m = n /\ consistent_as n k j) \/ (is_staging m = true /\ k_dirs k j = []).
Lemma empty_consistent n k j : k_dirs k j = [] -> consistent_as n k j.
Proof. intros H. left. unfold pin. rewrite H. reflexivity. Qed.
Lemma inv_after n k0 k : inv k0 -> sane k -> separate k -> others_kept n k0 k -> is_staging n = false -> after n k0 k -> inv k.
Proof.
  intros [S E C W] S' SE OK NS A. constructor; [exact S'|exact SE| |].
  - intros m j H. destruct (A m j H) as [[NM X]|[[-> X]|[_ X]]]; [|exact X|apply empty_consistent, X].
    destruct (ok_same _ _ _ OK m j NM X) as (_ & D & O). eapply as_frame; [exact (C m j X)| |].
    + intros q. unfold dview. rewrite D. reflexivity.
    + intros q o v Y Z. rewrite (O q o Y). exact Z.
  - intros m j ST H. destruct (A m j H) as [[NM X]|[[-> X]|[_ X]]]; [|congruence|exact X].
    destruct (ok_same _ _ _ OK m j NM X) as (_ & D & _). rewrite D. exact (W _ _ ST X).
Qed.
Lemma after_sub p E X M S n k0 k : evo p E X M S k0 k -> (forall m j, ent_find m E = Some j -> ent_find m (k_ents k0) = Some j) ->
  (forall j, ent_find n E = Some j -> consistent_as n k j) -> after n k0 k.
Proof.
  intros EV HE HC m j H. rewrite (ev_ents _ _ _ _ _ _ _ EV) in H. destruct (list_eq_dec N.eq_dec m n) as [->|NE]; [right; left; split; [reflexivity|exact (HC j H)]|].
  left. split; [exact NE|exact (HE _ _ H)].
Qed.
Lemma after_grow p S n k0 k : inv k0 -> grow p S k0 k -> after n k0 k.
Proof.
  intros I0 G. eapply after_sub; [exact G|auto|]. intros j H.
  eapply as_evo; [apply I0|exact G|exact (sane_ent _ (in_sane _ I0) _ _ H)|discriminate|exact (in_named _ I0 _ _ H)].
Qed.
Lemma after_trim p S m n k0 k : inv k0 -> evo p (trim k0 m n) None [] S k0 k -> after n k0 k.
Proof.
  intros I0 G. eapply after_sub; [exact G|intros x j H; exact (trim_sub _ _ _ _ _ H)|]. intros j H. apply trim_sub in H.
  eapply as_evo; [apply I0|exact G|exact (sane_ent _ (in_sane _ I0) _ _ H)|discriminate|exact (in_named _ I0 _ _ H)].
Qed.
Lemma del_sub n l m (j : ino) : ent_find m (ent_del n l) = Some j -> ent_find m l = Some j.
Proof. rewrite ent_find_del. destruct (bytes_eqb m n); [discriminate|auto]. Qed.
Lemma after_gone p E D M S i n k0 k : inv k0 -> ent_find n (k_ents k0) = Some i -> E = k_ents k0 \/ E = ent_del n (k_ents k0) ->
  evo p E (Some (i, D)) M S k0 k -> D P_ctx = None -> after n k0 k.
Proof.
  intros I0 EN HE EV DC.
  assert (HS : forall m j, ent_find m E = Some j -> ent_find m (k_ents k0) = Some j) by (intros m j; destruct HE as [-> | ->]; [auto|apply del_sub]).
  eapply after_sub; [exact EV|exact HS|]. intros j H. apply HS in H. rewrite EN in H. injection H as <-. left.
  unfold pin. fold (dview k i P_ctx). rewrite (proj2 (ev_view _ _ _ _ _ _ _ EV i D eq_refl)). exact DC.
Qed.

Lemma flush_inv F p mm n k0 k : inv k0 -> no_fds k0 p -> is_staging n = false -> stops F p (chain_flush mm n) k0 k -> inv k.
Proof.
  intros I0 NF NS ST. pose proof (in_sane _ I0) as S0.
  assert (CF : confined k0 n k) by (eapply only_confined; [exact S0|exact NF|apply on_chain_flush|exact ST]).
  eapply (inv_after n); [exact I0|exact (cf_sane _ _ _ CF)|eapply confined_separate; [exact S0|apply I0|exact CF]|apply confined_others; [exact S0|apply I0|exact CF]|exact NS|].
  refine (wps_stops _ _ _ _ _ _ _ ST (chain_flush_ok F p (after n k0) mm n k0 S0 (fun i H => in_cons _ I0 n i H) _ _ _)).
  - intros S k' G. eapply after_grow; [exact I0|exact G].
  - intros S k' G. eapply after_trim; [exact I0|exact G].
  - intros i D M Z E' k' EN HE EV DC. eapply after_gone; eauto.
Qed.

Lemma complete_off k k' i c hd : holds_chain k i c hd -> hd_link hd = None -> (forall q, ~ In q attach_names -> dview k' i q = dview k i q) ->
  (forall o v, k_objs k o = Some v -> k_objs k' o = Some v) -> holds_chain k' i c hd.
Proof.
  intros [(o & t & A & B & C) H] HL D O. split.
  - exists o, t. unfold pin in *. fold (dview k' i P_ctx). rewrite D by (intros [X|[X|[X|[]]]]; discriminate X). auto.
  - eapply complete_sub; [| |exact H]; [|intros q x v _; apply O].
    intros q x HN. unfold pin. fold (dview k' i q). fold (dview k i q). rewrite D; [auto|]. intros X.
    destruct HN as [HN|[_ HN]]; [|unfold is_nf in HN; rewrite HL in HN; destruct HN].
    unfold rnames in HN. rewrite HL in HN. cbn [app In] in HN. rewrite !in_app_iff in HN.
    assert (SN : In q (hd_sets hd) -> exists y, q = P_set y).
    { rewrite (cp_sets _ _ _ _ H). unfold set_names. intros Y. apply in_map_iff in Y as (y & <- & _). eauto. }
    unfold attach_names in X. cbn [In] in X.
    destruct HN as [HN|[HN|[HN|[HN|[HN|HN]]]]];
      try (destruct (hd_cmap hd); cbn [In] in HN); try (destruct (hd_pmap hd); cbn [In] in HN); try (destruct (hd_lmap hd); cbn [In] in HN); try (destruct (hd_smap hd); cbn [In] in HN);
      try (destruct (SN HN) as (y & ->)); intuition (subst; discriminate).
Qed.

Lemma attach_inv F p mm n o k0 k : inv k0 -> no_fds k0 p -> is_staging n = false -> stops F p (chain_attach mm n o) k0 k -> inv k.
Proof.
  intros I0 NF NS ST. pose proof (in_sane _ I0) as S0.
  assert (CF : confined k0 n k) by (eapply only_confined; [exact S0|exact NF|apply on_chain_attach|exact ST]).
  eapply (inv_after n); [exact I0|exact (cf_sane _ _ _ CF)|eapply confined_separate; [exact S0|apply I0|exact CF]|apply confined_others; [exact S0|apply I0|exact CF]|exact NS|].
  refine (wps_stops _ _ _ _ _ _ _ ST (chain_attach_ok F p (after n k0) mm n o k0 S0 (fun i H => in_cons _ I0 n i H) _ _ _ _)).
  - intros S k' G. eapply after_grow; [exact I0|exact G].
  - intros S k' G. eapply after_trim; [exact I0|exact G].
  - intros i c hd S k' EN HC CB CS HL (D & EV & OF). eapply after_sub; [exact EV|auto|]. intros j H. rewrite EN in H. injection H as <-.
    right. exists c, hd. split; [|split; [exact CB|split; [exact CS|exact (named_holds _ _ _ _ _ (in_named _ I0 _ _ EN) HC)]]]. eapply complete_off; [exact HC|exact HL| |].
    + intros q NQ. rewrite (proj2 (ev_view _ _ _ _ _ _ _ EV i D eq_refl)). apply OF, NQ.
    + intros x v X. eapply evo_obj; [exact EV|exact S0|exact X|reflexivity].
  - intros i c hd S k' EN HC CB CS (D & hd' & EV & _ & HC' & _). eapply after_sub; [exact EV|auto|]. intros j H. rewrite EN in H. injection H as <-.
    right. exists c, hd'. split; [exact HC'|split; [exact CB|split; [exact CS|exact (named_holds _ _ _ _ _ (in_named _ I0 _ _ EN) HC)]]].
Qed.

(** A new directory. *)
Lemma after_half p n S kb k0 k : sane kb -> (forall m j, ent_find m (k_ents kb) = Some j -> ent_find m (k_ents k0) = Some j) ->
  (forall j, ent_find n (k_ents kb) = Some j -> consistent_as n kb j) ->
  half_made p kb n S k -> after n k0 k.
Proof.
  intros SB HE HC (s & i & D & SN & FN & LI & EV & DC) m j H. rewrite (ev_ents _ _ _ _ _ _ _ EV) in H.
  assert (CTX : consistent_as n k i) by (left; unfold pin; fold (dview k i P_ctx); rewrite (proj2 (ev_view _ _ _ _ _ _ _ EV i D eq_refl)); exact DC).
  cbn [ent_find] in H. destruct (name_eqb_spec m s) as [->|NE].
  - injection H as <-. destruct SN as [->|[ST EM]]; [auto|]. right. right. split; [exact ST|]. apply view_empty. intros q.
    rewrite (proj2 (ev_view _ _ _ _ _ _ _ EV i D eq_refl)). apply EM.
  - destruct (list_eq_dec N.eq_dec m n) as [->|NM]; [|left; auto]. right. left. split; [reflexivity|].
    pose proof (sane_ent _ SB _ _ H) as LJ.
    eapply as_evo; [exact SB|exact EV|exact LJ| |exact (HC _ H)]. intros D' X. injection X as X _. lia.
Qed.
Lemma after_made F p c o S kb k0 k : sane kb -> chain_built c -> storable c -> (forall m j, ent_find m (k_ents kb) = Some j -> ent_find m (k_ents k0) = Some j) ->
  made F p kb c o S k -> after (nc_name c) k0 k.
Proof.
  intros SB CB CS HE (i & D & hd & FN & LI & EV & HC & _) m j H. rewrite (ev_ents _ _ _ _ _ _ _ EV) in H. cbn [ent_find] in H.
  destruct (name_eqb_spec m (nc_name c)) as [->|NE]; [|left; auto]. injection H as <-. right. left. split; [reflexivity|]. right. exists c, hd. auto.
Qed.

(** What is known about new directories when a process is stopped. *)
Definition one_new (n : name) (k0 k : kst) : Prop :=
  exists i', (forall j, k_next k0 <= j -> j <> i' -> k_dirs k j = []) /\
    (forall i0, k_dirs k i' <> [] -> k_next k0 <= i' -> ent_find n (k_ents k0) = Some i0 -> k_dirs k i0 = []).
Lemma one_none p E X M S n k0 k : evo p E X M S k0 k -> (forall i D, X = Some (i, D) -> i < k_next k0) -> one_new n k0 k.
Proof.
  intros EV HX. exists (k_next k0). assert (Z : forall j, k_next k0 <= j -> k_dirs k j = []).
  { intros j L. apply (ev_fresh _ _ _ _ _ _ _ EV j L). intros D Y. specialize (HX _ _ Y). lia. }
  split; [intros j L _; exact (Z j L)|]. intros i0 NE _ _. destruct NE. apply Z. lia.
Qed.
Lemma one_more p E i D S n kb k0 k : k_next k0 <= k_next kb -> (forall j, k_next k0 <= j -> k_dirs kb j = []) ->
  evo p E (Some (i, D)) [] S kb k -> k_next kb <= i ->
  ((forall q, D q = None) \/ forall i0, ent_find n (k_ents k0) = Some i0 -> i0 < k_next kb -> k_dirs kb i0 = []) -> sane k0 -> one_new n k0 k.
Proof.
  intros NX FR EV LI HD S0. exists i. split.
  - intros j L NE. assert (NX' : forall D', Some (i, D) <> Some (j, D')) by (intros D' X; injection X as X _; congruence).
    destruct (N.lt_ge_cases j (k_next kb)) as [LJ|LJ]; [rewrite (ev_dirs _ _ _ _ _ _ _ EV j LJ NX'); auto|exact (ev_fresh _ _ _ _ _ _ _ EV j LJ NX')].
  - intros i0 NE L EN. pose proof (sane_ent _ S0 _ _ EN) as L0. destruct HD as [EM|HD].
    + destruct NE. apply view_empty. intros q. rewrite (proj2 (ev_view _ _ _ _ _ _ _ EV i D eq_refl)). apply EM.
    + rewrite (ev_dirs _ _ _ _ _ _ _ EV i0); [apply HD; [exact EN|lia]|lia|]. intros D' X. injection X as X _. lia.
Qed.

Lemma load_inv F p mm c k0 k : inv k0 -> no_fds k0 p -> usual c -> stops F p (chain_load mm c) k0 k -> inv k.
Proof.
  intros I0 NF (CB & CS & NS) ST. pose proof (in_sane _ I0) as S0. set (n := nc_name c) in *.
  pose proof (wps_stops _ _ _ _ _ _ _ ST (load_in k0 p n F S0 mm c k0 eq_refl (reach_start _ _ _ _ S0 NF))) as R.
  assert (A : after n k0 k /\ one_new n k0 k).
  { refine (wps_stops _ _ _ _ _ _ _ ST (chain_load_ok F p (fun k => after n k0 k /\ one_new n k0 k) mm c k0 S0 CB CS _ _ _)).
    - intros S k' G. split; [eapply after_grow; [exact I0|exact G]|eapply one_none; [exact G|discriminate]].
    - intros S k' H. split; [eapply (after_half p n S k0); [exact S0|auto|exact (fun j => in_named _ I0 n j)|exact H]|].
      destruct H as (s & i & D & SN & FN & LI & EV & DC).
      eapply (one_more p _ i D S n k0); [lia|intros j L; exact (sane_fresh _ S0 _ L)|exact EV|exact LI| |exact S0].
      destruct SN as [->|[_ EM]]; [right|left; exact EM]. intros i0 X. fold n in FN. congruence.
    - intros S k' H. split; [eapply (after_made F p c None S k0); [exact S0|exact CB|exact CS|auto|exact H]|].
      destruct H as (i & D & hd & FN & LI & EV & _).
      eapply (one_more p _ i D S n k0); [lia|intros j L; exact (sane_fresh _ S0 _ L)|exact EV|exact LI| |exact S0].
      right. intros i0 X. fold n in FN. congruence. }
  destruct A as [A (i' & Z1 & Z2)].
  eapply (inv_after n); [exact I0|exact (rc_sane _ _ _ _ _ R)|exact (separate_new k0 p n k i' S0 (in_sep _ I0) R Z1 Z2)|exact (load_others F p mm c k0 k S0 (in_sep _ I0) NF ST)|exact NS|exact A].
Qed.

Lemma cleared_facts F p m1 k0 n kb : inv k0 -> cleared F p m1 k0 n kb ->
  k_next k0 <= k_next kb /\ (forall j, k_next k0 <= j -> k_dirs kb j = []) /\
  (forall m j, ent_find m (k_ents kb) = Some j -> ent_find m (k_ents k0) = Some j) /\
  (forall j, ent_find n (k_ents kb) = Some j -> consistent_as n kb j) /\
  (ent_find n (k_ents kb) = None -> forall i0, ent_find n (k_ents k0) = Some i0 -> k_dirs kb i0 = []).
Proof.
  intros I0 [(-> & _)|[(EV & _)|(i & c & hd & EN & HC & FL)]].
  - split; [lia|]. split; [intros j L; exact (sane_fresh _ (in_sane _ I0) _ L)|]. split; [auto|]. split; [intros j H; exact (in_named _ I0 _ _ H)|]. congruence.
  - pose proof (ev_ents _ _ _ _ _ _ _ EV) as EE. split; [exact (ev_next _ _ _ _ _ _ _ EV)|].
    split; [intros j L; apply (ev_fresh _ _ _ _ _ _ _ EV j L); discriminate|]. rewrite EE. split; [intros m j; apply trim_sub|]. split.
    + intros j H. apply trim_sub in H. eapply as_evo; [apply I0|exact EV|exact (sane_ent _ (in_sane _ I0) _ _ H)|discriminate|exact (in_named _ I0 _ _ H)].
    + intros H i0 X. rewrite (ev_dirs _ _ _ _ _ _ _ EV i0 (sane_ent _ (in_sane _ I0) _ _ X)) by discriminate.
      unfold trim in H. rewrite X in H. destruct (k_dirs k0 i0); [reflexivity|congruence].
  - destruct (fl_dir _ _ _ _ _ _ _ FL) as (D & M & EV & DC & UN & KEEP & HE). pose proof (sane_ent _ (in_sane _ I0) _ _ EN) as LI.
    split; [exact (ev_next _ _ _ _ _ _ _ EV)|]. split.
    { intros j L. apply (ev_fresh _ _ _ _ _ _ _ EV j L). intros D' X. injection X as X _. lia. }
    split. { intros m j. destruct HE as [[-> _]|[-> _]]; [apply del_sub|auto]. }
    split.
    + intros j H. assert (j = i) as ->. { destruct HE as [[X _]|[X _]]; rewrite X in H; [apply del_sub in H|]; congruence. }
      left. unfold pin. fold (dview kb i P_ctx). rewrite (proj2 (ev_view _ _ _ _ _ _ _ EV i D eq_refl)). exact DC.
    + intros H i0 X. rewrite EN in X. injection X as <-. destruct HE as [[_ EM]|[X _]]; [|rewrite X in H; congruence].
      apply view_empty. intros q. rewrite (proj2 (ev_view _ _ _ _ _ _ _ EV i D eq_refl)). apply EM.
Qed.

Lemma set_inv F p m1 m2 c o k0 k : inv k0 -> no_fds k0 p -> usual c -> stops F p (chain_set m1 m2 c o) k0 k -> inv k.
Proof.
  intros I0 NF (CB & CS & NS) ST. pose proof (in_sane _ I0) as S0. set (n := nc_name c) in *.
  pose proof (wps_stops _ _ _ _ _ _ _ ST (chain_set_in k0 p n F S0 m1 m2 c o k0 eq_refl (reach_start _ _ _ _ S0 NF))) as R.
  assert (A : after n k0 k /\ one_new n k0 k).
  { refine (wps_stops _ _ _ _ _ _ _ ST (chain_set_ok F p (fun k => after n k0 k /\ one_new n k0 k) m1 m2 c o k0 S0 (fun i H => in_cons _ I0 n i H) CB CS _ _ _ _ _)).
    - intros S k' G. split; [eapply after_grow; [exact I0|exact G]|eapply one_none; [exact G|discriminate]].
    - intros S k' G. split; [eapply after_trim; [exact I0|exact G]|eapply one_none; [exact G|discriminate]].
    - intros i D M Z E' k' EN HE EV DC. split; [eapply after_gone; eauto|]. eapply one_none; [exact EV|].
      intros j D' X. injection X as <- _. exact (sane_ent _ S0 _ _ EN).
    - intros kb S k' CL SB H. destruct (cleared_facts F p m1 k0 n kb I0 CL) as (C1 & C2 & C3 & C4 & C5).
      split; [eapply (after_half p n S kb); eauto|]. destruct H as (s & i & D & SN & FN & LI & EV & DC).
      eapply (one_more p _ i D S n kb); [exact C1|exact C2|exact EV|exact LI| |exact S0].
      destruct SN as [->|[_ EM]]; [right|left; exact EM]. intros i0 X _. exact (C5 FN i0 X).
    - intros kb S k' CL SB H. destruct (cleared_facts F p m1 k0 n kb I0 CL) as (C1 & C2 & C3 & C4 & C5).
      split; [eapply (after_made F p c o S kb); eauto|]. destruct H as (i & D & hd & FN & LI & EV & _).
      eapply (one_more p _ i D S n kb); [exact C1|exact C2|exact EV|exact LI| |exact S0].
      right. intros i0 X _. exact (C5 FN i0 X). }
  destruct A as [A (i' & Z1 & Z2)].
  eapply (inv_after n); [exact I0|exact (rc_sane _ _ _ _ _ R)|exact (separate_new k0 p n k i' S0 (in_sep _ I0) R Z1 Z2)|exact (set_others F p m1 m2 c o k0 k S0 (in_sep _ I0) NF ST)|exact NS|exact A].
Qed.

(** ** The sweep of directories under construction *)
Lemma ro_go {A} F p (m : prog A) k0 k : allc ro m -> kept k0 k -> wps F p (kept k0) m (fun _ k' => kept k0 k') k.
Proof.
  revert k. induction m as [a|c f IH]; intros k AL K; [apply wps_ret; exact K|]. cbn [allc] in AL. destruct AL as [A1 A2].
  apply wps_do; [exact K|]. intros d _. apply IH; [apply A2|]. eapply kept_trans; [exact K|apply ksys_kept; [exact (kp_sane _ _ K)|exact A1]].
Qed.
Lemma ro_bind {A B} F p (m : prog A) (g : A -> prog B) k0 k Q : allc ro m -> kept k0 k ->
  (forall a k', kept k0 k' -> wps F p (kept k0) (g a) Q k') -> wps F p (kept k0) (pbind m g) Q k.
Proof. intros AL K H. apply wps_bind. eapply wps_post with (I := kept k0); [auto|intros a k' X; apply H, X|apply ro_go; assumption]. Qed.
Lemma rmdir_recursive_kept F p pd n k0 k : swept k0 -> is_staging n = true -> kept k0 k ->
  wps F p (kept k0) (rmdir_recursive pd n) (fun _ k' => kept k0 k') k.
Proof.
  intros SW ST K. unfold rmdir_recursive. apply wps_fd; [exact K| |].
  2:{ intros _ _ e. apply wps_ret; assumption. }
  intros s. pose proof (kdo_kept k p (C_opendir pd n) s (kp_sane _ _ K) Logic.I) as K1. apply (kept_trans _ _ _ K) in K1.
  revert K1. cbn [kdo]. destruct (negb (is_pindir k p pd)); [intros _; apply wps_ret; assumption|].
  destruct (ent_find n (k_ents k)) as [i|] eqn:EN; [|intros _; apply wps_ret; assumption].
  cbn [new_fd snd fres fst]. intros K1. set (k1 := with_next _) in *.
  assert (DI : dir_of k1 p (k_next k) = Some i) by (unfold dir_of, desc_of, k1; cbn; rewrite !N.eqb_refl; reflexivity).
  assert (EM : k_dirs k1 i = []).
  { rewrite (kp_dirs _ _ K1). exact (SW _ _ ST (kp_ents _ _ K _ _ EN)). }
  apply wps_step; [exact K1|]. split.
  - intros s1. cbn [kdo]. rewrite DI. cbn [snd fst]. rewrite EM. cbn [map unlink_all pbind].
    apply ro_bind; [rox|exact K1|]. intros [] k2 K2. apply ro_go; [rox|exact K2].
  - intros _ _ e. apply ro_go; [rox|exact K1].
Qed.
Lemma sweep_entries_kept F p pd l : forall k0 k, swept k0 -> kept k0 k ->
  wps F p (kept k0) (sweep_entries pd l) (fun _ k' => kept k0 k') k.
Proof.
  induction l as [|n l IH]; intros k0 k SW K; cbn [sweep_entries]; [apply wps_ret; assumption|].
  apply wps_bind. eapply wps_post with (I := kept k0) (Q := fun _ k' => kept k0 k'); [auto|intros [] k' X; apply IH; [exact SW|exact X]|].
  destruct (is_staging n) eqn:ST; [|apply wps_ret; assumption].
  apply ro_bind; [rox|exact K|]. intros [s|e] k1 K1; [|apply wps_ret; assumption].
  apply ro_bind; [rox|exact K1|]. intros [[]|e] k2 K2; [|apply ro_go; [rox|exact K2]].
  apply wps_bind. eapply wps_post with (I := kept k0) (Q := fun _ k' => kept k0 k'); [auto|intros [] k' X; apply ro_go; [rox|exact X]|]. apply rmdir_recursive_kept; auto.
Qed.
Lemma sweep_inv F p k0 k : inv k0 -> stops F p sweep_staging k0 k -> inv k.
Proof.
  intros I0 ST. eapply inv_kept; [exact I0|].
  refine (wps_stops _ _ _ _ (fun _ k' => kept k0 k') _ _ ST _). unfold sweep_staging.
  apply ro_bind; [rox|apply kept_refl, I0|]. intros [lk|e] k1 K1; [|apply wps_ret; assumption].
  destruct (lk_pin lk) as [pd|]; [|apply wps_ret; assumption].
  apply wps_do; [exact K1|]. intros d _. pose proof (ksys_kept k1 p (C_readdir pd) d (kp_sane _ _ K1) Logic.I) as K2. apply (kept_trans _ _ _ K1) in K2.
  destruct (snd (ksys k1 p (C_readdir pd) d)); try solve [apply ro_go; [rox|exact K2]].
  apply wps_bind. eapply wps_post with (I := kept k0) (Q := fun _ k' => kept k0 k'); [auto|intros [] k' X; apply ro_go; [rox|exact X]|]. apply sweep_entries_kept; [apply I0|exact K2].
Qed.
