(** Marks and rate-limited logs (proofs only). *)
From Coq Require Import NArith ZArith List Bool Lia Arith.
From Verif Require Import Bytes Types World BpfModel GenModel PktSpec ViewSpec Wf ViewModel HeadFacts5 ProgFacts ProgThm
  BytesFacts FitsFacts EvalSpec EvalFacts Deploy DeployFacts ChainSpec ChainFacts LogSpec.
Import ListNotations.
Local Open Scope N_scope.

Lemma nodup_app_l {A} (l l' : list A) : NoDup (l ++ l') -> NoDup l.
Proof.
  induction l as [|a l IH]; intros H; constructor; cbn [app] in H; inversion H; subst; auto.
  intros X. apply H2. apply in_or_app. auto.
Qed.

Section L.
  Variables (or : oracle) (v : view).
  Notation effs := (fold_left (fun w r => effects or v r w)).

  Lemma log_fields r w : let w' := do_log or v r w in
    w_mark w' = w_mark w /\ w_cnt w' = w_cnt w /\ w_redir w' = w_redir w /\ w_draws w' = w_draws w.
  Proof.
    cbv zeta. unfold do_log, log_packet. destruct (_ =? 0); auto. destruct (_ =? 0).
    - destruct (o_ring _ _); auto.
    - destruct (_ <? _); [auto|]. destruct (o_ring _ _); auto.
  Qed.

  Lemma mark_effects r w : w_mark (effects or v r w) = if mark_is_set r then mark_get r else w_mark w.
  Proof.
    unfold effects. set (w1 := if mark_is_set r then _ else _).
    assert (E : w_mark w1 = if mark_is_set r then mark_get r else w_mark w) by (unfold w1; destruct (mark_is_set r); reflexivity).
    destruct (log_fields r w1) as (A & _). rewrite <- E, <- A. destruct (r_counters r); auto.
    unfold w_count. destruct (w_cnt _ _). reflexivity.
  Qed.

  Lemma mark_fold rs : forall w, w_mark (effs rs w) = mark_after rs (w_mark w).
  Proof.
    unfold mark_after. induction rs as [|r rs IH]; intros w; cbn [fold_left]; auto. rewrite IH, mark_effects. reflexivity.
  Qed.

  Lemma count_log w k len : w_log (w_count w k len) = w_log w /\ w_ts (w_count w k len) = w_ts w /\ w_clks (w_count w k len) = w_clks w /\
    w_mark (w_count w k len) = w_mark w.
  Proof. unfold w_count. destruct (w_cnt w k). auto. Qed.

  (** What [effects] does to the log of another rule. *)
  Lemma other_effects r w i : r_index r <> i ->
    w_ts (effects or v r w) i = w_ts w i /\ entries i (effects or v r w) = entries i w /\ (w_clks w <= w_clks (effects or v r w))%nat.
  Proof.
    intros N. unfold effects. set (w1 := if mark_is_set r then _ else _).
    assert (E : w_ts w1 = w_ts w /\ w_log w1 = w_log w /\ w_clks w1 = w_clks w) by (unfold w1; destruct (mark_is_set r); auto).
    destruct E as (E1 & E2 & E3).
    assert (X : w_ts (do_log or v r w1) i = w_ts w i /\ entries i (do_log or v r w1) = entries i w /\ (w_clks w <= w_clks (do_log or v r w1))%nat).
    { unfold entries. rewrite <- E1, <- E2, <- E3. clearbody w1. clear E1 E2 E3. unfold do_log, log_packet.
      destruct (_ =? 0); auto. destruct (_ =? 0).
      - destruct (o_ring _ _); cbn; [|auto]. apply N.eqb_neq in N. rewrite N. auto.
      - destruct (_ <? _); [cbn; auto|]. destruct (o_ring _ _); cbn; unfold updN; rewrite (proj2 (N.eqb_neq i (r_index r))) by congruence; auto.
        apply N.eqb_neq in N. rewrite N. auto. }
    destruct (r_counters r); auto. unfold entries in *. destruct (count_log (do_log or v r w1) (r_index r) (v_len v)) as (A & B & C & _).
    rewrite A, B, C. exact X.
  Qed.

  Lemma other_fold i rs : (forall r, In r rs -> r_index r <> i) -> forall w,
    w_ts (effs rs w) i = w_ts w i /\ entries i (effs rs w) = entries i w /\ (w_clks w <= w_clks (effs rs w))%nat.
  Proof.
    induction rs as [|r rs IH]; intros H w; cbn [fold_left]; auto.
    destruct (IH (fun q Hq => H q (or_intror Hq)) (effects or v r w)) as (A & B & C).
    destruct (other_effects r w i (H r (or_introl eq_refl))) as (A' & B' & C').
    rewrite A, B. repeat split; auto. lia.
  Qed.

  (** What it does to its own. *)
  Definition the_entry (r : rule) (n : nat) : logent :=
    mkLog (o_clock or n) (r_index r) (verdict_id (r_verdict r)) (v_l3 v) (v_l4 v) (v_len v)
      (match v_sock v with None => r_log r mod 16 | Some _ => 0 end) (v_sock v).

  Lemma own_effects r w : r_log r <> 0 -> r_log_rate r <> 0 -> (forall n, o_ring or n = true) ->
    let now := o_clock or (w_clks w) in
    let b := r_log_rate r <=? since now (w_ts w (r_index r)) in
    w_ts (effects or v r w) (r_index r) = (if b then now else w_ts w (r_index r)) /\
    entries (r_index r) (effects or v r w) = (if b then [the_entry r (S (w_clks w))] else []) ++ entries (r_index r) w /\
    (w_clks w < w_clks (effects or v r w))%nat.
  Proof.
    intros Hl Hr Ring. cbv zeta. unfold effects. set (w1 := if mark_is_set r then _ else _).
    assert (E : w_ts w1 = w_ts w /\ w_log w1 = w_log w /\ w_clks w1 = w_clks w) by (unfold w1; destruct (mark_is_set r); auto).
    destruct E as (E1 & E2 & E3). unfold entries. rewrite <- E1, <- E2, <- E3. clearbody w1. clear E1 E2 E3.
    assert (X : let w2 := do_log or v r w1 in
       w_ts w2 (r_index r) = (if r_log_rate r <=? since (o_clock or (w_clks w1)) (w_ts w1 (r_index r)) then o_clock or (w_clks w1) else w_ts w1 (r_index r)) /\
       filter (fun l => lg_rule l =? r_index r) (w_log w2) =
         (if r_log_rate r <=? since (o_clock or (w_clks w1)) (w_ts w1 (r_index r)) then [the_entry r (S (w_clks w1))] else []) ++ filter (fun l => lg_rule l =? r_index r) (w_log w1) /\
       (w_clks w1 < w_clks w2)%nat).
    { cbv zeta. unfold do_log, log_packet. apply N.eqb_neq in Hl, Hr. rewrite Hl, Hr. cbv zeta.
      rewrite N.ltb_antisym. destruct (_ <=? _); cbn [negb].
      - rewrite Ring. cbn. unfold updN. rewrite !N.eqb_refl. cbn. auto.
      - cbn. auto. }
    cbv zeta in X. destruct (r_counters r); auto. destruct (count_log (do_log or v r w1) (r_index r) (v_len v)) as (A & B & C & _).
    rewrite A, B, C. exact X.
  Qed.
End L.

(** One packet *)
Section P.
  Variables (c : chain) (prog : list insn) (e : env) (v : view).
  Hypothesis Dp : deployed c prog e.
  Hypothesis St : forall r, In r (c_rules c) -> steady r.
  Hypothesis Ix : indexed (c_rules c).

  Notation act v := (acting Generated prob_threshold (c_sets c) v (c_rules c)).

  Lemma acting_nodup u : NoDup (map r_index (act u)).
  Proof.
    unfold acting. apply nodup_filter. destruct (looked_at_prefix Generated prob_threshold (c_sets c) u (c_rules c)) as [l E].
    pose proof (indexed_nodup _ Ix) as N. rewrite E, map_app in N. apply nodup_app_l in N. exact N.
  Qed.

  Lemma acting_in u r : In r (act u) -> In r (c_rules c).
  Proof.
    unfold acting. intros H. apply filter_In in H as [H _].
    destruct (looked_at_prefix Generated prob_threshold (c_sets c) u (c_rules c)) as [l E]. rewrite E. apply in_or_app. auto.
  Qed.

  Lemma packet_world w : view_of e c = Some v -> exists k w3, exec e prog w = Done k w3 /\
    let w' := fold_left (fun w r => effects (e_or e) v r w) (act v) w in
    w_mark w3 = w_mark w' /\ w_log w3 = w_log w' /\ w_ts w3 = w_ts w' /\ w_clks w3 = w_clks w'.
  Proof.
    intros Hv. destruct (deployed_run c prog e Dp w) as (k & w3 & E & M). exists k, w3. split; [exact E|]. rewrite Hv in M.
    unfold eval_chain in M. rewrite (steady_rules Generated prob_threshold (e_or e) (c_sets c) v (wc_sets _ (dp_chain _ _ _ Dp))) in M by exact St.
    fold (acting Generated prob_threshold (c_sets c) v (c_rules c)) in M. unfold after_rules in M. fold (act v) in M.
    change (filter (matches Generated prob_threshold (c_sets c) v) (looked_at Generated prob_threshold (c_sets c) v (c_rules c))) with (act v) in M.
    set (w' := fold_left _ (act v) w) in *. cbv zeta.
    destruct (match decider _ _ _ _ _ with Some r => decision_of r | None => None end) as [d|].
    - assert (X : w_mark w3 = w_mark w' /\ w_log w3 = w_log w' /\ w_ts w3 = w_ts w' /\ w_clks w3 = w_clks w').
      { unfold finish in M. destruct d; [destruct (kernel_code _ _); [|discriminate]|]; injection M as _ <-; auto. }
      exact X.
    - cbn [finish] in M. destruct (kernel_code _ _); [|discriminate]. injection M as _ <-.
      destruct (count_log w' (N.of_nat (length (c_rules c))) (v_len v)) as (A & B & C & F). auto.
  Qed.

  Lemma packet_world_none w : view_of e c = None -> exists k w3, exec e prog w = Done k w3 /\
    w_mark w3 = w_mark w /\ w_log w3 = w_log w /\ w_ts w3 = w_ts w /\ w_clks w3 = w_clks w.
  Proof.
    intros Hv. destruct (deployed_run c prog e Dp w) as (k & w3 & E & M). exists k, w3. split; [exact E|]. rewrite Hv in M.
    destruct M as [_ ->]. destruct (count_log w (n_rules c + 1) (p_len (packet_of e (c_hook c)))) as (A & B & C & F). auto.
  Qed.
End P.

Lemma one_packet_log c prog e w r : deployed c prog e -> (forall r, In r (c_rules c) -> steady r) -> indexed (c_rules c) ->
  In r (c_rules c) -> r_log r <> 0 -> r_log_rate r <> 0 -> (forall n, o_ring (e_or e) n = true) ->
  exists k w3, exec e prog w = Done k w3 /\ (w_clks w <= w_clks w3)%nat /\
  if acts c e r then exists n, (w_clks w <= n < w_clks w3)%nat /\
     let now := o_clock (e_or e) n in
     let b := r_log_rate r <=? since now (w_ts w (r_index r)) in
     w_ts w3 (r_index r) = (if b then now else w_ts w (r_index r)) /\
     length (entries (r_index r) w3) = ((if b then 1 else 0) + length (entries (r_index r) w))%nat
  else w_ts w3 (r_index r) = w_ts w (r_index r) /\ entries (r_index r) w3 = entries (r_index r) w.
Proof.
  intros Dp St Ix Hr Hl Hrt Ring. destruct (view_of e c) as [v|] eqn:Hv.
  - destruct (packet_world c prog e v Dp St w Hv) as (k & w3 & E & M1 & M2 & M3 & M4). exists k, w3. split; [exact E|].
    unfold acts. rewrite Hv. set (A := acting Generated prob_threshold (c_sets c) v (c_rules c)) in *.
    unfold entries. rewrite M2, M3, M4. fold (entries (r_index r) (fold_left (fun w r => effects (e_or e) v r w) A w)).
    fold (entries (r_index r) w).
    destruct (existsb (fun q => r_index q =? r_index r) A) eqn:EX.
    + apply existsb_exists in EX as (q & Hq & Eq). apply N.eqb_eq in Eq.
      assert (Q : q = r).
      { apply acting_in in Hq. apply In_nth_error in Hq as [i Hi]. apply In_nth_error in Hr as [j Hj].
        rewrite (Ix _ _ Hi), (Ix _ _ Hj) in Eq. assert (i = j) by lia. subst. congruence. }
      subst q. clear Eq. pose proof (acting_nodup c Ix v) as ND. fold A in ND.
      apply in_split in Hq as (l1 & l2 & Hs). rewrite Hs in *. rewrite map_app in ND. cbn [map] in ND.
      apply NoDup_remove_2 in ND. rewrite in_app_iff in ND.
      assert (N1 : forall q, In q l1 -> r_index q <> r_index r) by (intros q Hq X; apply ND; left; rewrite <- X; apply in_map; auto).
      assert (N2 : forall q, In q l2 -> r_index q <> r_index r) by (intros q Hq X; apply ND; right; rewrite <- X; apply in_map; auto).
      rewrite fold_left_app. cbn [fold_left].
      destruct (other_fold (e_or e) v (r_index r) l1 N1 w) as (T1 & L1 & C1).
      set (w1 := fold_left _ l1 w) in *.
      destruct (own_effects (e_or e) v r w1 Hl Hrt Ring) as (T2 & L2 & C2).
      destruct (other_fold (e_or e) v (r_index r) l2 N2 (effects (e_or e) v r w1)) as (T3 & L3 & C3).
      split; [lia|]. exists (w_clks w1). split; [lia|]. cbv zeta. rewrite T1 in *. rewrite T3, T2, L3, L2, L1, app_length.
      split; [reflexivity|]. destruct (_ <=? _); reflexivity.
    + assert (N : forall q, In q A -> r_index q <> r_index r).
      { intros q Hq X. apply not_true_iff_false in EX. apply EX. apply existsb_exists. exists q. split; auto. apply N.eqb_eq. auto. }
      destruct (other_fold (e_or e) v (r_index r) A N w) as (T1 & L1 & C1). auto.
  - destruct (packet_world_none c prog e Dp w Hv) as (k & w3 & E & M1 & M2 & M3 & M4). exists k, w3. split; [exact E|].
    rewrite M4. split; [lia|]. unfold acts. rewrite Hv. unfold entries. rewrite M2, M3. auto.
Qed.

Lemma history_log c prog or ps r : (forall r, In r (c_rules c) -> steady r) -> indexed (c_rules c) ->
  In r (c_rules c) -> r_log r <> 0 -> r_log_rate r <> 0 -> (forall n, o_ring or n = true) ->
  (forall e mk, In (e, mk) ps -> deployed c prog e /\ e_or e = or) ->
  forall w, exists w3 evs, play prog ps w = Some w3 /\
    length evs = length (filter (fun p => acts c (fst p) r) ps) /\
    limited (r_log_rate r) (w_ts w (r_index r)) evs /\
    w_ts w3 (r_index r) = last_through (w_ts w (r_index r)) evs /\
    length (entries (r_index r) w3) = (through evs + length (entries (r_index r) w))%nat /\
    exists ns, map fst evs = map (o_clock or) ns /\
      (forall i j a b, nth_error ns i = Some a -> nth_error ns j = Some b -> (i < j)%nat -> (a < b)%nat) /\
      (forall a, In a ns -> (w_clks w <= a < w_clks w3)%nat) /\ (w_clks w <= w_clks w3)%nat.
Proof.
  intros St Ix Hr Hl Hrt Ring. induction ps as [|[e mk] ps IH]; intros Hd w.
  - exists w, []. repeat (split; [reflexivity|]). exists []. split; [reflexivity|]. split; [|split; [intros a []|lia]].
    intros i j a b H. destruct i; discriminate.
  - destruct (Hd e mk (or_introl eq_refl)) as [De Eo].
    assert (Ring' : forall n, o_ring (e_or e) n = true) by (rewrite Eo; auto).
    destruct (one_packet_log c prog e (with_mark w mk) r De St Ix Hr Hl Hrt Ring') as (k & w1 & E & C & P).
    change (w_clks (with_mark w mk)) with (w_clks w) in *. change (w_ts (with_mark w mk)) with (w_ts w) in *.
    change (entries (r_index r) (with_mark w mk)) with (entries (r_index r) w) in *.
    destruct (IH (fun e0 m0 H => Hd e0 m0 (or_intror H)) w1) as (w3 & evs & Pl & Le & Li & La & Ln & ns & Mn & Mo & Mb & Mc).
    cbn [play]. rewrite E. cbn [filter fst]. destruct (acts c e r).
    + destruct P as (n & Bn & T & L). rewrite Eo in *. set (b := r_log_rate r <=? since (o_clock or n) (w_ts w (r_index r))) in *.
      exists w3, ((o_clock or n, b) :: evs). split; [exact Pl|]. cbn [length]. split; [congruence|].
      cbn [limited last_through fold_left fst snd]. rewrite T in *. split; [split; [reflexivity|exact Li]|].
      split; [exact La|]. split.
      * unfold through in *. cbn [filter snd]. rewrite Ln, L. destruct b; cbn [length]; lia.
      * exists (n :: ns). cbn [map fst]. split; [rewrite Mn; reflexivity|]. split; [|split; [|lia]].
        -- intros i j x y Hi Hj Lt. destruct j; [lia|]. destruct i; cbn [nth_error] in *.
           ++ injection Hi as <-. apply nth_error_In in Hj. apply Mb in Hj. lia.
           ++ apply (Mo i j x y Hi Hj). lia.
        -- intros a [<-|Ha]; [lia|]. apply Mb in Ha. lia.
    + destruct P as (T & L). rewrite T in *. rewrite L in *. exists w3, evs. split; [exact Pl|]. split; [exact Le|]. split; [exact Li|].
      split; [exact La|]. split; [exact Ln|]. exists ns. split; [exact Mn|]. split; [exact Mo|]. split; [|lia].
      intros a Ha. apply Mb in Ha. lia.
Qed.

(** Consecutive published entries are at least [rate] apart. *)
Lemma limited_spacing rate : forall evs last, (forall p, In p evs -> last <= fst p) ->
  (forall i j p q, nth_error evs i = Some p -> nth_error evs j = Some q -> (i < j)%nat -> fst p <= fst q) ->
  last < two64 -> (forall p, In p evs -> fst p < two64) -> limited rate last evs ->
  forall i j p q, nth_error evs i = Some p -> nth_error evs j = Some q -> (i < j)%nat -> snd p = true -> snd q = true ->
  fst p + rate <= fst q.
Proof.
  assert (SINCE : forall a b, a <= b -> b < two64 -> since b a = b - a).
  { intros a b H1 H2. unfold since. rewrite (N.mod_small a) by lia. 
    replace (b + (two64 - a)) with ((b - a) + 1 * two64) by lia. rewrite N.mod_add by discriminate. apply N.mod_small. lia. }
  assert (G : forall evs last, (forall p, In p evs -> last <= fst p) ->
    (forall i j p q, nth_error evs i = Some p -> nth_error evs j = Some q -> (i < j)%nat -> fst p <= fst q) ->
    last < two64 -> (forall p, In p evs -> fst p < two64) -> limited rate last evs ->
    (forall j q, nth_error evs j = Some q -> snd q = true -> last + rate <= fst q) /\
    (forall i j p q, nth_error evs i = Some p -> nth_error evs j = Some q -> (i < j)%nat -> snd p = true -> snd q = true -> fst p + rate <= fst q)).
  { induction evs as [|[now b] evs IH]; intros last H1 H2 H3 H4 H5.
    - split; intros; destruct j; discriminate.
    - cbn [limited] in H5. destruct H5 as [Hb Hl].
      assert (Ln : last <= now) by (apply (H1 (now, b)); left; auto).
      assert (Bn : now < two64) by (apply (H4 (now, b)); left; auto).
      rewrite (SINCE last now Ln Bn) in Hb.
      assert (H1n : forall p, In p evs -> now <= fst p).
      { intros p Hp. apply In_nth_error in Hp as [j Hj]. apply (H2 0%nat (S j) (now, b) p eq_refl Hj). lia. }
      specialize (IH (if b then now else last)).
      destruct IH as [IH1 IH2]; auto.
      + intros p Hp. specialize (H1n p Hp). destruct b; lia.
      + intros i j p q Hi Hj L. apply (H2 (S i) (S j) p q Hi Hj). lia.
      + destruct b; lia.
      + intros p Hp. apply H4. right; auto.
      + split.
        * intros [|j] q Hq Tq; cbn [nth_error] in Hq.
          -- injection Hq as <-. cbn [snd fst] in *. rewrite Tq in Hb. symmetry in Hb. apply N.leb_le in Hb. lia.
          -- specialize (IH1 j q Hq Tq). destruct b; [|exact IH1]. lia.
        * intros [|i] [|j] p q Hi Hj L Tp Tq; try lia; cbn [nth_error] in *.
          -- injection Hi as <-. cbn [snd fst] in *. rewrite Tp in *. apply (IH1 j q Hj Tq).
          -- apply (IH2 i j p q Hi Hj); auto. lia. }
  intros evs last H1 H2 H3 H4 H5. apply (G evs last); auto.
Qed.
