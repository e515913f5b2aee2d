(** Replacing the program of a chain: bf_cgen_update. *)
From Coq Require Import NArith ZArith List Bool Lia.
From Verif Require Import Bytes Types World BpfModel GenModel BytesFacts StrModel SetModel MapModel PackModel PackSpec PackFacts4 HookModel KernModel LockModel CtlModel SysSpec SysFacts RelyFacts SeqFacts StageFacts EvoFacts CtlSpec HistSpec HandleFacts PinFacts AttachFacts LockSeqFacts LoadFacts RestoreFacts WithFacts IsolFacts UnloadFacts AttachOpFacts CountFacts UpdSpec.
Import ListNotations.
Local Open Scope N_scope.

(** ** Programs that make only calls that do not fail *)
Lemma wps_fewer {A} (F F' : call -> bool) p (I : kst -> Prop) (m : prog A) Q : allc (fun c => F c = true -> can_fail c = true -> F' c = true) m ->
  forall k, wps F' p I m Q k -> wps F p I m Q k.
Proof.
  induction m as [a|c f IH]; intros AL k H; cbn [wps] in *; [exact H|]. destruct AL as [A1 A2]. destruct H as [HI H]. split; [exact HI|].
  intros d ED. destruct d as [|e|s]; try (apply IH; [apply A2|]; apply H; exact Logic.I).
  cbn [env_ok] in ED. destruct (can_fail c) eqn:CF.
  - apply IH; [apply A2|]. apply H. cbn. auto.
  - assert (X : ksys k p c (E_fail e) = ksys k p c E_none) by (unfold ksys; rewrite CF; reflexivity).
    rewrite X. apply IH; [apply A2|]. apply H. exact Logic.I.
Qed.

Definition tame (c : call) : Prop := vital c = true \/ can_fail c = false.
Lemma spared_fewer {A} F p (I : kst -> Prop) (m : prog A) Q k : spared F -> allc tame m -> wps no_fault p I m Q k -> wps F p I m Q k.
Proof.
  intros SP AL. apply wps_fewer. clear -SP AL. induction m as [a|c f IH]; cbn [allc] in *; [exact Logic.I|]. destruct AL as [A1 A2]. split; [|intros r; apply IH, A2].
  intros FC CF. destruct A1 as [V|V]; [rewrite (SP c V) in FC; discriminate FC|congruence].
Qed.
Lemma tame_unit c : tame c -> allc tame (sys_unit c).
Proof. intros H. split; [exact H|]. intros r. destruct r; exact Logic.I. Qed.
Lemma tame_ign c : tame c -> allc tame (sys_ c).
Proof. intros H. split; [exact H|]. intros r. exact Logic.I. Qed.
Lemma tame_pins d l : allc tame (pin_maps d l).
Proof.
  induction l as [|[q f] r IH]; cbn [pin_maps]; [exact Logic.I|]. apply allc_bind; [apply tame_unit; left; reflexivity|]. intros [u|e]; [exact IH|exact Logic.I].
Qed.
Lemma tame_unpin_maps d l : allc tame (unpin_maps d l).
Proof.
  induction l as [|[q f] r IH]; cbn [unpin_maps]; [exact Logic.I|]. apply allc_bind; [apply tame_ign; right; reflexivity|]. intros _. exact IH.
Qed.
Lemma tame_unpin h d : allc tame (handle_unpin h d).
Proof.
  unfold handle_unpin. apply allc_bind; [apply tame_unpin_maps|]. intros _. apply allc_bind; [|intros _; apply tame_ign; right; reflexivity].
  destruct (h_link h); [|exact Logic.I]. unfold link_unpin. apply allc_bind; [|intros _]; apply tame_ign; right; reflexivity.
Qed.
Lemma tame_pin h d : allc tame (handle_pin h d).
Proof.
  unfold handle_pin. apply allc_bind. { unfold pin_prog. destruct (h_prog h); [apply tame_unit; left; reflexivity|exact Logic.I]. }
  intros [u|e]; [|apply allc_bind; [apply tame_unpin|intros _; exact Logic.I]].
  apply allc_bind; [apply tame_pins|]. intros [u'|e]; [|apply allc_bind; [apply tame_unpin|intros _; exact Logic.I]].
  destruct (h_link h) as [l|]; [|exact Logic.I]. apply allc_bind.
  - unfold link_pin. apply allc_bind; [apply tame_unit; left; reflexivity|]. intros [u2|e]; [|exact Logic.I]. destruct (l_extra l); [|exact Logic.I].
    apply allc_bind; [apply tame_unit; left; reflexivity|]. intros [u3|e]; [exact Logic.I|]. apply allc_bind; [|intros _; exact Logic.I].
    unfold link_unpin. apply allc_bind; [|intros _]; apply tame_ign; right; reflexivity.
  - intros [u2|e]; [exact Logic.I|]. apply allc_bind; [apply tame_unpin|intros _; exact Logic.I].
Qed.
Lemma tame_persist g d : allc tame (persist g d).
Proof.
  unfold persist. apply allc_bind; [apply tame_unit; left; reflexivity|]. intros [u|e]; [|exact Logic.I]. destruct (chain_pack (g_chain g)); [|exact Logic.I].
  apply allc_bind. { split; [left; reflexivity|]. intros r. destruct r; exact Logic.I. }
  intros [mf|e]; [|exact Logic.I]. apply allc_bind; [apply tame_unit; left; reflexivity|]. intros [u1|e].
  2:{ apply allc_bind; [apply tame_ign; right; reflexivity|intros _; exact Logic.I]. }
  apply allc_bind; [apply tame_ign; right; reflexivity|]. intros _. apply allc_bind; [apply tame_unit; left; reflexivity|]. intros [u2|e].
  2:{ apply allc_bind; [apply tame_ign; right; reflexivity|intros _; exact Logic.I]. }
  apply allc_bind; [apply tame_unit; left; reflexivity|]. intros [u3|e].
  - apply allc_bind; [apply tame_ign; right; reflexivity|intros _; exact Logic.I].
  - apply allc_bind; [apply tame_ign; right; reflexivity|intros _]. apply allc_bind; [apply tame_ign; right; reflexivity|intros _; exact Logic.I].
Qed.
Lemma spared_extra F : spared F -> ~ extra_faulty F.
Proof. intros SP (d & H). rewrite (SP _ (eq_refl : vital (C_get d P_link_extra) = true)) in H. discriminate H. Qed.
Lemma spared_alloc F : spared F -> F C_alloc = false.
Proof. intros SP. apply SP. reflexivity. Qed.

(** ** Moving the counters *)

(** Only the object [o] differs. *)
Record cwr (o : oid) (k k' : kst) : Prop := {
  cw_sane : sane k'; cw_fds : k_fds k' = k_fds k; cw_dirs : k_dirs k' = k_dirs k; cw_ents : k_ents k' = k_ents k;
  cw_next : k_next k' = k_next k; cw_cpus : k_cpus k' = k_cpus k;
  cw_objs : forall x, x <> o -> k_objs k' x = k_objs k x
}.
Lemma cwr_refl o k : sane k -> cwr o k k.
Proof. intros S. constructor; auto. Qed.
Lemma cwr_trans o k k1 k2 : cwr o k k1 -> cwr o k1 k2 -> cwr o k k2.
Proof.
  intros [A1 A2 A3 A4 A5 A6 A7] [B1 B2 B3 B4 B5 B6 B7]. constructor; try congruence.
  intros x N. rewrite B7, A7; auto.
Qed.
Lemma cwr_put o v k : sane k -> o < k_next k -> cwr o k (with_obj k o v).
Proof. intros S L. constructor; try reflexivity; [apply sane_put; auto|]. intros x N. cbn. apply updN_other, N. Qed.
Lemma cwr_desc o k k' p f : cwr o k k' -> desc_of k' p f = desc_of k p f.
Proof. intros C. unfold desc_of. rewrite (cw_fds _ _ _ C). reflexivity. Qed.
Lemma evo_cwr p E X M S k0 k k' o : evo p E X M S k0 k -> k_next k0 <= o -> cwr o k k' -> evo p E X M S k0 k'.
Proof.
  intros [A1 A2 A3 A4 A5 A6 A7 A8 A9 A10] L [B1 B2 B3 B4 B5 B6 B7]. constructor.
  - exact B1.
  - rewrite B5. exact A2.
  - congruence.
  - congruence.
  - intros j HJ HX. rewrite B3. auto.
  - intros i D HX. rewrite B5. destruct (A6 i D HX) as [Y1 Y2]. split; [exact Y1|]. intros q. unfold dview. rewrite B3. apply Y2.
  - intros x HL. rewrite B7; [auto|]. intros ->. lia.
  - intros f HL. rewrite B2. auto.
  - intros f HL. rewrite B2. auto.
  - intros j HL HX. rewrite B3. auto.
Qed.

Lemma total_zeros k : total (zeros k) = (0, 0).
Proof.
  unfold total, zeros. assert (X : forall n, map fst (repeat (0, 0) n : list (N * N)) = repeat 0 n /\ map snd (repeat (0, 0) n : list (N * N)) = repeat 0 n /\ fold_right N.add 0 (repeat 0 n) = 0).
  { intros n. induction n as [|n (A & B & C)]; [auto|]. cbn [repeat map fst snd fold_right]. rewrite A, B, C. auto. }
  destruct (X (k_cpus k)) as (A & B & C). rewrite A, B, C. reflexivity.
Qed.
Lemma total_first x n : total (total x :: repeat (0, 0) n) = total x.
Proof.
  unfold total at 1. cbn [map fst snd fold_right].
  assert (X : map fst (repeat (0, 0) n : list (N * N)) = repeat 0 n /\ map snd (repeat (0, 0) n : list (N * N)) = repeat 0 n /\ fold_right N.add 0 (repeat 0 n) = 0).
  { induction n as [|n (A & B & C)]; [auto|]. cbn [repeat map fst snd fold_right]. rewrite A, B, C. auto. }
  destruct X as (A & B & C). rewrite A, B, C, !N.add_0_r. unfold total. cbn [fst snd]. rewrite !N.mod_mod by discriminate. reflexivity.
Qed.

Lemma wps_tail {A} F p (I : kst -> Prop) (m : prog A) Q k : wps F p I (pbind m (fun a => Ret a)) Q k -> wps F p I m Q k.
Proof.
  revert k. induction m as [a|c f IH]; intros k H; [exact H|]. cbn [pbind wps] in *. destruct H as [H1 H2]. split; [exact H1|]. intros d E. apply IH, H2, E.
Qed.
Lemma set_counter_ok F p (I : kst -> Prop) h i x o n w k : sane k -> cmap_is k p h o n w -> i < n -> (forall k', cwr o k k' -> I k') ->
  wps F p I (handle_set_counter h i x) (fun r k' => cwr o k k' /\
    match r with Ok _ => cmap_is k' p h o n (updN w i (x :: repeat (0, 0) (k_cpus k - 1))) | Er _ => faulty F end) k.
Proof.
  intros S (f & HC & D & OB) L HI. pose proof (HI k (cwr_refl _ _ S)) as HK. unfold handle_set_counter. rewrite HC.
  apply wps_step; [exact HK|]. split.
  2:{ intros H _ e. apply wps_ret; [exact HK|]. split; [apply cwr_refl, S|]. eapply faulty_intro; exact H. }
  intros s. cbn [kdo snd fst pbind]. apply wps_alloc; [exact HK| |].
  2:{ intros H e. apply wps_ret; [exact HK|]. split; [apply cwr_refl, S|]. eapply faulty_intro; exact H. }
  assert (LO : o < k_next k) by (eapply (sane_obj _ S); exact OB).
  apply wps_tail. eapply wps_cnt_write; [exact D|exact OB|exact L|exact HK| |].
  - apply wps_ret; [apply HI, cwr_put; auto|]. split; [apply cwr_put; auto|]. exists f. split; [exact HC|].
    split; [erewrite (cwr_desc o k); [exact D|apply cwr_put; auto]|]. cbn. apply updN_same.
  - intros H e. apply wps_ret; [exact HK|]. split; [apply cwr_refl, S|]. eapply faulty_intro; exact H.
Qed.

Lemma cmap_cwr k k' p h o n v x : cwr x k k' -> o <> x -> cmap_is k p h o n v -> cmap_is k' p h o n v.
Proof. intros C N (f & A & B & D). exists f. split; [exact A|]. rewrite (cwr_desc _ _ _ _ _ C), (cw_objs _ _ _ C) by exact N. auto. Qed.

Lemma transfer_slots_ok F p (I : kst -> Prop) ho hn oo on n v k0 : oo <> on -> (forall k', cwr on k0 k' -> I k') ->
  forall m i w k, cwr on k0 k -> cmap_is k p ho oo n v -> cmap_is k p hn on n w -> i + N.of_nat m = n -> (forall j, i <= j -> w j = zeros k0) ->
  wps F p I (transfer_slots ho hn m i) (fun r k' => cwr on k0 k' /\
    match r with Ok _ => exists w', cmap_is k' p hn on n w' /\ (forall j, i <= j < n -> total (w' j) = total (v j)) /\ (forall j, j < i -> w' j = w j)
    | Er _ => faulty F end) k.
Proof.
  intros NE HI. induction m as [|m IH]; intros i w k C CO CN IM Z; cbn [transfer_slots].
  - apply wps_ret; [auto|]. split; [exact C|]. exists w. split; [exact CN|]. split; [|auto]. intros j H. lia.
  - apply wps_bind. eapply wps_post with (I := I); [auto| |apply (get_counter_ok F p I ho i oo n v k); [auto|exact CO]].
    intros [[a b]|e] k' (-> & R).
    2:{ apply wps_ret; [auto|]. split; [exact C|]. destruct R as [R|R]; [exact R|lia]. }
    destruct R as (L & R). destruct ((a =? 0) && (b =? 0)) eqn:ZZ.
    + apply andb_true_iff in ZZ. destruct ZZ as [Z1 Z2]. apply N.eqb_eq in Z1, Z2. subst a b.
      eapply wps_post with (I := I); [auto| |apply (IH (i + 1) w k C CO CN)]; [|lia|intros j H; apply Z; lia].
      intros r k' (C' & X). split; [exact C'|]. destruct r; [|exact X]. destruct X as (w' & X1 & X2 & X3). exists w'. split; [exact X1|]. split; [|intros j H; apply X3; lia].
      intros j H. destruct (N.eq_dec j i) as [->|NJ]; [|apply X2; lia]. rewrite X3 by lia. rewrite Z by lia. rewrite total_zeros. exact R.
    + apply wps_bind. eapply wps_post with (I := I); [auto| |apply (set_counter_ok F p I hn i (a, b) on n w k (cw_sane _ _ _ C) CN L)].
      2:{ intros k' C'. apply HI. eapply cwr_trans; eauto. }
      intros [u|e] k' (C' & X); pose proof (cwr_trans _ _ _ _ C C') as C2.
      2:{ apply wps_ret; [auto|]. auto. }
      eapply wps_post with (I := I); [auto| |apply (IH (i + 1) _ k' C2 (cmap_cwr _ _ _ _ _ _ _ _ C' NE CO) X)]; [|lia|].
      2:{ intros j H. rewrite updN_other by lia. apply Z. lia. }
      intros r k2 (C3 & Y). split; [exact C3|]. destruct r; [|exact Y]. destruct Y as (w' & Y1 & Y2 & Y3). exists w'. split; [exact Y1|]. split.
      * intros j H. destruct (N.eq_dec j i) as [->|NJ]; [|apply Y2; lia]. rewrite Y3 by lia. rewrite updN_same. rewrite R. apply total_first.
      * intros j H. rewrite Y3 by lia. apply updN_other. lia.
Qed.
Lemma transfer_ok F p (I : kst -> Prop) ho hn oo on n v k : sane k -> oo <> on -> (forall k', cwr on k k' -> I k') ->
  cmap_is k p ho oo (n + 2) v -> cmap_is k p hn on (n + 2) (fun _ => zeros k) ->
  wps F p I (transfer_counters ho hn n) (fun r k' => cwr on k k' /\
    match r with Ok _ => exists w, cmap_is k' p hn on (n + 2) w /\ forall j, j < n + 2 -> total (w j) = total (v j) | Er _ => faulty F end) k.
Proof.
  intros S NE HI CO CN. unfold transfer_counters. pose proof CO as (f & X & _). rewrite X. pose proof CN as (f' & X' & _). rewrite X'.
  eapply wps_post with (I := I); [auto| |apply (transfer_slots_ok F p I ho hn oo on (n + 2) v k NE HI _ 0 (fun _ => zeros k) k (cwr_refl _ _ S) CO CN); [lia|auto]].
  intros r k' (C & R). split; [exact C|]. destruct r; [|exact R]. destruct R as (w & R1 & R2 & _). exists w. split; [exact R1|]. intros j L. apply R2. lia.
Qed.

(** ** Switching the link *)

(** The link of process [p] is live and runs program [po]. *)
Definition link_live (k : kst) (p : pid) (po : oid) (l : link) : Prop :=
  (exists lo t, attach_point (l_hook l) (l_opts l) 2 = Some t /\ desc_of k p (l_fd l) = Some (D_obj lo) /\ k_objs k lo = Some (O_link (l_hook l) t po false)) /\
  match l_extra l with
  | Some fx => (exists ox, desc_of k p fx = Some (D_obj ox)) /\
      (hook_flavor (l_hook l) = F_NF -> exists lx t, attach_point (l_hook l) (l_opts l) 10 = Some t /\ desc_of k p fx = Some (D_obj lx) /\ k_objs k lx = Some (O_link (l_hook l) t po false))
  | None => hook_flavor (l_hook l) <> F_NF
  end.
Lemma hpins_plink h l f : hok h -> h_link h = Some l -> In (P_link, f) (hpins h) -> f = l_fd l.
Proof.
  intros HK HL X. apply hpins_cases in X. destruct X as [[X _]|[[X _]|[[X _]|[[X _]|[[X _]|[X|X]]]]]]; try discriminate X.
  - apply (in_map fst) in X. destruct (HK _ X) as (j & E). discriminate E.
  - rewrite HL in X. cbn [lpins] in X. destruct X as [X|X]; [congruence|]. apply in_opt_map in X as [X _]. discriminate X.
Qed.
Lemma hpins_pextra h l f : hok h -> h_link h = Some l -> In (P_link_extra, f) (hpins h) -> l_extra l = Some f.
Proof.
  intros HK HL X. apply hpins_cases in X. destruct X as [[X _]|[[X _]|[[X _]|[[X _]|[[X _]|[X|X]]]]]]; try discriminate X.
  - apply (in_map fst) in X. destruct (HK _ X) as (j & E). discriminate E.
  - rewrite HL in X. cbn [lpins] in X. destruct X as [X|X]; [discriminate X|]. apply in_opt_map in X as [_ X]. exact X.
Qed.
Lemma hpins_pprog h f : hok h -> In (P_prog, f) (hpins h) -> h_prog h = Some f.
Proof.
  intros HK X. apply hpins_cases in X. destruct X as [[_ X]|[[X _]|[[X _]|[[X _]|[[X _]|[X|X]]]]]]; try discriminate X; [exact X| |].
  - apply (in_map fst) in X. destruct (HK _ X) as (j & E). discriminate E.
  - destruct (h_link h) as [l|]; [|destruct X]. cbn [lpins] in X. destruct X as [X|X]; [discriminate X|]. apply in_opt_map in X as [X _]. discriminate X.
Qed.
Lemma hpins_in_link h l q f : h_link h = Some l -> In (q, f) (lpins (Some l)) -> In (q, f) (hpins h).
Proof. intros HL H. unfold hpins. rewrite !in_app_iff, HL. auto. Qed.

Lemma good_live k p ch h l : good k p ch h -> h_link h = Some l -> opened k p (hpins h) ->
  l_hook l = c_hook ch /\ exists pf po img ss cm, gen_program ch = Ok img /\ h_prog h = Some pf /\ desc_of k p pf = Some (D_obj po) /\
    k_objs k po = Some (O_prog img ss cm) /\ link_live k p po l.
Proof.
  intros G HL OPN. pose proof (good_hok _ _ _ _ G) as HK. destruct G as [(img & po & ss & cm & v & B1 & (f & X & Y) & B3 & _ & _ & _ & _ & B8) _ _ _ _ _].
  cbn [handle_desc hd_link] in B8. rewrite HL in B8. destruct B8 as (E1 & (lo & t & E2 & (fl & E3 & E4) & E5) & E6).
  apply (hpins_plink _ _ _ HK HL) in E3. subst fl. split; [exact E1|].
  exists f, po, img, ss, cm. split; [exact B1|]. split; [apply hpins_pprog; assumption|]. split; [exact Y|]. split; [exact B3|]. split; [exists lo, t; auto|].
  destruct (l_extra l) as [fx|] eqn:EX.
  - split; [apply (OPN P_link_extra); eapply hpins_in_link; [exact HL|]; cbn [lpins]; rewrite EX; right; left; reflexivity|].
    intros NFH. destruct (E6 NFH) as (lx & t' & Z1 & (fx' & Z2 & Z3) & Z4). apply (hpins_pextra _ _ _ HK HL) in Z2. rewrite EX in Z2. injection Z2 as <-. exists lx, t'. auto.
  - intros NFH. destruct (E6 NFH) as (lx & t' & Z1 & (fx' & Z2 & Z3) & Z4). apply (hpins_pextra _ _ _ HK HL) in Z2. congruence.
Qed.
Lemma live_good k p ch h l po pf : good k p ch h -> h_link h = None -> h_prog h = Some pf -> desc_of k p pf = Some (D_obj po) ->
  link_live k p po l -> l_hook l = c_hook ch -> good k p ch (set_link h (Some l)).
Proof.
  intros G HL HP DP LO HH. pose proof (good_hok _ _ _ _ G) as HK.
  assert (IN : forall q f, In (q, f) (hpins h) -> In (q, f) (hpins (set_link h (Some l)))) by (intros q f H; apply hpins_set_link; auto).
  assert (R : forall q o, hrel k p h q o -> hrel k p (set_link h (Some l)) q o) by (intros q o (f & A & B); exists f; auto).
  assert (E : forall R' O', complete_at R' O' ch (handle_desc h) -> hd_link (handle_desc h) = None) by (intros; cbn; rewrite HL; reflexivity).
  destruct G as [(img & po' & ss & cm & v & B1 & B2 & B3 & B4 & B5 & B6 & B7 & B8) C1 (C2 & x2 & C2' & C2'') (C3 & C3') (C4 & C4') C5].
  assert (po' = po) as ->. { destruct B2 as (f & X & Y). apply (hpins_pprog _ _ HK) in X. congruence. }
  constructor; auto.
  - exists img, po, ss, cm, v. split; [exact B1|]. split; [auto|]. split; [exact B3|]. split; [auto|]. split; [exact B5|]. split; [eapply Forall2_impl; [|exact B6]; auto|]. split; [exact B7|].
    cbn [handle_desc hd_link set_link h_link]. change (h_link (set_link h (Some l))) with (Some l). cbv iota. split; [exact HH|].
    destruct LO as [(lo & t & L1 & L2 & L3) L4]. split.
    + exists lo, t. split; [exact L1|]. split; [|exact L3]. exists (l_fd l). split; [|exact L2]. apply hpins_set_link; [exact HL|]. right. left. reflexivity.
    + intros NFH. destruct (l_extra l) as [fx|] eqn:EX; [|contradiction]. destruct L4 as (_ & L4). destruct (L4 NFH) as (lx & t' & M1 & M2 & M3).
      exists lx, t'. split; [exact M1|]. split; [|exact M3]. exists fx. split; [|exact M2]. apply hpins_set_link; [exact HL|]. right. cbn [lpins]. rewrite EX. right. left. reflexivity.
  - split; [exact C2|]. exists x2. auto.
  - split; [exact C3|]. intros X. destruct (C3' X) as (o & Y1 & Y2). exists o. auto.
  - split; [exact C4|]. intros X. destruct (C4' X) as (o & Y1 & Y2). exists o. auto.
Qed.
Lemma live_keep k k' p po l : link_live k p po l -> (forall f, In f (map snd (lpins (Some l))) -> desc_of k' p f = desc_of k p f) ->
  (forall q f o v, In (q, f) (lpins (Some l)) -> desc_of k p f = Some (D_obj o) -> k_objs k o = Some v -> k_objs k' o = Some v) -> link_live k' p po l.
Proof.
  intros [(lo & t & L1 & L2 & L3) L4] HD HO. split.
  - exists lo, t. split; [exact L1|]. split; [rewrite HD; [exact L2|left; reflexivity]|]. eapply HO; [left; reflexivity|exact L2|exact L3].
  - cbn [lpins] in *. destruct (l_extra l) as [fx|]; [|exact L4]. destruct L4 as ((ox & L4) & L5). split; [exists ox; rewrite HD; [exact L4|right; left; reflexivity]|].
    intros NFH. destruct (L5 NFH) as (lx & t' & M1 & M2 & M3). exists lx, t'. split; [exact M1|]. split; [rewrite HD; [exact M2|right; left; reflexivity]|].
    eapply HO; [right; left; reflexivity|exact M2|exact M3].
Qed.

(** Nothing but links changed. *)
Definition keeps (k k' : kst) : Prop :=
  forall o v, k_objs k o = Some v -> match v with O_link _ _ _ _ => True | _ => k_objs k' o = Some v end.
Lemma keeps_all k k' : (forall o v, k_objs k o = Some v -> k_objs k' o = Some v) -> keeps k k'.
Proof. intros H o v X. specialize (H o v X). destruct v; auto. Qed.

Definition new_opts (hk : hook) (o : hookopts) : hookopts := match hook_flavor hk with F_NF => swap_prios o | _ => o end.

Lemma link_update_ok F p (I : kst -> Prop) l pf po po' img ss cm E X S k0 k : sane k0 ->
  evo p E X [] (map snd (lpins (Some l)) ++ S) k0 k -> (forall f, In f (map snd (lpins (Some l))) -> k_next k0 <= f) ->
  ~ In pf (map snd (lpins (Some l))) ->
  link_live k p po l -> desc_of k p pf = Some (D_obj po') -> k_objs k po' = Some (O_prog img ss cm) ->
  (forall M Z k', evo p E X M Z k0 k' -> keeps k k' -> link_live k' p po l -> I k') ->
  (forall M Z k' l', evo p E X M Z k0 k' -> keeps k k' -> link_live k' p po' l' -> l_hook l' = l_hook l -> l_opts l' = new_opts (l_hook l) (l_opts l) -> I k') ->
  wps F p I (link_update l pf) (fun r k' => (forall f, f < k_next k -> ~ In f (map snd (lpins (Some l))) -> fd_find f (k_fds k') = fd_find f (k_fds k)) /\
    match r with
    | Ok l' => exists M, evo p E X M (map snd (lpins (Some l')) ++ S) k0 k' /\ keeps k k' /\ link_live k' p po' l' /\
        l_hook l' = l_hook l /\ l_opts l' = new_opts (l_hook l) (l_opts l) /\ (forall f, In f (map snd (lpins (Some l'))) -> k_next k0 <= f /\ f <> pf) /\
        (l' = l \/ forall f, In f (map snd (lpins (Some l'))) -> k_next k <= f)
    | Er e => evo p E X [] (map snd (lpins (Some l)) ++ S) k0 k' /\ (forall o v, k_objs k o = Some v -> k_objs k' o = Some v) /\
        (forall f, In f (map snd (lpins (Some l))) -> fd_find f (k_fds k') = fd_find f (k_fds k)) /\ faulty F
    end) k.
Proof.
  intros S0 EV LF NPF LV DP OP HI1 HI2. pose proof (ev_sane _ _ _ _ _ _ _ EV) as SK. pose proof (ev_next _ _ _ _ _ _ _ EV) as NX.
  assert (IK : I k) by (eapply HI1; [exact EV|apply keeps_all; auto|exact LV]).
  unfold link_update, new_opts in *. destruct (hook_flavor (l_hook l)) eqn:FL.
  2:{ (* netfilter *)
      assert (HG : forall Z k', grow p Z k k' -> I k').
      { intros Z k' G. eapply HI1; [eapply evo_grow; [exact EV|exact G]|apply keeps_all; intros o v; apply (grow_obj _ _ _ _ _ _ G SK)|].
        eapply live_keep; [exact LV| |intros q f o v _ _; apply (grow_obj _ _ _ _ _ _ G SK)].
        intros f H. unfold desc_of. rewrite (ev_old _ _ _ _ _ _ _ G f); [reflexivity|]. 
        destruct LV as [(lo & t & _ & D1 & _) L4]. cbn [lpins map snd] in H. destruct (l_extra l) as [fx|].
        - destruct L4 as ((ox & L4) & _). destruct H as [<-|[<-|[]]]; eapply desc_lt; eauto.
        - destruct H as [<-|[]]; eapply desc_lt; eauto. }
      assert (FREF : forall f, In f (map snd (lpins (Some l))) -> f < k_next k).
      { intros f H. destruct LV as [(lo & t & _ & D1 & _) L4]. cbn [lpins map snd] in H. destruct (l_extra l) as [fx|].
        - destruct L4 as ((ox & L4) & _). destruct H as [<-|[<-|[]]]; eapply desc_lt; eauto.
        - destruct H as [<-|[]]; eapply desc_lt; eauto. }
      eapply (wps_link_create F p I pf (l_hook l) (T_nf PF_INET (snd (opt_prios (l_opts l)))) po' img ss cm); [exact SK|exact DP|exact OP|exact IK| |].
      2:{ intros HF e. apply wps_ret; [exact IK|]. split; [auto|]. split; [exact EV|]. split; [auto|]. split; [auto|]. eapply faulty_intro; exact HF. }
      intros k1 f o1 G1 D1 O1 L1 M1. pose proof (ev_sane _ _ _ _ _ _ _ G1) as S1. pose proof (ev_next _ _ _ _ _ _ _ G1) as N1.
      eapply (wps_link_create F p I pf (l_hook l) (T_nf PF_INET6 (snd (opt_prios (l_opts l)))) po' img ss cm); [exact S1|eapply grow_desc; [exact G1|exact SK|exact DP]|eapply grow_obj; [exact G1|exact SK|exact OP]|eapply HG, G1| |].
      2:{ intros HF e. eapply wps_close with (f := f) (S' := []); [exact G1|exact SK|exact M1|intros x [<-|[]]; auto|eapply HG, G1|].
          intros k2 FD _ _ _ G2. apply wps_ret; [eapply HG, G2|].
          split; [intros g L _; apply (ev_old _ _ _ _ _ _ _ G2 g L)|]. split; [exact (evo_grow _ _ _ _ _ _ _ _ _ EV G2)|].
          split; [intros o v; apply (grow_obj _ _ _ _ _ _ G2 SK)|]. split; [intros g H; apply (ev_old _ _ _ _ _ _ _ G2 g (FREF g H))|eapply faulty_intro; exact HF]. }
      intros k2 f6 o2 G2 D2 O2 L2 M2. pose proof (ev_sane _ _ _ _ _ _ _ G2) as S2. pose proof (ev_next _ _ _ _ _ _ _ G2) as N2.
      pose proof (grow_trans _ _ _ _ _ _ G1 G2) as G12. cbn [app] in G12.
      set (l' := mkLink (l_hook l) (swap_prios (l_opts l)) f (Some f6)).
      assert (FN : forall g, In g (map snd (lpins (Some l'))) -> k_next k <= g) by (intros g [<-|[<-|[]]]; cbn; lia).
      assert (LV2 : forall k', (forall g, ~ In g (map snd (lpins (Some l))) -> fd_find g (k_fds k') = fd_find g (k_fds k2)) -> k_objs k' = k_objs k2 -> link_live k' p po' l').
      { intros k' FD OB.
        assert (DD : forall g, In g (map snd (lpins (Some l'))) -> desc_of k' p g = desc_of k2 p g).
        { intros g H. unfold desc_of. rewrite FD; [reflexivity|]. intros Y. specialize (FREF g Y). specialize (FN g H). lia. }
        assert (PR : opt_prios (swap_prios (l_opts l)) = (snd (opt_prios (l_opts l)), fst (opt_prios (l_opts l)))).
        { unfold swap_prios. destruct (opt_prios (l_opts l)). reflexivity. }
        assert (AP : forall fam, attach_point (l_hook l) (swap_prios (l_opts l)) fam = Some (T_nf fam (snd (opt_prios (l_opts l))))).
        { intros fam. unfold attach_point. rewrite FL. unfold opt_prios in PR. destruct (ho_priorities (swap_prios (l_opts l))) as [pr|]; rewrite ?PR; [reflexivity|].
          injection PR as PR1 PR2. cbv beta iota. rewrite PR1. reflexivity. }
        split.
        - exists o1, (T_nf 2 (snd (opt_prios (l_opts l)))). split; [apply AP|]. split; [rewrite DD by (left; reflexivity); exact (grow_desc _ _ _ _ _ _ _ G2 S1 D1)|].
          rewrite OB. exact (grow_obj _ _ _ _ _ _ G2 S1 O1).
        - cbn [l_extra l']. assert (DX : desc_of k' p f6 = Some (D_obj o2)) by (rewrite DD by (right; left; reflexivity); exact D2).
          split; [exists o2; exact DX|]. intros _. exists o2, (T_nf 10 (snd (opt_prios (l_opts l)))). split; [apply AP|]. split; [exact DX|]. rewrite OB. exact O2. }
      assert (KP : forall k', k_objs k' = k_objs k2 -> keeps k k') by (intros k' OB; apply keeps_all; intros o v Y; rewrite OB; exact (grow_obj _ _ _ _ _ _ G12 SK Y)).
      pose proof (evo_grow _ _ _ _ _ _ _ _ _ EV G12) as EV2. cbn [app] in EV2.
      eapply wps_close with (f := l_fd l) (S' := f6 :: f :: opt_fds (l_extra l) ++ S); [exact EV2|exact S0|apply LF; left; reflexivity| |eapply HG, G12|].
      { intros x. cbn [lpins map snd app In]. rewrite in_app_iff. destruct (l_extra l); cbn [opt_map map snd In opt_fds app]; intros H; repeat destruct H as [H|H]; subst; auto 8; destruct H. }
      intros k3 FD3 DI3 OB3 NX3 EV3.
      assert (FINE : forall k4, (forall g, ~ In g (map snd (lpins (Some l))) -> fd_find g (k_fds k4) = fd_find g (k_fds k2)) -> k_objs k4 = k_objs k2 -> evo p E X [] (f6 :: f :: S) k0 k4 ->
        wps F p I (Ret (Ok l')) (fun r k' => (forall f, f < k_next k -> ~ In f (map snd (lpins (Some l))) -> fd_find f (k_fds k') = fd_find f (k_fds k)) /\
          match r with
          | Ok l' => exists M, evo p E X M (map snd (lpins (Some l')) ++ S) k0 k' /\ keeps k k' /\ link_live k' p po' l' /\
              l_hook l' = l_hook l /\ l_opts l' = swap_prios (l_opts l) /\ (forall f, In f (map snd (lpins (Some l'))) -> k_next k0 <= f /\ f <> pf) /\
              (l' = l \/ forall f, In f (map snd (lpins (Some l'))) -> k_next k <= f)
          | Er e => evo p E X [] (map snd (lpins (Some l)) ++ S) k0 k' /\ (forall o v, k_objs k o = Some v -> k_objs k' o = Some v) /\
              (forall f, In f (map snd (lpins (Some l))) -> fd_find f (k_fds k') = fd_find f (k_fds k)) /\ faulty F
          end) k4).
      { intros k4 FD OB4 EV4.
        apply wps_ret; [eapply HI2; [exact EV4|apply KP, OB4|apply LV2; assumption|reflexivity|reflexivity]|].
        split; [intros g L H; rewrite (FD g H), (ev_old _ _ _ _ _ _ _ G12 g L); reflexivity|].
        exists []. split; [eapply evo_incl; [exact EV4|]; intros x; cbn; tauto|]. split; [apply KP, OB4|]. split; [apply LV2; assumption|]. split; [reflexivity|]. split; [reflexivity|].
        split; [|right; exact FN]. intros g H. specialize (FN g H). split; [lia|]. intros ->. pose proof (desc_lt _ _ _ _ SK DP). lia. }
      assert (FD3' : forall g, ~ In g (map snd (lpins (Some l))) -> fd_find g (k_fds k3) = fd_find g (k_fds k2)).
      { intros g H. apply FD3. intros ->. apply H. left. reflexivity. }
      destruct (l_extra l) as [fx|] eqn:EX; cbn [close_opt].
      - eapply wps_close with (f := fx) (S' := f6 :: f :: S); [exact EV3|exact S0| | | |].
        + apply LF. cbn [lpins map snd]. rewrite EX. right. left. reflexivity.
        + intros x. cbn [opt_fds app In]. intros H; repeat destruct H as [H|H]; subst; auto 8.
        + eapply HI2 with (l' := l'); [exact EV3|apply KP, OB3|apply LV2; assumption|reflexivity|reflexivity].
        + intros k4 FD4 DI4 OB4 NX4 EV4. apply FINE; [|congruence|exact EV4].
          intros g H. rewrite FD4; [apply FD3', H|]. intros ->. apply H. cbn [lpins map snd]. rewrite EX. right. left. reflexivity.
      - cbn [pbind]. apply FINE; [exact FD3'|exact OB3|exact EV3]. }
  all: (pose proof LV as [(lo & t & L1 & L2 & L3) L4]; assert (LLT : lo < k_next k) by (eapply (sane_obj _ SK); exact L3);
    assert (LV' : link_live (with_obj k lo (O_link (l_hook l) t po' false)) p po' l)
      by (split; [exists lo, t; split; [exact L1|]; split; [exact L2|]; cbn; apply updN_same|]; destruct (l_extra l) as [fx|]; [|exact L4]; destruct L4 as (L4 & _); split; [exact L4|]; rewrite FL; discriminate);
    assert (KP : keeps k (with_obj k lo (O_link (l_hook l) t po' false)))
      by (intros o v Y; destruct (N.eq_dec o lo) as [->|NO]; [rewrite L3 in Y; injection Y as <-; exact Logic.I|]; destruct v; try exact Logic.I; cbn; rewrite updN_other by exact NO; exact Y);
    pose proof (evo_put _ _ _ _ _ _ _ lo (O_link (l_hook l) t po' false) EV LLT) as EV';
    apply wps_unit; [exact IK| |];
    [intros s; cbn [kdo]; unfold obj_of; rewrite L2, L3, DP, OP; cbn [fst snd ures];
     apply wps_ret; [eapply HI2; [exact EV'|exact KP|exact LV'|reflexivity|reflexivity]|];
     split; [reflexivity|]; eexists; split; [exact EV'|]; split; [exact KP|]; split; [exact LV'|]; split; [reflexivity|]; split; [reflexivity|];
     split; [|left; reflexivity]; intros f H; split; [exact (LF f H)|]; intros ->; contradiction
    |intros HF _ e; apply wps_ret; [exact IK|]; split; [reflexivity|]; split; [exact EV|]; split; [auto|]; split; [reflexivity|]; eapply faulty_intro; exact HF]).
Qed.
