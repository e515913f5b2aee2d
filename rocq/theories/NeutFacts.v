(** The control plane between taking and releasing locks: it touches only the chain
    directory that the lock is on, and closes only descriptors of its own objects. *)
From Coq Require Import NArith ZArith List Bool Lia.
From Verif Require Import Bytes Types World BpfModel GenModel BytesFacts StrModel SetModel PackModel HookModel KernModel LockModel CtlModel SysSpec SysFacts RelyFacts LockFacts LockFacts2.
Import ListNotations.
Local Open Scope N_scope.

Definition ok_call (d : option fd) (wr : bool) (S : fd -> Prop) (c : call) : Prop :=
  match c with
  | C_close f => S f
  | C_unlink x _ | C_rename_pin x _ _ | C_pin x _ _ => d = Some x /\ wr = true
  | C_get x _ => d = Some x
  | C_open_bpffs | C_open_pindir _ | C_listdir _ | C_flock _ _ | C_opendir _ _ | C_mkdir _ _ | C_rename _ _ _ | C_rmdir _ _ => False
  | _ => True
  end.
Definition gives (c : call) (r : reply) (f : fd) : Prop :=
  r = R_fd f /\ match c with
                | C_get _ _ | C_map_create _ | C_prog_load _ _ _ | C_open_cgroup _ | C_link_create _ _ _ | C_dup _ => True
                | _ => False
                end.
Definition plus (S T : fd -> Prop) : fd -> Prop := fun f => S f \/ T f.

Fixpoint neut {A} (d : option fd) (wr : bool) (S : fd -> Prop) (pr : prog A) (Q : A -> (fd -> Prop) -> Prop) : Prop :=
  match pr with
  | Ret a => Q a S
  | Do c f => ok_call d wr S c /\ forall r, neut d wr (plus S (gives c r)) (f r) Q
  end.

Lemma neut_mono {A} d wr (pr : prog A) : forall (S : fd -> Prop) (Q Q' : A -> (fd -> Prop) -> Prop),
  (forall a (T : fd -> Prop), (forall f, S f -> T f) -> Q a T -> Q' a T) -> neut d wr S pr Q -> neut d wr S pr Q'.
Proof.
  induction pr as [a|c f IH]; intros S Q Q' HQ; cbn [neut].
  - apply HQ. auto.
  - intros [H1 H2]. split; [exact H1|]. intros r. apply IH with (Q := Q); [|apply H2].
    intros a T HT. apply HQ. intros x Hx. apply HT. left. exact Hx.
Qed.

Lemma neut_bind {A B} d wr (m : prog A) (f : A -> prog B) : forall S Q,
  neut d wr S m (fun a T => neut d wr T (f a) Q) -> neut d wr S (pbind m f) Q.
Proof.
  induction m as [a|c g IH]; intros S Q; cbn [neut pbind].
  - auto.
  - intros [H1 H2]. split; [exact H1|]. intros r. apply IH, H2.
Qed.

(** Sequencing with a specification of the first part. *)
Lemma neut_seq {A B} d wr (m : prog A) (f : A -> prog B) (S : fd -> Prop) (P : A -> (fd -> Prop) -> Prop) Q :
  neut d wr S m P -> (forall a (T : fd -> Prop), (forall x, S x -> T x) -> P a T -> neut d wr T (f a) Q) ->
  neut d wr S (pbind m f) Q.
Proof. intros H1 H2. apply neut_bind. eapply neut_mono; [|exact H1]. exact H2. Qed.

Lemma neut_weaken {A} d wr (pr : prog A) : forall (S S' : fd -> Prop) (Q : A -> (fd -> Prop) -> Prop),
  (forall f, S f -> S' f) -> (forall a (T T' : fd -> Prop), (forall f, T f -> T' f) -> Q a T -> Q a T') ->
  neut d wr S pr Q -> neut d wr S' pr Q.
Proof.
  induction pr as [a|c f IH]; intros S S' Q HS HQ; cbn [neut].
  - apply HQ, HS.
  - intros [H1 H2]. split.
    + destruct c; cbn [ok_call] in *; auto.
    + intros r. eapply IH; [|exact HQ|apply H2]. intros x [X|X]; [left; auto|right; exact X].
Qed.

(** ** Soundness *)
Lemma gives_neutral p k c d f : kinv k -> gives c (snd (ksys k p c d)) f -> neutral (fst (ksys k p c d)) p f.
Proof.
  intros K [R G].
  assert (NF : forall k0 d0, kinv k0 -> lockish d0 = false -> snd (new_fd k0 p d0) = R_fd f -> neutral (fst (new_fd k0 p d0)) p f).
  { intros k0 d0 K0 L X. cbn [new_fd snd] in X. injection X as <-. split; [cbn; lia|].
    intros e. rewrite desc_of_new_fd by exact K0. rewrite !N.eqb_refl. intros X. injection X as <-. exact L. }
  assert (NO : forall v, snd (new_obj k p v) = R_fd f -> neutral (fst (new_obj k p v)) p f).
  { intros v X. unfold new_obj in *. apply NF; [|reflexivity|exact X]. apply (kinv_same k); cbn; auto. lia. }
  destruct (ksys_kdo k p c d) as [E|[s E]]; rewrite E in *; [discriminate R|]. clear E.
  destruct c; try contradiction G; cbn [kdo] in *.
  - destruct (dir_of k p d0); [|discriminate R]. destruct (pin_find p0 (k_dirs k i)); [|discriminate R]. apply NF; auto.
  - destruct o; try discriminate R; apply NO, R.
  - destruct (all_some (oid_of k p) sets); [|discriminate R]. destruct (oid_of k p cmap); [|discriminate R]. apply NO, R.
  - apply NF; auto.
  - destruct (obj_of k p prog) as [[o []]|]; try discriminate R. apply NO, R.
  - destruct (oid_of k p f0); [|discriminate R]. apply NF; auto.
Qed.

Lemma neut_wpc {A} p lk d wr (pr : prog A) : forall S Q k,
  neut d wr S pr Q -> st p lk S k ->
  (forall x, d = Some x -> exists n m, lk_chain lk = Some (x, n, m) /\ (wr = true -> m = L_WRITE)) ->
  wpc p pr (fun a k' => exists T, st p lk T k' /\ Q a T) k.
Proof.
  induction pr as [a|c f IH]; intros S Q k HN H HD; cbn [neut] in HN.
  - eapply wpc_ret_st; [exact H|]. intros k1 H1 _ _. exists S. split; assumption.
  - destruct HN as [HC HF]. apply wpc_do. intros k1 R. pose proof (st_rely _ _ _ _ _ R H) as H1.
    assert (DW : forall x, d = Some x -> wr = true ->
              exists i m, desc_of k1 p x = Some (D_dir i m) /\ pin_locked k1 p /\ dir_ex k1 p i).
    { intros x X W. destruct (HD x X) as (n & m & HL & HW).
      destruct (hl_chain _ _ _ (st_held _ _ _ _ H1) _ _ _ HL) as (A1 & A2 & A3 & i & A4 & _).
      exists i, m. split; [exact A4|]. split; [exact (held_pin_locked _ _ _ (st_held _ _ _ _ H1) A3 A2)|]. exists x. rewrite A4, (HW W). reflexivity. }
    assert (DR : forall x, d = Some x ->
              exists i m, desc_of k1 p x = Some (D_dir i m) /\ pin_locked k1 p /\ dir_locked k1 p i).
    { intros x X. destruct (HD x X) as (n & m & HL & HW).
      destruct (hl_chain _ _ _ (st_held _ _ _ _ H1) _ _ _ HL) as (A1 & A2 & A3 & i & A4 & _).
      exists i, m. split; [exact A4|]. split; [exact (held_pin_locked _ _ _ (st_held _ _ _ _ H1) A3 A2)|]. exists x, m. auto. }
    split.
    + destruct c; cbn [ok_call allowed] in *; try exact Logic.I; try contradiction HC.
      * destruct HC as [HC1 HC2]. apply DW; assumption.
      * destruct HC as [HC1 HC2]. apply DW; assumption.
      * destruct HC as [HC1 HC2]. apply DW; assumption.
      * apply DR; assumption.
    + intros x.
      assert (H2 : st p lk S (fst (ksys k1 p c x))).
      { destruct (is_lockcall c) eqn:L; [|apply st_sys; auto; destruct c; try reflexivity; contradiction HC].
        destruct c; try discriminate L; cbn [ok_call] in HC; [contradiction HC|].
        apply st_close; [|exact H1]. eapply neutral_not_held; [exact H1|]. apply (st_neutral _ _ _ _ H1), HC. }
      apply IH with (S := plus S (gives c (snd (ksys k1 p c x)))); [apply HF| |exact HD].
      constructor; [exact (st_inv _ _ _ _ H2)|exact (st_held _ _ _ _ H2)|].
      intros g [G|G]; [apply (st_neutral _ _ _ _ H2), G|].
      apply gives_neutral; [exact (st_inv _ _ _ _ H1)|exact G].
Qed.

(** ** The functions of CtlModel.v *)
Definition ofd (o : option fd) : list fd := match o with Some f => [f] | None => [] end.
Definition link_fds (o : option link) : list fd := match o with Some l => l_fd l :: ofd (l_extra l) | None => [] end.
Definition h_fds (h : handle) : list fd := ofd (h_prog h) ++ link_fds (h_link h) ++ map snd (h_maps h).
Definition hok (S : fd -> Prop) (h : handle) : Prop := forall f, In f (h_fds h) -> S f.

Record hokr (S : fd -> Prop) (h : handle) : Prop := {
  ho_prog : forall f, h_prog h = Some f -> S f;
  ho_link : forall l, h_link h = Some l -> S (l_fd l) /\ forall f, l_extra l = Some f -> S f;
  ho_cmap : forall f, h_cmap h = Some f -> S f;
  ho_pmap : forall f, h_pmap h = Some f -> S f;
  ho_lmap : forall f, h_lmap h = Some f -> S f;
  ho_smap : forall f, h_smap h = Some f -> S f;
  ho_sets : forall q f, In (q, f) (h_sets h) -> S f
}.

Lemma hokr_mono (S T : fd -> Prop) h : (forall f, S f -> T f) -> hokr S h -> hokr T h.
Proof.
  intros HS [A B C D E F G]. constructor; eauto. intros l X. destruct (B l X) as [B1 B2]. split; auto.
Qed.

Lemma hokr_maps S h : hokr S h -> forall f, In f (map snd (h_maps h)) -> S f.
Proof.
  intros [A B C D E F G] f H. unfold h_maps in H. rewrite !map_app in H.
  repeat (apply in_app_or in H; destruct H as [H|H]);
  try (destruct (h_cmap h); destruct H as [<-|[]]; auto; fail).
  - destruct (h_cmap h); [|contradiction H]. destruct H as [<-|[]]. auto.
  - destruct (h_pmap h); [|contradiction H]. destruct H as [<-|[]]. auto.
  - destruct (h_lmap h); [|contradiction H]. destruct H as [<-|[]]. auto.
  - destruct (h_smap h); [|contradiction H]. destruct H as [<-|[]]. auto.
  - apply in_map_iff in H. destruct H as ([q x] & <- & H). eauto.
Qed.

Definition anyq {A} : A -> (fd -> Prop) -> Prop := fun _ _ => True.

Lemma neut_close_all d wr l : forall S : fd -> Prop, (forall f, In f l -> S f) -> neut d wr S (close_all l) anyq.
Proof.
  induction l as [|f l IH]; intros S H; cbn [close_all neut sys_ pbind]; [exact Logic.I|].
  split; [apply H; left; reflexivity|]. intros r. apply IH. intros g G. left. apply H. right. exact G.
Qed.
Lemma neut_close_opt d wr (S : fd -> Prop) o : (forall f, o = Some f -> S f) -> neut d wr S (close_opt o) anyq.
Proof. intros H. destruct o; cbn [close_opt neut sys_]; [|exact Logic.I]. split; [exact (H _ eq_refl)|]. intros r. exact Logic.I. Qed.
Lemma neut_link_free d wr (S : fd -> Prop) o : (forall l, o = Some l -> S (l_fd l) /\ forall f, l_extra l = Some f -> S f) -> neut d wr S (link_free o) anyq.
Proof.
  intros H. destruct o as [l|]; [|exact Logic.I]. destruct (H l eq_refl) as [A B]. cbn [link_free sys_ pbind neut].
  split; [exact A|]. intros r. apply neut_close_opt. intros f F. left. auto.
Qed.
Lemma neut_handle_free d wr S h : hokr S h -> neut d wr S (handle_free h) anyq.
Proof.
  intros H. unfold handle_free. eapply neut_seq; [apply neut_close_opt; apply (ho_prog _ _ H)|].
  intros [] T HT _. eapply neut_seq; [apply neut_link_free; apply (ho_link _ _ (hokr_mono _ _ _ HT H))|].
  intros [] T' HT' _. apply neut_close_all. apply hokr_maps. eapply hokr_mono; [|exact H]. auto.
Qed.

(** Solve goals about calls one after the other. *)
Ltac nt :=
  repeat first
  [ progress cbn [neut sys sys_ sys_fd sys_unit pbind ok_call anyq]
  | match goal with
    | |- _ /\ _ => split
    | |- True => exact Logic.I
    | |- forall r : reply, _ => intro
    | |- neut _ _ _ (match ?x with _ => _ end) _ => destruct x
    | |- neut _ _ _ (pbind (match ?x with _ => _ end) _) _ => destruct x
    | |- ?a = ?a => reflexivity
    | |- anyq _ _ => exact Logic.I
    end ].

Lemma neut_link_unpin d wr S x : d = Some x -> wr = true -> neut d wr S (link_unpin x) anyq.
Proof. intros -> ->. unfold link_unpin. nt. Qed.
Lemma neut_link_pin d wr S x l : d = Some x -> wr = true -> neut d wr S (link_pin l x) anyq.
Proof.
  intros -> ->. unfold link_pin, link_unpin. nt.
Qed.
Lemma neut_unpin_maps d wr x : d = Some x -> wr = true -> forall l S, neut d wr S (unpin_maps x l) anyq.
Proof. intros -> ->. induction l as [|[q f] l IH]; intros S; cbn [unpin_maps]; nt. apply IH. Qed.
Lemma neut_handle_unpin d wr S x h : d = Some x -> wr = true -> neut d wr S (handle_unpin h x) anyq.
Proof.
  intros E W. unfold handle_unpin. eapply neut_seq; [apply neut_unpin_maps; assumption|]. intros [] T _ _.
  eapply neut_seq with (P := anyq).
  - destruct (h_link h); [apply neut_link_unpin; assumption|exact Logic.I].
  - intros [] T' _ _. subst. nt.
Qed.
Lemma neut_pin_maps d wr x : d = Some x -> wr = true -> forall l S, neut d wr S (pin_maps x l) anyq.
Proof. intros -> ->. induction l as [|[q f] l IH]; intros S; cbn [pin_maps]; nt; apply IH. Qed.
Lemma neut_handle_pin d wr S x h : d = Some x -> wr = true -> neut d wr S (handle_pin h x) anyq.
Proof.
  intros E W. unfold handle_pin.
  assert (U : forall T (e : N), neut d wr T (pbind (handle_unpin h x) (fun _ => Ret (@Er unit e))) anyq).
  { intros T e. eapply neut_seq; [apply neut_handle_unpin; assumption|]. intros; exact Logic.I. }
  eapply neut_seq with (P := anyq).
  { unfold pin_prog. destruct (h_prog h); [subst; nt|exact Logic.I]. }
  intros [[]|e] T _ _; [|apply U].
  eapply neut_seq; [apply neut_pin_maps; assumption|]. intros [[]|e] T' _ _; [|apply U].
  destruct (h_link h) as [l|]; [|exact Logic.I].
  eapply neut_seq; [apply neut_link_pin; eassumption|]. intros [[]|e] T2 _ _; [exact Logic.I|apply U].
Qed.

(** Programs whose calls are all in the "True" part of [ok_call]. *)
Lemma neut_sys_fd d wr S c : ok_call d wr S c ->
  match c with C_get _ _ | C_map_create _ | C_prog_load _ _ _ | C_open_cgroup _ | C_link_create _ _ _ | C_dup _ => True | _ => False end ->
  neut d wr S (sys_fd c) (fun r T => forall f, r = Ok f -> T f).
Proof.
  intros H G. cbn [sys_fd neut]. split; [exact H|]. intros r.
  destruct r; cbn [neut]; intros g X; try discriminate X. injection X as <-. right. split; [reflexivity|exact G].
Qed.

Lemma neut_alloc {B} d wr (S : fd -> Prop) (f : res unit -> prog B) Q :
  (forall r (T : fd -> Prop), (forall x, S x -> T x) -> neut d wr T (f r) Q) -> neut d wr S (pbind (sys_unit C_alloc) f) Q.
Proof.
  intros H. apply neut_seq with (P := anyq).
  - nt.
  - intros r T HT _. apply H, HT.
Qed.

Definition lok (S : fd -> Prop) (l : link) : Prop := S (l_fd l) /\ forall f, l_extra l = Some f -> S f.
Lemma lok_mono (S T : fd -> Prop) l : (forall f, S f -> T f) -> lok S l -> lok T l.
Proof. intros H [A B]. split; auto. Qed.

Lemma neut_link_new d wr S h o pf : neut d wr S (link_new h o pf) (fun r T => forall l, r = Ok (Some l) -> lok T l).
Proof.
  unfold link_new. apply neut_alloc. intros [[]|e] T HT; [|cbn [neut]; discriminate].
  assert (ONE : forall U c, ok_call d wr U c ->
      match c with C_get _ _ | C_map_create _ | C_prog_load _ _ _ | C_open_cgroup _ | C_link_create _ _ _ | C_dup _ => True | _ => False end ->
      neut d wr U (pbind (sys_fd c) (fun r => match r with Er e => Ret (Er e) | Ok f => Ret (Ok (Some (mkLink h o f None))) end))
        (fun r T => forall l, r = Ok (Some l) -> lok T l)).
  { intros U c H1 H2. eapply neut_seq; [apply neut_sys_fd; assumption|]. intros [f|e] V HV X; cbn [neut]; intros l E; [|discriminate E].
    injection E as <-. split; [apply X; reflexivity|discriminate]. }
  destruct (hook_flavor h).
  - apply ONE; exact Logic.I.
  - eapply neut_seq; [apply neut_sys_fd; exact Logic.I|]. intros [f|e] U HU X; [|cbn [neut]; discriminate].
    eapply neut_seq; [apply neut_sys_fd; exact Logic.I|]. intros [f6|e] V HV X6.
    + cbn [neut]. intros l E. injection E as <-. split; [apply HV, X; reflexivity|]. intros g G. injection G as <-. apply X6; reflexivity.
    + nt; [apply HV, X; reflexivity|discriminate].
  - unfold try_attach_xdp. eapply neut_seq with (P := fun r T => forall f, r = Ok f -> T f).
    + eapply neut_seq; [apply neut_sys_fd; exact Logic.I|]. intros [f|e] U HU X; [exact X|].
      destruct (e =? ENOTSUP); [apply neut_sys_fd; exact Logic.I|cbn [neut]; discriminate].
    + intros [f|e] V HV X; cbn [neut]; intros l E; [|discriminate E].
      injection E as <-. split; [apply X; reflexivity|discriminate].
  - destruct (ho_cgpath o) as [path|]; [|cbn [neut]; discriminate].
    eapply neut_seq; [apply neut_sys_fd; exact Logic.I|]. intros [cf|e] U HU X; [|cbn [neut]; discriminate].
    eapply neut_seq; [apply neut_sys_fd; exact Logic.I|]. intros [f|e] V HV X6; cbn [sys_ pbind neut];
      (split; [apply HV, X; reflexivity|]); intros r l E; [|discriminate E].
    injection E as <-. split; [left; apply X6; reflexivity|discriminate].
  - destruct (ho_cgpath o) as [path|]; [|cbn [neut]; discriminate].
    eapply neut_seq; [apply neut_sys_fd; exact Logic.I|]. intros [cf|e] U HU X; [|cbn [neut]; discriminate].
    eapply neut_seq; [apply neut_sys_fd; exact Logic.I|]. intros [f|e] V HV X6; cbn [sys_ pbind neut];
      (split; [apply HV, X; reflexivity|]); intros r l E; [|discriminate E].
    injection E as <-. split; [left; apply X6; reflexivity|discriminate].
Qed.

Lemma neut_link_restore d wr S x hk o : d = Some x ->
  neut d wr S (link_restore x hk o) (fun r T => forall l, r = Ok l -> lok T l).
Proof.
  intros E. unfold link_restore. apply neut_alloc. intros [[]|e] T HT; [|cbn [neut]; discriminate].
  eapply neut_seq; [apply neut_sys_fd; [exact E|exact Logic.I]|]. intros [f|e] U HU X; [|cbn [neut]; discriminate].
  eapply neut_seq; [apply neut_sys_fd; [exact E|exact Logic.I]|]. intros [fx|e] V HV X6.
  - cbn [neut]. intros l L. injection L as <-. split; [apply HV, X; reflexivity|]. intros g G. injection G as <-. apply X6; reflexivity.
  - destruct (e =? ENOENT).
    + cbn [neut]. intros l L. injection L as <-. split; [apply HV, X; reflexivity|discriminate].
    + nt; [apply HV, X; reflexivity|discriminate].
Qed.

Lemma neut_link_update d wr S l pf : lok S l -> neut d wr S (link_update l pf) (fun r T => forall l', r = Ok l' -> lok T l').
Proof.
  intros [L1 L2]. unfold link_update.
  assert (G : neut d wr S (pbind (sys_unit (C_link_update (l_fd l) pf)) (fun r => match r with Er e => Ret (Er e) | Ok _ => Ret (Ok l) end))
     (fun r T => forall l', r = Ok l' -> lok T l')).
  { eapply neut_seq with (P := anyq); [nt|]. intros [[]|e] T HT _; cbn [neut]; intros l' E; [|discriminate E].
    injection E as <-. split; auto. }
  destruct (hook_flavor (l_hook l)); try exact G. clear G.
  eapply neut_seq; [apply neut_sys_fd; exact Logic.I|]. intros [f|e] U HU X; [|cbn [neut]; discriminate].
  eapply neut_seq; [apply neut_sys_fd; exact Logic.I|]. intros [f6|e] V HV X6.
  - cbn [sys_ pbind neut]. split; [apply HV, HU, L1|]. intros r. eapply neut_seq; [apply neut_close_opt|].
    + intros g G. left. apply HV, HU, L2, G.
    + intros [] W HW _. cbn [neut]. intros l' E. injection E as <-.
      split; [apply HW; left; apply HV, X; reflexivity|]. intros g G. injection G as <-. apply HW. left. apply X6; reflexivity.
  - nt; [apply HV, X; reflexivity|discriminate].
Qed.

Lemma neut_map_restore d wr S x q b : d = Some x ->
  neut d wr S (map_restore x q b) (fun r T => forall f, r = Ok (Some f) -> T f).
Proof.
  intros E. unfold map_restore. destruct b; [|cbn [neut]; discriminate].
  apply neut_alloc. intros [[]|e] T HT; [|cbn [neut]; discriminate].
  eapply neut_seq; [apply neut_sys_fd; [exact E|exact Logic.I]|]. intros [f|e] U HU X; cbn [neut]; intros g G; [|discriminate G].
  injection G as <-. apply X; reflexivity.
Qed.

Definition hres (r : res handle) (T : fd -> Prop) : Prop := forall h, r = Ok h -> hokr T h.

Lemma neut_free_er {A} d wr S h e (Q : res A -> (fd -> Prop) -> Prop) :
  hokr S h -> (forall T, Q (Er e) T) -> neut d wr S (pbind (handle_free h) (fun _ => Ret (Er e))) Q.
Proof.
  intros H HQ. eapply neut_seq; [apply neut_handle_free; exact H|]. intros [] T _ _. cbn [neut]. apply HQ.
Qed.

Lemma neut_sets_restore d wr x : d = Some x -> forall l S h, hokr S h -> neut d wr S (sets_restore x l h) hres.
Proof.
  intros E. induction l as [|q l IH]; intros S h H; cbn [sets_restore].
  - cbn [neut]. intros h' X. injection X as <-. exact H.
  - eapply neut_seq; [apply neut_map_restore; exact E|]. intros [[f|]|e] T HT X.
    + apply IH. destruct (hokr_mono _ _ _ HT H) as [A1 A2 A3 A4 A5 A6 A7].
      constructor; cbn [h_prog h_link h_cmap h_pmap h_lmap h_smap h_sets]; auto.
      intros q' g G. apply in_app_or in G. destruct G as [G|[G|[]]]; [eauto|]. injection G as _ <-. apply X; reflexivity.
    + cbn [neut]. intros h' Y. injection Y as <-. eapply hokr_mono; eauto.
    + apply neut_free_er; [eapply hokr_mono; eauto|intros U; discriminate].
Qed.

(** Follow the inclusions between the sets of known descriptors. *)
Ltac up :=
  match goal with
  | |- _ => assumption
  | H : forall y, ?c = Some y -> ?T y, E : ?c = Some ?x |- ?T ?x => exact (H x E)
  | H : forall f, ?S f -> ?T f |- ?T _ => apply H; up
  end.
Lemma neut_handle_restore d wr S x hd : d = Some x -> neut d wr S (handle_restore x hd) hres.
Proof.
  intros E. unfold handle_restore. apply neut_alloc. intros [[]|e] T0 HT0; [|cbn [neut]; intros h X; discriminate X].
  eapply neut_seq; [apply neut_sys_fd; [exact E|exact Logic.I]|]. intros [pf|e] T1 HT1 P1; [|cbn [neut]; intros h X; discriminate X].
  specialize (P1 pf eq_refl).
  assert (HX : forall (T : fd -> Prop) l c pm lm sm, T pf -> (forall x, l = Some x -> lok T x) -> (forall f, c = Some f -> T f) ->
     (forall f, pm = Some f -> T f) -> (forall f, lm = Some f -> T f) -> (forall f, sm = Some f -> T f) ->
     hokr T (mkH (Some pf) l c pm lm sm [])).
  { intros. constructor; cbn [h_prog h_link h_cmap h_pmap h_lmap h_smap h_sets]; auto.
    - intros f X. injection X as <-. assumption.
    - intros q f []. }
  eapply neut_seq with (P := fun r T => forall l, r = Ok (Some l) -> lok T l).
  { destruct (hd_link hd) as [[hk o]|]; [|cbn [neut]; discriminate].
    eapply neut_seq; [apply neut_link_restore; exact E|]. intros [l|e] T HT X; cbn [neut]; intros l' Y; [|discriminate Y].
    injection Y as <-. apply X; reflexivity. }
  intros [l|e] T2 HT2 P2.
  2:{ apply neut_free_er; [|intros U h X; discriminate X]. apply HX; try discriminate. auto. }
  assert (Q2 : forall y, l = Some y -> lok T2 y) by (intros y ->; apply P2; reflexivity). clear P2.
  cbn [set_link h_prog h_link h_cmap h_pmap h_lmap h_smap h_sets].
  eapply neut_seq; [apply neut_map_restore; exact E|]. intros [c|e] T3 HT3 P3.
  2:{ apply neut_free_er; [|intros U h X; discriminate X]. apply HX; try discriminate; try (intros y Y; eapply lok_mono; [|apply Q2, Y]; intros); up. }
  assert (Q3 : forall y, c = Some y -> T3 y) by (intros y ->; apply P3; reflexivity). clear P3.
  eapply neut_seq; [apply neut_map_restore; exact E|]. intros [pm|e] T4 HT4 P4.
  2:{ apply neut_free_er; [|intros U h X; discriminate X]. apply HX; try discriminate; try (intros y Y; eapply lok_mono; [|apply Q2, Y]; intros); try (intros y Y; up; fail); up. }
  assert (Q4 : forall y, pm = Some y -> T4 y) by (intros y ->; apply P4; reflexivity). clear P4.
  eapply neut_seq; [apply neut_map_restore; exact E|]. intros [lm|e] T5 HT5 P5.
  2:{ apply neut_free_er; [|intros U h X; discriminate X]. apply HX; try discriminate; try (intros y Y; eapply lok_mono; [|apply Q2, Y]; intros); try (intros y Y; up; fail); up. }
  assert (Q5 : forall y, lm = Some y -> T5 y) by (intros y ->; apply P5; reflexivity). clear P5.
  eapply neut_seq; [apply neut_map_restore; exact E|]. intros [sm|e] T6 HT6 P6.
  2:{ apply neut_free_er; [|intros U h X; discriminate X]. apply HX; try discriminate; try (intros y Y; eapply lok_mono; [|apply Q2, Y]; intros); try (intros y Y; up; fail); up. }
  assert (Q6 : forall y, sm = Some y -> T6 y) by (intros y ->; apply P6; reflexivity). clear P6.
  apply neut_sets_restore; [exact E|]. apply HX; try (intros y Y; eapply lok_mono; [|apply Q2, Y]; intros); try (intros y Y; up; fail); up.
Qed.
