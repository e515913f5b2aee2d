(** C47: sets hold what the calls put in them, and nothing else. *)
From Coq Require Import NArith List Bool Arith Lia.
From Verif Require Import Bytes Types GenModel ListSpec ListModel ListFacts HashSpec HashModel HashFacts
  HashFacts2 VecModel VecFacts SetModel SetSpec SetApiFacts SetApiFacts2.
Import ListNotations.
Local Open Scope res_scope.
Local Open Scope N_scope.

(** bf_set_new accepts a key iff it has 1 to 8 components, each usable with "in",
    and a network component is alone. *)
Theorem C47_set_new_accepts : forall name key,
  (exists u, set_new name key = Ok u) <->
  (1 <= length key <= 8)%nat /\ (forall t, In t key -> set_capable t) /\
  ((1 < length key)%nat -> forall t, In t key -> ~ network t).
Proof. exact set_new_iff. Qed.

Theorem C47_set_new_errors : forall name key e, set_new name key = Er e ->
  (key = [] /\ e = EINVAL) \/
  ((8 < length key)%nat /\ e = E2BIG) \/
  ((1 <= length key <= 8)%nat /\ (exists t, In t key /\ ~ set_capable t) /\ e = ENOTSUP) \/
  ((1 < length key <= 8)%nat /\ (forall t, In t key -> set_capable t) /\
   (exists t, In t key /\ network t) /\ e = EINVAL).
Proof. exact set_new_error. Qed.

(** The element size is the sum of the components' sizes, the trie flag tells a
    single network, the set is empty. *)
Theorem C47_set_new_result : forall name key u, set_new name key = Ok u ->
  u_name u = name /\ u_key u = key /\ u_esize u = list_sum (map comp_size key) /\
  (u_trie u = true <-> exists t, key = [t] /\ network t) /\ set_read u = Ok [].
Proof. exact set_new_result. Qed.

(** Whatever the calls made and the allocations that failed: the contents can be
    read, are free of duplicates, and every element has the set's element size. *)
Theorem C47_contents_always_consistent : forall u, set_reachable u ->
  exists l, set_read u = Ok l /\ NoDup l /\ Forall (fun e => length e = u_esize u) l /\
    u_esize u = list_sum (map comp_size (u_key u)) /\
    (set_is_empty u = true <-> l = []).
Proof.
  intros u H. destruct (reachable_urep _ H) as [l R].
  destruct (urep_contents _ _ R) as (H1 & H2 & H3).
  exists (map snd l). split; [assumption|]. split; [assumption|]. split; [assumption|].
  split; [apply key_size_sum; exact (ur_key _ _ R)|].
  rewrite (urep_empty _ _ R). destruct l; cbn; split; congruence.
Qed.

(** bf_set_add_elem: 0 means the element is in the set (and only it was added),
    any other code is -ENOMEM and nothing changed. *)
Theorem C47_add_elem : forall mem nd tb u e, set_reachable u -> length e = u_esize u ->
  exists u' rc l l', set_add_elem mem nd tb u e = Ok (u', rc) /\ same_shape u' u /\
    set_read u = Ok l /\ set_read u' = Ok l' /\
    (rc = 0 /\ l' = (if In_bytes l e then l else l ++ [e]) \/ rc = ENOMEM /\ l' = l).
Proof.
  intros mem nd tb u e H He. destruct (reachable_urep _ H) as [l R].
  destruct (set_add_sized mem nd tb u l e R He) as (u' & rc & l' & E & R' & S2 & S3 & S4 & S1 & C).
  exists u', rc, (map snd l), (map snd l'). split; [assumption|]. split; [repeat split; assumption|].
  split; [now apply set_read_ok|]. split; [now apply set_read_ok|].
  destruct C as [(-> & M & ->)|[(-> & M & p & ->)|(-> & ->)]].
  - left. rewrite M. auto.
  - left. rewrite M, map_app. auto.
  - now right.
Qed.

(** An element buffer shorter than the element size is read past its end: the
    API has no length argument, the caller must match bf_set's elem_size. *)
Theorem C47_short_element_refuted : exists u nd tb e,
  set_reachable u /\ (length e < u_esize u)%nat /\
  set_add_elem true nd tb u e = Er EUB.
Proof.
  destruct (proj2 (set_new_iff None [M_IP4_SADDR])) as [u E].
  { split; [cbn; lia|]. split; [intros t [<-|[]] C; discriminate C|cbn; lia]. }
  exists u, (Some 0%nat), (fun _ => true), [1].
  split; [econstructor; exact E|]. inversion E. split; [cbn; lia|reflexivity].
Qed.

(** bf_set_add_many: mismatching keys are refused and nothing changes; otherwise 0
    means the union, and -ENOMEM that a prefix of the source was added. *)
Theorem C47_add_many : forall nd tb u v, set_reachable u -> set_reachable v ->
  exists u' v' rc l m l', set_add_many nd tb u v = Ok (u', v', rc) /\ same_shape u' u /\
    set_read u = Ok l /\ set_read v = Ok m /\ set_read u' = Ok l' /\
    ((rc = EINVAL /\ u_key u <> u_key v /\ u' = u /\ v' = Some v) \/
     (rc = 0 /\ u_key u = u_key v /\ v' = None /\ l' = union l m) \/
     (rc = ENOMEM /\ u_key u = u_key v /\
      exists m1 m2, m = m1 ++ m2 /\ l' = union l m1)).
Proof.
  intros nd tb u v H1 H2. destruct (reachable_urep _ H1) as [l R]. destruct (reachable_urep _ H2) as [m S].
  destruct (set_add_many_ok nd tb u v l m R S) as (u' & v' & rc & l' & E & R' & _ & _ & C).
  exists u', v', rc, (map snd l), (map snd m), (map snd l').
  split; [assumption|]. split; [eapply add_many_shape; exact E|].
  split; [now apply set_read_ok|]. split; [now apply set_read_ok|]. split; [now apply set_read_ok|].
  destruct C as [(-> & K & -> & ->)|[K [(-> & -> & C)|(-> & m1 & m2 & -> & C)]]]; [auto 8|auto 8|].
  right. right. split; [reflexivity|]. split; [assumption|]. exists (map snd m1), (map snd m2).
  split; [apply map_app|assumption].
Qed.

(** bf_set_remove_many: as above, 0 means the difference, and it cannot fail for
    lack of memory. *)
Theorem C47_remove_many : forall u v, set_reachable u -> set_reachable v ->
  exists u' v' rc l m l', set_remove_many u v = Ok (u', v', rc) /\ same_shape u' u /\
    set_read u = Ok l /\ set_read v = Ok m /\ set_read u' = Ok l' /\
    ((rc = EINVAL /\ u_key u <> u_key v /\ u' = u /\ v' = Some v) \/
     (rc = 0 /\ u_key u = u_key v /\ v' = None /\ l' = difference l m)).
Proof.
  intros u v H1 H2. destruct (reachable_urep _ H1) as [l R]. destruct (reachable_urep _ H2) as [m S].
  destruct (set_remove_many_ok u v l m R S) as (u' & v' & rc & l' & E & R' & _ & _ & C).
  exists u', v', rc, (map snd l), (map snd m), (map snd l').
  split; [assumption|]. split; [eapply remove_many_shape; exact E|].
  split; [now apply set_read_ok|]. split; [now apply set_read_ok|]. split; [now apply set_read_ok|].
  destruct C as [(-> & K & -> & ->)|(K & -> & -> & C)]; auto.
Qed.

(** *** The hypotheses are met *)
Definition ports (es : list (list N)) : res uset :=
  u <- set_new None [M_IP4_PROTO; M_TCP_DPORT] ;
  fold_left (fun a e => x <- a ; r <- set_add_elem true (Some (length (match set_read x with Ok l => l | Er _ => [] end)))
     (fun _ => true) x e ; Ok (fst r)) es (Ok u).

Example C47_ex_contents : exists u, ports [[6; 0; 80]; [6; 1; 187]; [6; 0; 80]] = Ok u /\
  u_esize u = 3%nat /\ set_read u = Ok [[6; 0; 80]; [6; 1; 187]].
Proof. eexists. split; [vm_compute; reflexivity|]. split; vm_compute; reflexivity. Qed.
Example C47_ex_many : exists u v u' u'',
  ports [[6; 0; 80]; [6; 1; 187]] = Ok u /\ ports [[6; 0; 22]; [6; 0; 80]] = Ok v /\
  set_add_many (fun a => Some (a + 10)%nat) (fun _ => true) u v = Ok (u', None, 0) /\
  set_read u' = Ok [[6; 0; 80]; [6; 1; 187]; [6; 0; 22]] /\
  set_remove_many u v = Ok (u'', None, 0) /\ set_read u'' = Ok [[6; 1; 187]].
Proof.
  eexists _, _, _, _. split; [vm_compute; reflexivity|]. split; [vm_compute; reflexivity|].
  split; [vm_compute; reflexivity|]. split; [vm_compute; reflexivity|]. split; vm_compute; reflexivity.
Qed.
Lemma ports_reachable es u : ports es = Ok u -> set_reachable u.
Proof.
  unfold ports. destruct (set_new None [M_IP4_PROTO; M_TCP_DPORT]) as [u0|] eqn:E; [|discriminate]. cbn [bind].
  assert (H : set_reachable u0) by (econstructor; exact E). clear E. revert u0 H.
  induction es as [|e r IH]; intros u0 H; cbn [fold_left].
  - intros E. inversion E. now subst.
  - cbn [bind]. match goal with |- context [set_add_elem true ?nd ?tb u0 e] => destruct (set_add_elem true nd tb u0 e) as [[u1 rc]|] eqn:E end;
    cbn [bind fst].
    + apply IH. eapply SR_add; eassumption.
    + clear. intros E. exfalso. induction r as [|x r IH]; cbn [fold_left] in E; [discriminate E|auto].
Qed.
Example C47_ex_reachable : exists u, ports [[6; 0; 80]] = Ok u /\ set_reachable u.
Proof.
  destruct (ports [[6; 0; 80]]) as [u|e] eqn:E; [|exfalso; revert E; vm_compute; discriminate].
  exists u. split; [reflexivity|]. now apply (ports_reachable [[6; 0; 80]]).
Qed.
Example C47_ex_refused : set_new None [M_IP4_SNET; M_TCP_DPORT] = Er EINVAL /\
  set_new None [M_IP4_SADDR; M_PROBABILITY] = Er ENOTSUP.
Proof. split; reflexivity. Qed.

Print Assumptions C47_set_new_accepts.
Print Assumptions C47_set_new_errors.
Print Assumptions C47_set_new_result.
Print Assumptions C47_contents_always_consistent.
Print Assumptions C47_add_elem.
Print Assumptions C47_short_element_refuted.
Print Assumptions C47_add_many.
Print Assumptions C47_remove_many.
