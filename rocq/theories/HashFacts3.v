(** Memory behaviour of the hash set: when it can run out of memory, and what
    reserving guarantees. *)
From Coq Require Import NArith List Bool Arith Lia.
From Verif Require Import Bytes GenModel ListSpec ListModel ListFacts HashSpec HashModel HashFacts HashFacts2.
Import ListNotations.
Local Open Scope res_scope.
Local Open Scope N_scope.

Section Facts.
Context {A : Type} (eqb : A -> A -> bool) (hash : A -> N).
Hypothesis good : good_callbacks eqb hash.
Implicit Types (s : hset A) (l : list (nat * A)) (x : A).

Lemma insert_used nd s x f s' : insert nd s x f = Ok (s', 0) ->
  h_cap s' = h_cap s /\ h_used s' <= h_used s + 1.
Proof.
  unfold insert. destruct (malloc (l_mem (h_list s)) nd) as [p|]; [|discriminate].
  destruct f as [f|]; [|discriminate]. cbn [bind].
  destruct (get_slot (h_slots s) f) as [v|]; [|discriminate]. cbn [bind].
  destruct (match l_tail (h_list s) with Some t => _ | None => _ end) as [h'|]; [|discriminate].
  cbn [bind]. intros E. inversion E; subst. cbn [h_cap h_used]. destruct v; lia.
Qed.

(** Adding a new element to a table with room needs no new table. *)
Lemma hadd_room nd tb s l x p : hrep eqb hash s l -> member eqb (map snd l) x = false ->
  usable l nd = Some p -> h_used s = l_len (h_list s) -> 2 * l_len (h_list s) < h_cap s ->
  exists s', hadd eqb hash nd tb s x = Ok (s', 0) /\ hrep eqb hash s' (l ++ [(p, x)]) /\
    h_used s' = l_len (h_list s') /\ h_cap s' = h_cap s.
Proof.
  intros R M U Hu Hc. unfold hadd.
  destruct (hfind_cases eqb hash good s l x R) as (r & E & S). rewrite E. cbn [bind].
  destruct (fst r) as [i|] eqn:Er.
  { destruct S as (a & d & _ & _ & Hi & Ed). rewrite (member_true eqb l a d x Hi Ed) in M. discriminate. }
  destruct S as [Hnew S].
  assert (h_cap s <= MAX_CAP).
  { destruct (hr_cap _ _ _ _ R) as [->|C]; [unfold MAX_CAP; lia|now apply capacity_max]. }
  destruct (N.leb_spec MAX_CAP (l_len (h_list s))); [lia|].
  rewrite (needs_grow_ok eqb hash s l R). destruct (N.leb_spec (h_cap s) (2 * h_used s)); [lia|].
  destruct (insert_ok eqb hash nd s l x (snd r) R ltac:(lia) ltac:(lia)) as (s' & rc & E2 & I).
  { destruct r as [o1 o2]. cbn [fst snd] in *. subst o1. apply S. lia. }
  destruct I as [(_ & U2 & _)|(-> & q & U2 & R2)]; [congruence|].
  assert (q = p) by congruence. subst q.
  exists s'. split; [assumption|]. split; [assumption|].
  destruct (insert_used nd s x (snd r) s' E2) as [Ec Eu]. split; [|assumption].
  pose proof (elem_le_used (h_slots s')) as Hle.
  rewrite (t_elems _ _ _ _ (hr_table _ _ _ _ R2)), <- (hr_used _ _ _ _ R2) in Hle.
  rewrite (rep_len _ _ (hr_list _ _ _ _ R2)).
  rewrite (rep_len _ _ (hr_list _ _ _ _ R)) in Hu. rewrite app_length in *. cbn [length] in *. lia.
Qed.

Lemma resize_used tb s n s' : resize hash tb s n = Ok (s', 0) ->
  h_used s' = l_len (h_list s) /\ h_list s' = h_list s.
Proof.
  unfold resize. destruct (n <=? l_len (h_list s)); [discriminate|].
  destruct (negb (tb n)); [discriminate|].
  destruct (foreach _ _ _ _ _ _) as [r|]; [|discriminate]. cbn [bind].
  intros E. inversion E. now subst.
Qed.
Lemma hreserve_used tb s n s' : hreserve hash tb s n = Ok (s', 0) ->
  h_used s = l_len (h_list s) -> h_used s' = l_len (h_list s').
Proof.
  unfold hreserve. intros E Hu.
  destruct (n =? 0); [inversion E; now subst|].
  destruct (MAX_CAP <? n); [discriminate E|].
  destruct (_ <=? h_cap s); [inversion E; now subst|].
  destruct (MAX_CAP <? _); [discriminate E|].
  destruct (resize_used _ _ _ _ E) as [H1 H2]. now rewrite H1, H2.
Qed.

(** After reserving [n] slots on a fresh set, [n] additions need no table. *)
Definition adds (tb : N -> bool) (xs : list (nat * A)) : list (hop A) :=
  map (fun e => HAdd (Some (fst e)) tb (snd e)) xs.

Lemma adds_ok tb : forall xs s l n, hrep eqb hash s l -> h_used s = l_len (h_list s) ->
  2 * n <= h_cap s -> N.of_nat (length l + length xs) <= n ->
  NoDup (handles (l ++ xs)) -> distinct eqb (map snd (l ++ xs)) ->
  exists s', hash_calls eqb hash s (adds tb xs) = Ok (s', map (fun _ => HCode 0) xs) /\
    hrep eqb hash s' (l ++ xs).
Proof.
  induction xs as [|[p x] r IH]; intros s l n R Hu Hc Hn Nd D.
  - exists s. rewrite app_nil_r. auto.
  - cbn [adds map hash_calls hash_call fst snd].
    assert (U : usable l (Some p) = Some p).
    { cbn. destruct (in_dec Nat.eq_dec p (handles l)) as [Hi|]; [|reflexivity].
      exfalso. now destruct (nodup_mid l (p, x) r Nd) as (C & _ & _). }
    assert (M : member eqb (map snd l) x = false).
    { rewrite map_app in D. cbn [map snd] in D.
      destruct (distinct_app_inv eqb hash good _ _ _ D) as [_ H].
      apply not_true_is_false. intros C. apply existsb_exists in C as (y & Hy & Ey).
      rewrite H in Ey; [discriminate|]. apply in_app_iff. now left. }
    destruct (hadd_room (Some p) tb s l x p R M U Hu) as (s1 & E1 & R1 & U1 & C1).
    { rewrite (rep_len _ _ (hr_list _ _ _ _ R)). cbn [length] in Hn. lia. }
    rewrite E1. cbn [bind fst snd].
    assert (Eq : (l ++ [(p, x)]) ++ r = l ++ (p, x) :: r) by (now rewrite <- app_assoc).
    destruct (IH s1 (l ++ [(p, x)]) n R1 U1) as (s2 & E2 & R2).
    + now rewrite C1.
    + rewrite app_length. cbn [length] in *. lia.
    + now rewrite Eq.
    + now rewrite Eq.
    + fold (adds tb r). rewrite E2. cbn [bind fst snd]. exists s2. split; [reflexivity|]. now rewrite <- Eq.
Qed.
End Facts.
