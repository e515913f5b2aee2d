(** C14 (hash set) and C15 (list, vector): the containers behave like the
    mathematical objects they stand for, over every history of calls. *)
From Coq Require Import NArith List Bool Arith Lia.
From Verif Require Import Bytes GenModel ListSpec ListModel ListFacts HashSpec HashModel HashFacts
  HashFacts2 HashFacts3 VecSpec VecModel VecFacts.
Import ListNotations.
Local Open Scope res_scope.
Local Open Scope N_scope.

Definition no_cells {A} : cells A := fun _ => None.

(** *** C14 *)

(** Whatever the calls, the allocator and the hash function, no call touches
    freed or foreign memory, every answer is the one an insertion-ordered set
    gives, no two stored elements are equal, and iterating yields the contents in
    insertion order. *)
Theorem C14_hashset_is_a_set : forall A (eqb : A -> A -> bool) (hash : A -> N) (os : list (hop A)),
  good_callbacks eqb hash ->
  exists s ans l,
    hash_calls eqb hash (hash_init no_cells) os = Ok (s, ans) /\
    hsteps eqb [] os ans l /\ distinct eqb l /\ hread s = Ok l.
Proof.
  intros A eqb hash os G.
  destruct (hash_calls_ok eqb hash G os (hash_init no_cells) []
              (hrep_init eqb hash _ (fun _ => eq_refl)))
    as (s & ans & l & E & R & S).
  exists s, ans, (map snd l). split; [exact E|]. split; [exact S|].
  split; [exact (hr_dist _ _ _ _ R)|].
  unfold hread. rewrite (list_read_ok _ _ (hr_list _ _ _ _ R)). reflexivity.
Qed.

(** An addition of a new element fails only when the allocator refuses or the
    table has 2^60 slots. *)
Theorem C14_add_refused_only_without_memory :
  forall A (eqb : A -> A -> bool) (hash : A -> N) (os : list (hop A)) s ans p x,
  good_callbacks eqb hash ->
  hash_calls eqb hash (hash_init no_cells) os = Ok (s, ans) ->
  l_mem (h_list s) p = None -> h_cap s < 2 ^ 60 ->
  exists s' a, hash_call eqb hash s (HAdd (Some p) (fun _ => true) x) = Ok (s', HCode a) /\
    (a = 0 \/ a = EEXIST).
Proof.
  intros A eqb hash os s ans p x G E Hp Hc.
  destruct (hash_calls_ok eqb hash G os (hash_init no_cells) []
              (hrep_init eqb hash _ (fun _ => eq_refl)))
    as (s0 & ans0 & l & E0 & R & _).
  rewrite E in E0. inversion E0; subst s0 ans0.
  destruct (hadd_ok eqb hash G (Some p) (fun _ => true) s l x R) as (s' & rc & l' & E1 & R' & C).
  cbn [hash_call]. rewrite E1. cbn [bind fst snd]. exists s', rc. split; [reflexivity|].
  destruct C as [(-> & _)|[(-> & _ & _ & C)|(-> & _)]]; [now right| |now left].
  exfalso. destruct C as [C|[[n C]|C]]; [|discriminate|change MAX_CAP with (2 ^ 60) in C; lia].
  rewrite <- (usable_malloc _ _ _ (hr_list _ _ _ _ R)) in C. cbn in C. rewrite Hp in C. discriminate.
Qed.

(** bf_hashset_reserve(n) on a new set: n additions then need no further table,
    even if the allocator would refuse every one. *)
Theorem C14_reserve_is_enough : forall A (eqb : A -> A -> bool) (hash : A -> N) n (xs : list (nat * A)),
  good_callbacks eqb hash -> n <= 2 ^ 59 -> N.of_nat (length xs) <= n ->
  NoDup (map fst xs) -> distinct eqb (map snd xs) ->
  exists s, hash_calls eqb hash (hash_init no_cells)
      (HReserve (fun _ => true) n :: map (fun e => HAdd (Some (fst e)) (fun _ => false) (snd e)) xs)
    = Ok (s, HCode 0 :: map (fun _ => HCode 0) xs) /\ hread s = Ok (map snd xs).
Proof.
  intros A eqb hash n xs G Hn Hl Nd D.
  pose proof (hrep_init eqb hash no_cells (fun _ => eq_refl)) as R0.
  destruct (hreserve_ok eqb hash (fun _ => true) (hash_init no_cells) [] n R0)
    as (s1 & rc & E & R1 & C & C1 & C2).
  assert (rc = 0) as ->.
  { destruct C as [|C]; [assumption|]. destruct (C1 C) as [_ [[m H]|H]]; [discriminate|lia]. }
  cbn [hash_calls hash_call]. rewrite E. cbn [bind fst snd].
  destruct (adds_ok eqb hash G (fun _ => false) xs s1 [] n R1) as (s2 & E2 & R2).
  - eapply hreserve_used; [exact E|reflexivity].
  - auto.
  - cbn [length]. lia.
  - exact Nd.
  - exact D.
  - unfold adds in E2. rewrite E2. cbn [bind fst snd]. exists s2. split; [reflexivity|].
    unfold hread. rewrite (list_read_ok _ _ (hr_list _ _ _ _ R2)). reflexivity.
Qed.

Example C14_case :
  good_callbacks N.eqb (fun x => x mod 3) /\
  exists s, hash_calls N.eqb (fun x => x mod 3) (hash_init no_cells)
    [ HAdd (Some 5%nat) (fun _ => true) 9; HAdd (Some 6%nat) (fun _ => true) 3;
      HAdd (Some 7%nat) (fun _ => true) 4; HAdd (Some 8%nat) (fun _ => true) 3;
      HDelete 9; HContains 3; HAdd (Some 5%nat) (fun _ => true) 6; HRead; HTake 4; HSize ] =
    Ok (s, [ HCode 0; HCode 0; HCode 0; HCode EEXIST; HFreed 0 [9]; HBool true; HCode 0;
             HSaw [3; 4; 6]; HTook 0 (Some 4); HNum 2 ]).
Proof.
  split.
  - split; [apply N.eqb_refl|]. split; [intros x y H; now rewrite N.eqb_sym|].
    split; [intros x y z; rewrite !N.eqb_eq; congruence|].
    intros x y H. apply N.eqb_eq in H. now subst.
  - eexists. vm_compute. reflexivity.
Qed.

(** *** C15 *)

(** bf_list: any history of valid calls answers like a finite sequence, and the
    list can be read back in both directions. *)
Theorem C15_list_is_a_sequence : forall A (nul : A) (os : list (lop A)),
  lvalids nul [] os ->
  exists s, list_calls nul (list_init no_cells) os = Ok (s, snd (lspecs nul [] os)) /\
    list_read s = Ok (fst (lspecs nul [] os)) /\
    list_read_rev s = Ok (rev (fst (lspecs nul [] os))).
Proof.
  intros A nul os V.
  destruct (list_calls_ok nul os (list_init no_cells) [] (rep_init _ (fun _ => eq_refl)) V)
    as (s & E & R).
  exists s. split; [exact E|]. split; [now apply list_read_ok|now apply list_read_rev_ok].
Qed.

(** No node leaks: after bf_list_clean nothing the list allocated is left. *)
Theorem C15_list_clean_frees_all : forall A (nul : A) (os : list (lop A)) s ans,
  lvalids nul [] os ->
  list_calls nul (list_init no_cells) os = Ok (s, ans) ->
  exists s' freed, list_clean s = Ok (s', freed) /\ (forall a, l_mem s' a = None) /\
    freed = map snd (fst (lspecs nul [] os)).
Proof.
  intros A nul os s ans V E.
  destruct (list_calls_ok nul os (list_init no_cells) [] (rep_init _ (fun _ => eq_refl)) V)
    as (s0 & E0 & R).
  rewrite E in E0. inversion E0; subst.
  destruct (list_clean_ok _ _ R) as (s' & E' & R'). exists s', (map snd (fst (lspecs nul [] os))).
  split; [exact E'|]. split; [|reflexivity]. intros a.
  destruct (l_mem s' a) eqn:Ea; [|reflexivity]. exfalso.
  apply (rep_tight _ _ R' a). congruence.
Qed.

Example C15_list_case :
  exists s, list_calls 0 (list_init no_cells)
    [ LAddTail (Some 1%nat) 10; LAddHead (Some 2%nat) 20; LPush (Some 1%nat) 30;
      LPush (Some 3%nat) 30; LGetAt 2; LDelete 1%nat; LReadRev; LDropIf (N.eqb 30); LRead; LSize ] =
    Ok (s, [ LCode 0; LCode 0; LKept ENOMEM (Some 30); LKept 0 None; LGave (Some 30);
             LGave (Some 10); LSaw [(3%nat, 30); (2%nat, 20)]; LFreed [30]; LSaw [(2%nat, 20)]; LNum 1 ]).
Proof. eexists. vm_compute. reflexivity. Qed.

(** bf_vector: any history of calls with elements of the declared size stays
    inside the buffer and answers like a sequence of elements. *)
Theorem C15_vector_is_a_sequence : forall esz (os : list vop),
  0 < esz -> esz < two64 -> Forall (vvalid esz) os ->
  exists v ans l, vec_calls (vec_new esz) os = Ok (v, ans) /\ vsteps esz [] os ans l /\
    vec_read v = Ok l.
Proof.
  intros esz os H1 H2 V.
  destruct (vec_calls_ok esz H1 os (vec_new esz) [] (vrep_new esz H2) V)
    as (v & ans & l & E & R & S).
  exists v, ans, l. split; [exact E|]. split; [exact S|]. now apply vec_read_ok with (esz := esz).
Qed.

(** bf_vector_add is refused only when the allocator refuses or when twice the
    needed bytes do not fit the address space; the vector is then untouched. *)
Theorem C15_vector_add_refusals : forall esz (os : list vop) v ans room junk e,
  0 < esz -> esz < two64 -> Forall (vvalid esz) os -> N.of_nat (length e) = esz ->
  vec_calls (vec_new esz) os = Ok (v, ans) ->
  exists v' rc, vec_call v (VAdd room junk e) = Ok (v', VCode rc) /\
    (rc <> 0 -> v' = v /\ ((exists n, room n = false) \/
                           2 ^ 64 <= 2 * N.max (N.max (v_size v + 1) (v_cap v)) 8 * esz)).
Proof.
  intros esz os v ans room junk e H1 H2 V He E.
  destruct (vec_calls_ok esz H1 os (vec_new esz) [] (vrep_new esz H2) V)
    as (v0 & ans0 & l & E0 & R & _). rewrite E in E0. inversion E0; subst.
  destruct (vec_add_ok _ H1 room junk v0 l e R eq_refl) as (v' & rc & l' & E1 & R' & C).
  cbn [vec_call]. rewrite E1. cbn [bind fst snd]. exists v', rc. split; [reflexivity|].
  intros Hrc. destruct C as [[-> _]|(_ & _ & -> & C)]; [congruence|]. split; [reflexivity|].
  rewrite (vr_size _ _ _ R). exact C.
Qed.

Example C15_vector_case :
  let jk := fun _ => 170 in
  exists v, vec_calls (vec_new 2)
    [ VAdd (fun _ => true) jk [1; 2]; VAddMany (fun _ => true) jk [[3; 4]; [5; 6]; [7; 8]];
      VRemove 1; VSet 0 [9; 9]; VGet 2; VGet 3; VReserve (fun _ => false) jk 100; VRead; VSize ] =
    Ok (v, [ VCode 0; VCode 0; VCode 0; VCode 0; VGave (Some [7; 8]); VGave None; VCode ENOMEM;
             VSaw [[9; 9]; [5; 6]; [7; 8]]; VNum 3 ]).
Proof. eexists. vm_compute. reflexivity. Qed.

Print Assumptions C14_hashset_is_a_set.
Print Assumptions C14_add_refused_only_without_memory.
Print Assumptions C14_reserve_is_enough.
Print Assumptions C15_list_is_a_sequence.
Print Assumptions C15_list_clean_frees_all.
Print Assumptions C15_vector_is_a_sequence.
Print Assumptions C15_vector_add_refusals.
