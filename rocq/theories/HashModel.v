(** Model of the hash set of /repo/src/libbpfilter/core/hashset.c: open
    addressing with linear probing and tombstones, threaded by a doubly linked
    list in insertion order.  size_t arithmetic is modulo 2^64. *)
From Coq Require Import NArith List Bool Arith.
From Verif Require Import Bytes GenModel ListSpec ListModel HashSpec.
Import ListNotations.
Local Open Scope res_scope.

(** A slot of the table: NULL, _BF_HASHSET_TOMBSTONE (hashset.c:14) or a pointer
    to an element. *)
Inductive slot := Empty | Tomb | Elem (p : nat).

(** struct bf_hashset, hashset.h; head, tail, len and the memory holding the
    elements are in [h_list]. *)
Record hset (A : Type) := mkH
  { h_list : lst A; h_slots : list slot; h_cap : N; h_used : N }.
Arguments mkH {A}. Arguments h_list {A}. Arguments h_slots {A}.
Arguments h_cap {A}. Arguments h_used {A}.

Definition mul64 (a b : N) : N := ((a * b) mod two64)%N.

(** hashset.c:15-23 *)
Definition INIT_CAP : N := 16.
Definition MAX_CAP : N := 1152921504606846976. (* SIZE_MAX / 16 + 1 = 2^60 *)

(** _bf_round_next_power_of_2, hashset.c:25-41; the final increment wraps. *)
Definition smear (k v : N) : N := N.lor v (N.shiftr v k).
Definition next_pow2 (v : N) : N :=
  (if v =? 0 then 1
   else (smear 32 (smear 16 (smear 8 (smear 4 (smear 2 (smear 1 (v - 1)))))) + 1) mod two64)%N.

Section Model.
Context {A : Type} (eqb : A -> A -> bool) (hash : A -> N).

(** bf_hashset_init / bf_hashset_default: everything zero. *)
Definition hash_init (h : cells A) : hset A := mkH (list_init h) [] 0 0.

Definition set_slot (l : list slot) (i : N) (v : slot) : list slot :=
  firstn (N.to_nat i) l ++ match skipn (N.to_nat i) l with [] => [] | _ :: r => v :: r end.
(** An access outside the array is undefined. *)
Definition get_slot (l : list slot) (i : N) : res slot :=
  match nth_error l (N.to_nat i) with Some v => Ok v | None => Er EUB end.

(** _bf_hashset_index, hashset.c:49-55. *)
Definition index (cap : N) (x : A) : N := (hash x mod cap)%N.

(** The reinsertion loop of _bf_hashset_resize, hashset.c:71-76: first NULL slot
    from the element's home; [fuel] bounds the C while loop, running out of it
    is an error outcome. *)
Fixpoint first_null (fuel : nat) (slots : list slot) (cap idx : N) : res N :=
  match fuel with
  | O => Er EUB
  | S k =>
      v <- get_slot slots idx ;
      match v with
      | Empty => Ok idx
      | _ => first_null k slots cap ((idx + 1) mod cap)%N
      end
  end.
Definition reinsert (cap : N) (a : nat) (s : cells A * list slot)
  : res (cells A * list slot) :=
  n <- ld (fst s) a ;
  i <- first_null (S (N.to_nat cap)) (snd s) cap (hash (nd_data n) mod cap)%N ;
  Ok (fst s, set_slot (snd s) i (Elem a)).

(** _bf_hashset_resize, hashset.c:57-84. *)
Definition resize (table : N -> bool) (s : hset A) (new_cap : N) : res (hset A * N) :=
  if (new_cap <=? l_len (h_list s))%N then Ok (s, EINVAL)
  else if negb (table new_cap) then Ok (s, ENOMEM)
  else
    r <- foreach nd_next fst (reinsert new_cap) (rounds (h_list s)) (l_head (h_list s))
           (l_mem (h_list s), repeat Empty (N.to_nat new_cap)) ;
    Ok (mkH (h_list s) (snd r) new_cap (l_len (h_list s)), 0%N).

(** _bf_hashset_grow, hashset.c:86-97. *)
Definition grow (table : N -> bool) (s : hset A) : res (hset A * N) :=
  if (MAX_CAP <=? h_cap s)%N then Ok (s, ENOMEM)
  else resize table s (if (h_cap s =? 0)%N then INIT_CAP else mul64 (h_cap s) 2).

(** _bf_hashset_needs_grow, hashset.c:99-105. *)
Definition needs_grow (s : hset A) : bool :=
  (mul64 (h_cap s) 5 <=? mul64 (h_used s) 10)%N.

(** The loop of _bf_hashset_find, hashset.c:136-156.  SIZE_MAX (no index) is
    [None]; the result is the found index and the free index. *)
Fixpoint probe (mem : cells A) (slots : list slot) (cap : N) (x : A)
    (fuel : nat) (idx : N) (free : option N) : res (option N * option N) :=
  match fuel with
  | O => Ok (None, free)
  | S k =>
      v <- get_slot slots idx ;
      match v with
      | Empty => Ok (None, Some (match free with Some f => f | None => idx end))
      | Tomb =>
          probe mem slots cap x k ((idx + 1) mod cap)%N
            (match free with Some f => Some f | None => Some idx end)
      | Elem p =>
          n <- ld mem p ;
          if eqb (nd_data n) x then Ok (Some idx, None)
          else probe mem slots cap x k ((idx + 1) mod cap)%N free
      end
  end.

(** _bf_hashset_find, hashset.c:122-159. *)
Definition hfind (s : hset A) (x : A) : res (option N * option N) :=
  if (h_cap s =? 0)%N then Ok (None, None)
  else probe (l_mem (h_list s)) (h_slots s) (h_cap s) x (N.to_nat (h_cap s))
         (index (h_cap s) x) None.

(** End of bf_hashset_add, hashset.c:278-300: allocate and link the element.
    [slots[SIZE_MAX]] is outside the array. *)
Definition insert (node : option nat) (s : hset A) (x : A) (free : option N)
  : res (hset A * N) :=
  match malloc (l_mem (h_list s)) node with
  | None => Ok (s, ENOMEM)
  | Some p =>
      f <- (match free with Some f => Ok f | None => Er EUB end) ;
      old <- get_slot (h_slots s) f ;
      let h := upd (l_mem (h_list s)) p (Some (mkNode x (l_tail (h_list s)) None)) in
      h' <- (match l_tail (h_list s) with Some t => set_next h t (Some p) | None => Ok h end) ;
      let head := match l_tail (h_list s) with Some _ => l_head (h_list s) | None => Some p end in
      Ok (mkH (mkL h' (l_len (h_list s) + 1)%N head (Some p))
              (set_slot (h_slots s) f (Elem p)) (h_cap s)
              (match old with Tomb => h_used s | _ => (h_used s + 1)%N end), 0%N)
  end.

(** bf_hashset_add, hashset.c:252-303. *)
Definition hadd (node : option nat) (table : N -> bool) (s : hset A) (x : A)
  : res (hset A * N) :=
  r <- hfind s x ;
  match fst r with
  | Some _ => Ok (s, EEXIST)
  | None =>
      if (MAX_CAP <=? l_len (h_list s))%N then Ok (s, ENOMEM)
      else if needs_grow s then
        g <- grow table s ;
        if (snd g =? 0)%N then
          r' <- hfind (fst g) x ;
          match fst r' with
          | Some _ => Ok (fst g, EEXIST)
          | None => insert node (fst g) x (snd r')
          end
        else Ok g
      else insert node s x (snd r)
  end.

(** bf_hashset_contains, hashset.c:305-311. *)
Definition hcontains (s : hset A) (x : A) : res bool :=
  r <- hfind s x ; Ok (match fst r with Some _ => true | None => false end).

(** _bf_hashset_unlink, hashset.c:313-330. *)
Definition hunlink (s : hset A) (i : N) : res (hset A) :=
  v <- get_slot (h_slots s) i ;
  a <- (match v with Elem a => Ok a | _ => Er EUB end) ;
  let l := h_list s in
  n <- ld (l_mem l) a ;
  h1 <- (match nd_prev n with Some p => set_next (l_mem l) p (nd_next n) | None => Ok (l_mem l) end) ;
  let head := match nd_prev n with Some _ => l_head l | None => nd_next n end in
  h2 <- (match nd_next n with Some q => set_prev h1 q (nd_prev n) | None => Ok h1 end) ;
  let tail := match nd_next n with Some _ => l_tail l | None => nd_prev n end in
  h3 <- release h2 a ;
  Ok (mkH (mkL h3 (l_len l - 1)%N head tail) (set_slot (h_slots s) i Tomb) (h_cap s) (h_used s)).

(** The data of the element in slot [i]. *)
Definition slot_data (s : hset A) (i : N) : res A :=
  v <- get_slot (h_slots s) i ;
  match v with
  | Elem a => n <- ld (l_mem (h_list s)) a ; Ok (nd_data n)
  | _ => Er EUB
  end.

(** bf_hashset_delete, hashset.c:332-349, with the data passed to ops.free. *)
Definition hdelete (s : hset A) (x : A) : res (hset A * N * list A) :=
  r <- hfind s x ;
  match fst r with
  | None => Ok (s, ENOENT, [])
  | Some i => d <- slot_data s i ; s' <- hunlink s i ; Ok (s', 0%N, [d])
  end.

(** bf_hashset_take, hashset.c:351-368. *)
Definition htake (s : hset A) (x : A) : res (hset A * N * option A) :=
  r <- hfind s x ;
  match fst r with
  | None => Ok (s, ENOENT, None)
  | Some i => d <- slot_data s i ; s' <- hunlink s i ; Ok (s', 0%N, Some d)
  end.

(** bf_hashset_reserve, hashset.c:226-250. *)
Definition hreserve (table : N -> bool) (s : hset A) (count : N) : res (hset A * N) :=
  if (count =? 0)%N then Ok (s, 0%N)
  else if (MAX_CAP <? count)%N then Ok (s, ENOMEM)
  else
    let needed := (mul64 count 10 / 5)%N in
    if (needed <=? h_cap s)%N then Ok (s, 0%N)
    else
      let new_cap := next_pow2 (N.max needed INIT_CAP) in
      if (MAX_CAP <? new_cap)%N then Ok (s, ENOMEM)
      else resize table s new_cap.

(** bf_hashset_foreach reading the data, hashset.h:110-114. *)
Definition hread (s : hset A) : res (list A) :=
  l <- list_read (h_list s) ; Ok (map snd l).

(** bf_hashset_clean, hashset.c:196-212. *)
Definition hclean (s : hset A) : res (hset A * list A) :=
  r <- foreach nd_next fst clean_body (rounds (h_list s)) (l_head (h_list s))
         (l_mem (h_list s), []) ;
  Ok (mkH (mkL (fst r) 0 None None) [] 0 0, snd r).

(** One call of the API, and a history of calls. *)
Definition hash_call (s : hset A) (o : hop A) : res (hset A * hans A) :=
  match o with
  | HAdd nd tb x => r <- hadd nd tb s x ; Ok (fst r, HCode (snd r))
  | HContains x => b <- hcontains s x ; Ok (s, HBool b)
  | HDelete x => r <- hdelete s x ; Ok (fst (fst r), HFreed (snd (fst r)) (snd r))
  | HTake x => r <- htake s x ; Ok (fst (fst r), HTook (snd (fst r)) (snd r))
  | HReserve tb n => r <- hreserve tb s n ; Ok (fst r, HCode (snd r))
  | HSize => Ok (s, HNum (l_len (h_list s)))
  | HEmpty => Ok (s, HBool (l_len (h_list s) =? 0)%N)
  | HRead => l <- hread s ; Ok (s, HSaw l)
  | HClean => r <- hclean s ; Ok (fst r, HFreed 0 (snd r))
  end.
Fixpoint hash_calls (s : hset A) (os : list (hop A)) : res (hset A * list (hans A)) :=
  match os with
  | [] => Ok (s, [])
  | o :: r =>
      x <- hash_call s o ;
      y <- hash_calls (fst x) r ;
      Ok (fst y, snd x :: snd y)
  end.
End Model.
