(** Model of /repo/src/libbpfilter/set.c on top of the hash set model. *)
From Coq Require Import NArith List Bool Arith.
From Verif Require Import Bytes Types GenModel ListSpec ListModel HashSpec HashModel VecModel.
Import ListNotations.
Local Open Scope res_scope.
Local Open Scope N_scope.

(** bf_fnv1a_init and bf_fnv1a, helper.c:17-18,204-223. *)
Definition FNV_INIT : N := 14695981039346656037.
Definition FNV_PRIME : N := 1099511628211.
Definition fnv1a (data : list N) (h : N) : N :=
  fold_left (fun acc b => mul64 (N.lxor acc b) FNV_PRIME) data h.

(** _bf_set_elem_hash and _bf_set_elem_equal, set.c:25-33: the context is the
    element size; both read that many bytes. *)
Definition elem_hash (esize : nat) (e : list N) : N := fnv1a (firstn esize e) FNV_INIT.
Definition elem_eqb (esize : nat) (a b : list N) : bool :=
  bytes_eqb (firstn esize a) (firstn esize b).

(** struct bf_set, set.h:44-75. *)
Record uset := mkU
  { u_name : option (list N)
  ; u_key : list mtype
  ; u_esize : nat
  ; u_trie : bool
  ; u_elems : hset (list N) }.

(** _BF_SET_USE_TRIE_MASK, set.c:20-23. *)
Definition is_net (t : mtype) : bool :=
  match t with
  | M_IP4_SNET | M_IP4_DNET | M_IP6_SNET | M_IP6_DNET => true
  | _ => false
  end.

(** The loop of bf_set_new over the components, set.c:82-95. *)
Fixpoint key_size (key : list mtype) : res nat :=
  match key with
  | [] => Ok 0%nat
  | t :: r =>
      match ops_size t OP_IN with
      | None => Er ENOTSUP
      | Some n => k <- key_size r ; Ok (n + k)%nat
      end
  end.

(** bf_set_new, set.c:47-107; allocation of the structure and of the name assumed
    to succeed. *)
Definition set_new (name : option (list N)) (key : list mtype) : res uset :=
  match key with
  | [] => Er EINVAL
  | _ =>
      if (8 <? length key)%nat then Er E2BIG
      else
        n <- key_size key ;
        let nets := existsb is_net key in
        if (1 <? length key)%nat && nets then Er EINVAL
        else Ok (mkU name key n ((length key =? 1)%nat && nets) (hash_init (fun _ => None)))
  end.

Definition with_elems (u : uset) (h : hset (list N)) : uset :=
  mkU (u_name u) (u_key u) (u_esize u) (u_trie u) h.

(** bf_set_add_elem, set.c:415-436.  [mem] tells whether the copy of the element
    can be allocated; [elem] is the caller's buffer, reading past it is
    undefined. *)
Definition set_add_elem (mem : bool) (nd : option nat) (tb : N -> bool) (u : uset) (elem : list N)
  : res (uset * N) :=
  if negb mem then Ok (u, ENOMEM)
  else
    e <- copy_out elem 0 (N.of_nat (u_esize u)) ;
    r <- hadd (elem_eqb (u_esize u)) (elem_hash (u_esize u)) nd tb (u_elems u) e ;
    Ok (with_elems u (fst r), if snd r =? EEXIST then 0 else snd r).

(** bf_set_is_empty and bf_set_reserve, set.c:438-450. *)
Definition set_is_empty (u : uset) : bool := l_len (h_list (u_elems u)) =? 0.
Definition set_reserve (tb : N -> bool) (u : uset) (n : N) : res (uset * N) :=
  r <- hreserve (elem_hash (u_esize u)) tb (u_elems u) n ;
  Ok (with_elems u (fst r), snd r).

(** bf_set_same_key, set.c:452-462. *)
Fixpoint same_types (a b : list mtype) : bool :=
  match a, b with
  | [], [] => true
  | x :: a', y :: b' => (if mtype_eq_dec x y then true else false) && same_types a' b'
  | _, _ => false
  end.
Definition same_key (a b : uset) : bool :=
  (length (u_key a) =? length (u_key b))%nat && same_types (u_key a) (u_key b).

(** The body of the loop of bf_set_add_many, set.c:475-486.  The loop state is
    the destination, the source and the return code; once the code is not 0 the C
    function has returned, here the later rounds do nothing.  [nd] is the
    allocator's answer in each round, indexed by the source element's address. *)
Definition add_round (esize : nat) (nd : nat -> option nat) (tb : N -> bool) (a : nat)
    (st : hset (list N) * hset (list N) * N) : res (hset (list N) * hset (list N) * N) :=
  let '(dest, src, rc) := st in
  if negb (rc =? 0) then Ok st
  else
    n <- ld (l_mem (h_list src)) a ;
    t <- htake (elem_eqb esize) (elem_hash esize) src (nd_data n) ;
    let '(src', rc1, got) := t in
    match got with
    | None => Ok (dest, src', rc1)
    | Some d =>
        r <- hadd (elem_eqb esize) (elem_hash esize) (nd a) tb dest d ;
        Ok (fst r, src', if snd r =? EEXIST then 0 else snd r)
    end.

(** bf_set_add_many, set.c:464-491: on success the source set is freed ([None]),
    on failure it remains the caller's. *)
Definition set_add_many (nd : nat -> option nat) (tb : N -> bool) (dest src : uset)
  : res (uset * option uset * N) :=
  if negb (same_key dest src) then Ok (dest, Some src, EINVAL)
  else
    r <- foreach nd_next (fun st => l_mem (h_list (snd (fst st))))
           (add_round (u_esize dest) nd tb)
           (rounds (h_list (u_elems src))) (l_head (h_list (u_elems src)))
           (u_elems dest, u_elems src, 0) ;
    let '(d, s, rc) := r in
    if rc =? 0 then Ok (with_elems dest d, None, 0)
    else Ok (with_elems dest d, Some (with_elems src s), rc).

(** The body of the loop of bf_set_remove_many, set.c:504-508. *)
Definition remove_round (esize : nat) (a : nat)
    (st : hset (list N) * hset (list N) * N) : res (hset (list N) * hset (list N) * N) :=
  let '(dest, src, rc) := st in
  if negb (rc =? 0) then Ok st
  else
    n <- ld (l_mem (h_list src)) a ;
    t <- hdelete (elem_eqb esize) (elem_hash esize) dest (nd_data n) ;
    let '(dest', rc1, _) := t in
    Ok (dest', src, if rc1 =? ENOENT then 0 else rc1).

(** bf_set_remove_many, set.c:493-513. *)
Definition set_remove_many (dest src : uset) : res (uset * option uset * N) :=
  if negb (same_key dest src) then Ok (dest, Some src, EINVAL)
  else
    r <- foreach nd_next (fun st => l_mem (h_list (snd (fst st))))
           (remove_round (u_esize dest))
           (rounds (h_list (u_elems src))) (l_head (h_list (u_elems src)))
           (u_elems dest, u_elems src, 0) ;
    let '(d, s, rc) := r in
    if rc =? 0 then Ok (with_elems dest d, None, 0)
    else Ok (with_elems dest d, Some (with_elems src s), rc).

(** Reading the elements in iteration order (bf_hashset_foreach). *)
Definition set_read (u : uset) : res (list (list N)) := hread (u_elems u).
