(** Model of the doubly linked list of /repo/src/libbpfilter/core/list.c and
    /repo/src/libbpfilter/include/bpfilter/core/list.h, down to the pointers.

    Memory is a partial map from addresses to nodes.  Every access through a
    pointer goes through [ld]; an access through NULL or through a freed node
    is the distinct outcome [Er EUB] (undefined behaviour in C), never a
    made-up value.  The allocator is an input of each allocating call: it
    proposes an address, and refuses (NULL) when it proposes none or proposes
    one that is in use; addresses of freed nodes may be proposed again. *)
From Coq Require Import NArith List Bool Arith.
From Verif Require Import Bytes GenModel.
Import ListNotations.
Local Open Scope res_scope.

(** struct bf_list_node, list.h:61-66 (and bf_hashset_elem, hashset.h:44-52);
    [A] is the type of the [data] pointer. *)
Record node (A : Type) := mkNode
  { nd_data : A; nd_prev : option nat; nd_next : option nat }.
Arguments mkNode {A} nd_data nd_prev nd_next.
Arguments nd_data {A} n.  Arguments nd_prev {A} n.  Arguments nd_next {A} n.

Definition cells (A : Type) := nat -> option (node A).
Definition upd {A} (h : cells A) (p : nat) (v : option (node A)) : cells A :=
  fun q => if Nat.eqb q p then v else h q.

(** A load through a pointer. *)
Definition ld {A} (h : cells A) (p : nat) : res (node A) :=
  match h p with Some n => Ok n | None => Er EUB end.

(** [p->next = v], [p->prev = v], [p->data = v]. *)
Definition set_next {A} (h : cells A) (p : nat) (v : option nat) : res (cells A) :=
  n <- ld h p ; Ok (upd h p (Some (mkNode (nd_data n) (nd_prev n) v))).
Definition set_prev {A} (h : cells A) (p : nat) (v : option nat) : res (cells A) :=
  n <- ld h p ; Ok (upd h p (Some (mkNode (nd_data n) v (nd_next n)))).
Definition set_data {A} (h : cells A) (p : nat) (v : A) : res (cells A) :=
  n <- ld h p ; Ok (upd h p (Some (mkNode v (nd_prev n) (nd_next n)))).

(** malloc/calloc of one node: [pick] is the allocator's proposal. *)
Definition malloc {A} (h : cells A) (pick : option nat) : option nat :=
  match pick with
  | Some p => match h p with None => Some p | Some _ => None end
  | None => None
  end.

(** free of one node; freeing twice is undefined. *)
Definition release {A} (h : cells A) (p : nat) : res (cells A) :=
  _ <- ld h p ; Ok (upd h p None).

(** struct bf_list, list.h:83-89 (ops.free is a parameter of the functions that
    use it), with the memory it lives in. *)
Record lst (A : Type) := mkL
  { l_mem : cells A; l_len : N; l_head : option nat; l_tail : option nat }.
Arguments mkL {A} l_mem l_len l_head l_tail.
Arguments l_mem {A} l.  Arguments l_len {A} l.
Arguments l_head {A} l. Arguments l_tail {A} l.

(** bf_list_init, list.c:83-95; bf_list_default, list.h:148-149. *)
Definition list_init {A} (h : cells A) : lst A := mkL h 0 None None.

(** The loop shared by bf_list_foreach (list.h:105-108), bf_list_foreach_rev
    (list.h:121-124) and bf_hashset_foreach (hashset.h:110-114): the successor is
    read before the body runs on the current node, the successor's successor
    after it.  [step] is [next] or [prev].  [fuel] bounds the number of
    evaluations of the loop condition; running out is an error outcome. *)
Definition follow {A} (step : node A -> option nat) (h : cells A) (p : option nat)
  : res (option nat) :=
  match p with
  | None => Ok None
  | Some a => n <- ld h a ; Ok (step n)
  end.
Fixpoint each {A S} (step : node A -> option nat) (mem : S -> cells A)
    (body : nat -> S -> res S) (fuel : nat) (cur nxt : option nat) (s : S) : res S :=
  match fuel with
  | O => Er EUB
  | Datatypes.S k =>
      match cur with
      | None => Ok s
      | Some a =>
          s' <- body a s ;
          nxt' <- follow step (mem s') nxt ;
          each step mem body k nxt nxt' s'
      end
  end.
Definition foreach {A S} (step : node A -> option nat) (mem : S -> cells A)
    (body : nat -> S -> res S) (fuel : nat) (start : option nat) (s : S) : res S :=
  nxt <- follow step (mem s) start ;
  each step mem body fuel start nxt s.

(** Fuel given to a traversal: one evaluation of the condition per node plus the
    last one (the C loops have no bound of their own). *)
Definition rounds {A} (s : lst A) : nat := Datatypes.S (N.to_nat (l_len s)).

(** What a reader collects with bf_list_foreach / bf_list_foreach_rev:
    the handle and the data of each visited node, in order. *)
Definition visit {A} (a : nat) (s : lst A * list (nat * A)) : res (lst A * list (nat * A)) :=
  n <- ld (l_mem (fst s)) a ; Ok (fst s, snd s ++ [(a, nd_data n)]).
Definition list_read {A} (s : lst A) : res (list (nat * A)) :=
  r <- foreach nd_next (fun x => l_mem (fst x)) visit (rounds s) (l_head s) (s, []) ;
  Ok (snd r).
Definition list_read_rev {A} (s : lst A) : res (list (nat * A)) :=
  r <- foreach nd_prev (fun x => l_mem (fst x)) visit (rounds s) (l_tail s) (s, []) ;
  Ok (snd r).

(** bf_list_node_new, list.c:21-35: calloc, then data; prev = next = NULL. *)
Definition node_new {A} (h : cells A) (pick : option nat) (d : A)
  : option (nat * cells A) :=
  match malloc h pick with
  | None => None
  | Some p => Some (p, upd h p (Some (mkNode d None None)))
  end.

(** bf_list_add_head, list.c:152-175.  The second component is the return code. *)
Definition list_add_head {A} (s : lst A) (pick : option nat) (d : A) : res (lst A * N) :=
  match node_new (l_mem s) pick d with
  | None => Ok (s, ENOMEM)
  | Some (p, h) =>
      h1 <- set_next h p (l_head s) ;
      h2 <- (match l_head s with Some q => set_prev h1 q (Some p) | None => Ok h1 end) ;
      Ok (mkL h2 (l_len s + 1)%N (Some p)
              (match l_tail s with None => Some p | Some t => Some t end), 0%N)
  end.

(** bf_list_add_tail, list.c:177-200. *)
Definition list_add_tail {A} (s : lst A) (pick : option nat) (d : A) : res (lst A * N) :=
  match node_new (l_mem s) pick d with
  | None => Ok (s, ENOMEM)
  | Some (p, h) =>
      h1 <- set_prev h p (l_tail s) ;
      h2 <- (match l_tail s with Some q => set_next h1 q (Some p) | None => Ok h1 end) ;
      Ok (mkL h2 (l_len s + 1)%N
              (match l_head s with None => Some p | Some t => Some t end) (Some p), 0%N)
  end.

(** bf_list_push, list.c:136-150: the third component is what is left in the
    caller's pointer (TAKE_PTR on success only). *)
Definition list_push {A} (s : lst A) (pick : option nat) (d : A)
  : res (lst A * N * option A) :=
  r <- list_add_tail s pick d ;
  if (snd r =? 0)%N then Ok (fst r, 0%N, None) else Ok (fst r, snd r, Some d).

Definition ptr_eqb (p : option nat) (a : nat) : bool :=
  match p with Some q => Nat.eqb q a | None => false end.

(** bf_list_delete, list.c:202-220; the second component is the data handed to
    ops.free (bf_list_node_free, list.c:44-52). *)
Definition list_delete {A} (s : lst A) (a : nat) : res (lst A * A) :=
  n <- ld (l_mem s) a ;
  let head := if ptr_eqb (l_head s) a then nd_next n else l_head s in
  let tail := if ptr_eqb (l_tail s) a then nd_prev n else l_tail s in
  h1 <- (match nd_prev n with Some p => set_next (l_mem s) p (nd_next n) | None => Ok (l_mem s) end) ;
  h2 <- (match nd_next n with Some q => set_prev h1 q (nd_prev n) | None => Ok h1 end) ;
  h3 <- release h2 a ;
  Ok (mkL h3 (l_len s - 1)%N head tail, nd_data n).

(** bf_list_clean, list.c:97-107: every node is freed in order, with its data. *)
Definition clean_body {A} (a : nat) (s : cells A * list A) : res (cells A * list A) :=
  n <- ld (fst s) a ;
  h <- release (fst s) a ;
  Ok (h, snd s ++ [nd_data n]).
Definition list_clean {A} (s : lst A) : res (lst A * list A) :=
  r <- foreach nd_next fst clean_body (rounds s) (l_head s) (l_mem s, []) ;
  Ok (mkL (fst r) 0 None None, snd r).

(** bf_list_get_at, list.c:222-233: NULL when the index is out of range.  The
    state of the loop is the remaining index and, once found, the result; a
    found result stops the C loop, here the later rounds leave it alone. *)
Definition get_body {A} (a : nat) (s : cells A * (N * option A))
  : res (cells A * (N * option A)) :=
  match snd (snd s) with
  | Some _ => Ok s
  | None =>
      n <- ld (fst s) a ;
      if (fst (snd s) =? 0)%N then Ok (fst s, (0%N, Some (nd_data n)))
      else Ok (fst s, ((fst (snd s) - 1)%N, None))
  end.
Definition list_get_at {A} (s : lst A) (i : N) : res (option A) :=
  r <- foreach nd_next fst get_body (rounds s) (l_head s) (l_mem s, (i, None)) ;
  Ok (snd (snd r)).

(** bf_list_node_take_data, list.h:418-428: the data pointer of the node is handed
    out and replaced by NULL (here [nul]). *)
Definition list_take_data {A} (nul : A) (s : lst A) (a : nat) : res (lst A * A) :=
  n <- ld (l_mem s) a ;
  h <- set_data (l_mem s) a nul ;
  Ok (mkL h (l_len s) (l_head s) (l_tail s), nd_data n).

(** A traversal whose body deletes the nodes satisfying [f], which list.h:97-98
    promises to be safe; the second component lists the freed data. *)
Definition drop_body {A} (f : A -> bool) (a : nat) (s : lst A * list A)
  : res (lst A * list A) :=
  n <- ld (l_mem (fst s)) a ;
  if f (nd_data n) then
    r <- list_delete (fst s) a ; Ok (fst r, snd s ++ [snd r])
  else Ok s.
Definition list_drop {A} (f : A -> bool) (s : lst A) : res (lst A * list A) :=
  foreach nd_next (fun x => l_mem (fst x)) (drop_body f) (rounds s) (l_head s) (s, []).

(** One call of the API, and a history of calls. *)
From Verif Require Import ListSpec.
Definition list_call {A} (nul : A) (s : lst A) (o : lop A) : res (lst A * lans A) :=
  match o with
  | LAddHead pick d => r <- list_add_head s pick d ; Ok (fst r, LCode (snd r))
  | LAddTail pick d => r <- list_add_tail s pick d ; Ok (fst r, LCode (snd r))
  | LPush pick d =>
      r <- list_push s pick d ; Ok (fst (fst r), LKept (snd (fst r)) (snd r))
  | LDelete a => r <- list_delete s a ; Ok (fst r, LGave (Some (snd r)))
  | LTakeData a => r <- list_take_data nul s a ; Ok (fst r, LGave (Some (snd r)))
  | LGetAt i => r <- list_get_at s i ; Ok (s, LGave r)
  | LSize => Ok (s, LNum (l_len s))
  | LRead => r <- list_read s ; Ok (s, LSaw r)
  | LReadRev => r <- list_read_rev s ; Ok (s, LSaw r)
  | LDropIf f => r <- list_drop f s ; Ok (fst r, LFreed (snd r))
  | LClean => r <- list_clean s ; Ok (fst r, LFreed (snd r))
  end.
Fixpoint list_calls {A} (nul : A) (s : lst A) (os : list (lop A))
  : res (lst A * list (lans A)) :=
  match os with
  | [] => Ok (s, [])
  | o :: r =>
      x <- list_call nul s o ;
      y <- list_calls nul (fst x) r ;
      Ok (fst y, snd x :: snd y)
  end.
