(** Model of /repo/src/libbpfilter/core/vector.c on bytes.  size_t arithmetic is
    modulo 2^64; a memcpy or memmove outside the buffer is undefined. *)
From Coq Require Import NArith List Bool.
From Verif Require Import Bytes GenModel HashModel VecSpec.
Import ListNotations.
Local Open Scope res_scope.
Local Open Scope N_scope.

(** struct bf_vector, vector.h; [v_data] is the allocated buffer, empty for NULL. *)
Record vec := mkV { v_data : list N; v_size : N; v_cap : N; v_esz : N }.

Definition add64 (a b : N) : N := (a + b) mod two64.

(** vector.c:15-17 *)
Definition V_INIT : N := 8.
Definition V_MAX : N := 12297829382473034410. (* SIZE_MAX / 3 * 2 *)

(** bf_vector_default, vector.c:19-27. *)
Definition vec_new (esz : N) : vec := mkV [] 0 0 esz.

(** memcpy(buf + off, src, n); the caller's source has at least [n] bytes. *)
Definition copy_in (buf : list N) (off : N) (src : list N) : res (list N) :=
  if off + N.of_nat (length src) <=? N.of_nat (length buf)
  then Ok (firstn (N.to_nat off) buf ++ src ++ skipn (N.to_nat off + length src) buf)
  else Er EUB.
(** A read of [n] bytes at [off]. *)
Definition copy_out (buf : list N) (off n : N) : res (list N) :=
  if off + n <=? N.of_nat (length buf)
  then Ok (firstn (N.to_nat n) (skipn (N.to_nat off) buf)) else Er EUB.

(** bf_vector_get, vector.c:76-84: here the bytes the returned pointer designates. *)
Definition vec_get (v : vec) (i : N) : res (option (list N)) :=
  if v_size v <=? i then Ok None
  else e <- copy_out (v_data v) (mul64 i (v_esz v)) (v_esz v) ; Ok (Some e).

(** bf_vector_set, vector.c:86-97. *)
Definition vec_set (v : vec) (i : N) (e : list N) : res (vec * N) :=
  if v_size v <=? i then Ok (v, EINVAL)
  else
    d <- copy_in (v_data v) (mul64 i (v_esz v)) (firstn (N.to_nat (v_esz v)) e) ;
    Ok (mkV d (v_size v) (v_cap v) (v_esz v), 0).

(** bf_vector_remove, vector.c:99-115. *)
Definition vec_remove (v : vec) (i : N) : res (vec * N) :=
  if v_size v <=? i then Ok (v, EINVAL)
  else
    let size := v_size v - 1 in
    d <- (if i <? size then
            src <- copy_out (v_data v) (mul64 (add64 i 1) (v_esz v)) (mul64 (size - i) (v_esz v)) ;
            copy_in (v_data v) (mul64 i (v_esz v)) src
          else Ok (v_data v)) ;
    Ok (mkV d size (v_cap v) (v_esz v), 0).

(** _bf_vector_resize, vector.c:117-134, with bf_realloc (helper.c:57-70): the old
    bytes are kept, the new ones are whatever the allocator left there. *)
Definition realloc (room : N -> bool) (junk : nat -> N) (buf : list N) (n : N)
  : option (list N) :=
  if room n
  then Some (firstn (N.to_nat n) buf ++ map junk (seq 0 (N.to_nat n - length buf)))
  else None.
Definition vec_resize (room : N -> bool) (junk : nat -> N) (v : vec) (new_cap : N)
  : vec * N :=
  if two64 <=? new_cap * v_esz v then (v, EOVERFLOW)
  else match realloc room junk (v_data v) (new_cap * v_esz v) with
       | None => (v, ENOMEM)
       | Some d => (mkV d (v_size v) new_cap (v_esz v), 0)
       end.

(** _bf_vector_grow, vector.c:136-156. *)
Definition vec_grow (room : N -> bool) (junk : nat -> N) (v : vec) (required : N)
  : vec * N :=
  if required <=? v_cap v then (v, 0)
  else if V_MAX <=? v_cap v then (v, ENOMEM)
  else
    let c0 := if v_cap v =? 0 then V_INIT else add64 (v_cap v) (v_cap v / 2) in
    let c1 := N.max c0 required in
    let c2 := N.min c1 V_MAX in
    if c2 <? required then (v, ENOMEM) else vec_resize room junk v c2.

(** bf_vector_add, vector.c:158-177. *)
Definition vec_add (room : N -> bool) (junk : nat -> N) (v : vec) (e : list N)
  : res (vec * N) :=
  if two64 <=? v_size v + 1 then Ok (v, ENOMEM)
  else
    let g := vec_grow room junk v (v_size v + 1) in
    if snd g =? 0 then
      let w := fst g in
      d <- copy_in (v_data w) (mul64 (v_size w) (v_esz w)) (firstn (N.to_nat (v_esz w)) e) ;
      Ok (mkV d (v_size w + 1) (v_cap w) (v_esz w), 0)
    else Ok g.

(** bf_vector_add_many, vector.c:179-202; [data] is the caller's array of [count]
    elements. *)
Definition vec_add_many (room : N -> bool) (junk : nat -> N) (v : vec)
    (data : list N) (count : N) : res (vec * N) :=
  if count =? 0 then Ok (v, 0)
  else if two64 <=? v_size v + count then Ok (v, ENOMEM)
  else
    let g := vec_grow room junk v (v_size v + count) in
    if snd g =? 0 then
      let w := fst g in
      d <- copy_in (v_data w) (mul64 (v_size w) (v_esz w))
             (firstn (N.to_nat (mul64 count (v_esz w))) data) ;
      Ok (mkV d (v_size w + count) (v_cap w) (v_esz w), 0)
    else Ok g.

(** bf_vector_reserve, vector.c:204-215. *)
Definition vec_reserve (room : N -> bool) (junk : nat -> N) (v : vec) (cap : N) : vec * N :=
  if cap <=? v_cap v then (v, 0)
  else if V_MAX <? cap then (v, ENOMEM)
  else vec_resize room junk v cap.

(** bf_vector_take, vector.c:217-225, and bf_vector_clean, vector.c:67-74. *)
Definition vec_take (v : vec) : vec * list N := (mkV [] 0 0 (v_esz v), v_data v).
Definition vec_clean (v : vec) : vec := mkV [] 0 0 (v_esz v).

(** bf_vector_foreach, vector.h: a byte pointer advancing by the element size up
    to [data + size * elem_size]; [fuel] bounds the loop. *)
Fixpoint vec_walk (fuel : nat) (buf : list N) (esz cur stop : N) : res (list (list N)) :=
  match fuel with
  | O => Er EUB
  | S k =>
      if stop <=? cur then Ok []
      else
        e <- copy_out buf cur esz ;
        r <- vec_walk k buf esz (cur + esz) stop ;
        Ok (e :: r)
  end.
Definition vec_read (v : vec) : res (list (list N)) :=
  match v_data v with
  | [] => Ok []
  | _ => vec_walk (S (N.to_nat (v_size v))) (v_data v) (v_esz v) 0 (mul64 (v_size v) (v_esz v))
  end.

Definition vec_call (v : vec) (o : vop) : res (vec * vans) :=
  match o with
  | VAdd rm jk e => r <- vec_add rm jk v e ; Ok (fst r, VCode (snd r))
  | VAddMany rm jk es =>
      r <- vec_add_many rm jk v (concat es) (N.of_nat (length es)) ; Ok (fst r, VCode (snd r))
  | VSet i e => r <- vec_set v i e ; Ok (fst r, VCode (snd r))
  | VRemove i => r <- vec_remove v i ; Ok (fst r, VCode (snd r))
  | VGet i => r <- vec_get v i ; Ok (v, VGave r)
  | VReserve rm jk n => let r := vec_reserve rm jk v n in Ok (fst r, VCode (snd r))
  | VSize => Ok (v, VNum (v_size v))
  | VRead => r <- vec_read v ; Ok (v, VSaw r)
  | VTake => let r := vec_take v in Ok (fst r, VBuf (snd r))
  | VClean => Ok (vec_clean v, VCode 0)
  end.
Fixpoint vec_calls (v : vec) (os : list vop) : res (vec * list vans) :=
  match os with
  | [] => Ok (v, [])
  | o :: r =>
      x <- vec_call v o ;
      y <- vec_calls (fst x) r ;
      Ok (fst y, snd x :: snd y)
  end.
