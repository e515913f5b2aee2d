(** The write buffer of pack.c:13-44,101-121.  mpack hands its 64-byte buffer, or a
    longer string, to the flush callback; [wp_mem] is the block data points to, of
    the size it was really allocated with. *)
From Coq Require Import NArith List Bool Arith.
From Verif Require Import Bytes GenModel.
Import ListNotations.
Local Open Scope N_scope.
Local Open Scope res_scope.

(** pack.c:13-21 struct bf_wpack; [wp_err] is the writer's error flag. *)
Record wpack := mkW { wp_mem : list N; wp_len : N; wp_cap : N; wp_err : bool }.

(** pack.c:49-72 bf_wpack_new. *)
Definition wpack_new : wpack := mkW [] 0 0 false.

(** pack.c:32-33: the doubling loop, in size_t; [fuel] bounds the rounds, the
    shift reaches 0 after 64 of them. *)
Fixpoint round_up (fuel : nat) (cap need : N) : res N :=
  if cap <=? need then
    match fuel with
    | O => Er EUB   (* the C loop never ends *)
    | S k => round_up k ((cap * 2) mod two64) need
    end
  else Ok cap.

(** memcpy(pack->data + len, buffer, count). *)
Definition copy_in (mem : list N) (at_ : N) (chunk : list N) : res (list N) :=
  if N.of_nat (length mem) <? at_ + N.of_nat (length chunk) then Er EUB
  else Ok (firstn (N.to_nat at_) mem ++ chunk ++ skipn (N.to_nat at_ + length chunk) mem).

(** pack.c:23-44 _bf_wpack_writer_flush_cb.  [grown new] is the contents realloc
    gives to the bytes past the old block, None when it fails; helper.c bf_realloc
    leaves the block alone then. *)
Definition flush (grown : N -> option (nat -> N)) (p : wpack) (chunk : list N) : res wpack :=
  let count := N.of_nat (length chunk) in
  let need := (wp_len p + count) mod two64 in
  p <- (if wp_cap p <=? need then
          new_cap <- round_up 64 (if wp_cap p =? 0 then 64 else wp_cap p) need ;
          match grown new_cap with
          | Some junk =>
              let old := wp_mem p in
              Ok (mkW (firstn (N.to_nat new_cap) old ++ map junk (seq (length old) (N.to_nat new_cap - length old)))
                      (wp_len p) new_cap (wp_err p))
          | None => Ok (mkW (wp_mem p) (wp_len p) new_cap true)
          end
        else Ok p) ;
  mem <- copy_in (wp_mem p) (wp_len p) chunk ;
  Ok (mkW mem ((wp_len p + count) mod two64) (wp_cap p) (wp_err p)).

Fixpoint flush_all (grown : nat -> N -> option (nat -> N)) (i : nat) (p : wpack) (chunks : list (list N)) : res wpack :=
  match chunks with
  | [] => Ok p
  | c :: r => p' <- flush (grown i) p c ; flush_all grown (S i) p' r
  end.

(** pack.c:101-121 bf_wpack_get_data: the data and its length, or EINVAL when the
    writer has an error. *)
Definition get_data (p : wpack) : res (list N) :=
  if wp_err p then Er EINVAL else Ok (firstn (N.to_nat (wp_len p)) (wp_mem p)).
