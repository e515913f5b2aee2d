(** The loader of set maps, as written: cgen/program.c:1025-1133
    _bf_program_load_sets_maps.  ([group_map] in GenModel is the closed form the packet
    theorems use; MapFacts shows that both agree.) *)
From Coq Require Import NArith List Bool Arith.
From Verif Require Import Bytes Types GenModel.
Import ListNotations.
Local Open Scope N_scope.

(** [values[byte] |= bit], on one element's value. *)
Fixpoint or_byte (l : list N) (k : nat) (b : N) : list N :=
  match l, k with
  | [], _ => []
  | x :: r, O => N.lor x b :: r
  | x :: r, S k' => x :: or_byte r k' b
  end.

(** program.c:1096-1104, the loop over the sets of the group; [bit] is bit_idx.
    (uint8_t)(1U << (bit_idx % CHAR_BIT)) is below 256, so the cast is the identity. *)
Fixpoint load_bits (ss : list bset) (x : list N) (bit : nat) (v : list N) : list N :=
  match ss with
  | [] => v
  | s :: r =>
      load_bits r x (S bit)
        (if mem x (s_elems s) then or_byte v (bit / 8)%nat (2 ^ N.of_nat (bit mod 8)%nat) else v)
  end.

(** program.c:1037,1086: value_size bytes, zeroed by calloc, then the loop. *)
Definition load_value (ss : list bset) (x : list N) : list N :=
  load_bits ss x 0 (repeat 0 ((length ss + 8 - 1) / 8)%nat).

(** program.c:1067-1075: the union of the elements in insertion order, without
    duplicates (the dedup hash set is specified by C14); 1090-1107: keys and values in
    parallel. *)
Definition load_map (sets : list bset) (g : list nat) : bool * nat * list (list N * list N) :=
  let ss := group_sets sets g in
  let hd := match ss with s :: _ => s | [] => mkS [] 0 false [] end in
  (s_trie hd, s_esize hd, map (fun x => (x, load_value ss x)) (dedup [] (flat_map s_elems ss))).
