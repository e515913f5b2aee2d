(** The bytes of a serialised object: the MessagePack writer and the tree parser of
    external/mpack.c that pack.c uses, with the options the build leaves at their
    defaults (external/include/mpack.h:237-273: no extension types, no compatibility
    mode).

    Simplified: the writer's builder (mpack.c:2360-2780) keeps the contents of an open
    map or array in pages until its number of elements is known, then copies them out;
    here the contents are simply appended.  What reaches the flush callback in which
    chunks is the subject of WpackModel.  Page and stack allocations of the parser
    succeed. *)
From Coq Require Import NArith ZArith List Bool Arith.
From Verif Require Import Bytes GenModel PackModel.
Import ListNotations.
Local Open Scope N_scope.
Local Open Scope list_scope.
Local Open Scope res_scope.

(** ** The writer *)

(** mpack.h mpack_store_u8 .. mpack_store_u64: big-endian. *)
Definition be_enc (w : nat) (v : N) : list N := rev (le_enc w v).

(** mpack.c:1910-1924 mpack_write_u64; 1865-1908 mpack_write_u8, u16 and u32 are the
    same function on smaller values. *)
Definition enc_uint (v : N) : list N :=
  if v <=? 127 then [v]
  else if v <=? 255 then 0xcc :: be_enc 1 v
  else if v <=? 65535 then 0xcd :: be_enc 2 v
  else if v <=? 4294967295 then 0xce :: be_enc 4 v
  else 0xcf :: be_enc 8 v.

(** Two's complement on [bits] bits. *)
Definition wrap (bits : Z) (z : Z) : N := Z.to_N (z mod 2 ^ bits).

(** mpack.c:1988-2024 mpack_write_i64. *)
Definition enc_int (z : Z) : list N :=
  (if -32 <=? z then
     if z <=? 127 then [wrap 8 z] else enc_uint (Z.to_N z)
   else if -128 <=? z then 0xd0%N :: be_enc 1 (wrap 8 z)
   else if -32768 <=? z then 0xd1%N :: be_enc 2 (wrap 16 z)
   else if -2147483648 <=? z then 0xd2%N :: be_enc 4 (wrap 32 z)
   else 0xd3%N :: be_enc 8 (wrap 64 z))%Z.

(** mpack.c:2202-2255 mpack_write_str (called by 2279-2285 mpack_write_cstr). *)
Definition enc_str (s : list N) : list N :=
  let n := N.of_nat (length s) in
  (if n <=? 31 then [0xa0 + n]
   else if n <=? 255 then 0xd9 :: be_enc 1 n
   else if n <=? 65535 then 0xda :: be_enc 2 n
   else 0xdb :: be_enc 4 n) ++ s.

(** mpack.c:2257-2262 mpack_write_bin and 2130-2148 mpack_start_bin_notrack; the size is
    a uint32_t. *)
Definition enc_bin (b : list N) : list N :=
  let n := N.of_nat (length b) mod two32 in
  (if n <=? 255 then 0xc4 :: be_enc 1 n
   else if n <=? 65535 then 0xc5 :: be_enc 2 n
   else 0xc6 :: be_enc 4 n) ++ firstn (N.to_nat n) b.

(** mpack.c:2077-2095 mpack_write_array_notrack, mpack_write_map_notrack; the builder
    counts elements in a uint32_t. *)
Definition enc_arr (count : nat) : list N :=
  let n := N.of_nat count mod two32 in
  if n <=? 15 then [0x90 + n] else if n <=? 65535 then 0xdc :: be_enc 2 n else 0xdd :: be_enc 4 n.
Definition enc_map (count : nat) : list N :=
  let n := N.of_nat count mod two32 in
  if n <=? 15 then [0x80 + n] else if n <=? 65535 then 0xde :: be_enc 2 n else 0xdf :: be_enc 4 n.

(** mpack.c:1598-1604 nil and bool.  Nothing writes [NOther].  A string of 2^32 bytes or
    more is an error (2281-2282), see [encode]. *)
Fixpoint enc (n : node) : list N :=
  match n with
  | NNil => [0xc0]
  | NBool b => [if b then 0xc3 else 0xc2]
  | NUint v => enc_uint v
  | NInt z => enc_int z
  | NStr s => enc_str s
  | NBin b => enc_bin b
  | NArr l => enc_arr (length l) ++ concat (map enc l)
  | NMap l => enc_map (length l) ++ concat (map (fun kv => enc (fst kv) ++ enc (snd kv)) l)
  | NOther => []
  end.

Fixpoint too_long (n : node) : bool :=
  match n with
  | NStr s => two32 <=? N.of_nat (length s)
  | NArr l => existsb too_long l
  | NMap l => existsb (fun kv => too_long (fst kv) || too_long (snd kv)) l
  | _ => false
  end.

(** pack.c:101-121 bf_wpack_get_data: the bytes of the message. *)
Definition encode (n : node) : res (list N) := if too_long n then Er EINVAL else Ok (enc n).

(** ** The parser *)

(** mpack.c:5083-5110 mpack_tree_reserve_bytes: [left] is possible_nodes_left, [got] is
    current_node_reserved; a tree over a buffer can not be filled further (4984-5000).
    The sums stay far below SIZE_MAX. *)
Definition reserve (left got extra : N) : res N :=
  if got + extra <=? left then Ok (got + extra) else Er EINVAL.

(** Bytes of the buffer; reading outside of it is undefined. *)
Definition rd (data : list N) (at_ n : nat) : res (list N) :=
  if (at_ + n <=? length data)%nat then Ok (sub data at_ n) else Er EUB.

(** mpack_load_u8 .. mpack_load_u64, big-endian, [w] bytes after the type byte. *)
Definition load (data : list N) (size w : nat) : res N := b <- rd data (S size) w ; Ok (be_dec b).
Definition to_signed (bits : Z) (v : N) : Z :=
  let z := Z.of_N v in if (z <? 2 ^ (bits - 1))%Z then z else (z - 2 ^ bits)%Z.

(** What a type byte starts: a whole node, or an array or map with its number of children. *)
Inductive started := S_node (n : node) | S_open (map : bool) (children : N).

(** mpack.c:5264-5267 mpack_tree_parse_bytes. *)
Definition parse_bytes (data : list N) (size : nat) (left got len : N) (mk : list N -> node) : res (started * N) :=
  got' <- reserve left got len ;
  b <- rd data (size + N.to_nat got + 1) (N.to_nat len) ;
  Ok (S_node (mk b), got').

(** mpack.c:5169-5262 mpack_tree_parse_children, up to the allocation of the children. *)
Definition parse_children (left got len : N) (map : bool) : res (started * N) :=
  let total := if map then len * 2 else len in
  got' <- reserve left got total ;
  Ok (S_open map total, got').

(** mpack.c:5278-5653 mpack_tree_parse_node_contents; with the result, the bytes reserved
    after the type byte. *)
Definition parse_contents (data : list N) (size : nat) (left : N) : res (started * N) :=
  tb <- rd data size 1 ;
  let t := byte_at tb 0 in
  let sized (w : nat) (k : N -> N -> res (started * N)) :=
    got <- reserve left 0 (N.of_nat w) ; len <- load data size w ; k got len in
  let number (w : nat) (mk : N -> node) :=
    got <- reserve left 0 (N.of_nat w) ; v <- load data size w ; Ok (S_node (mk v), got) in
  if t <=? 0x7f then Ok (S_node (NUint t), 0)
  else if t <=? 0x8f then parse_children left 0 (t - 0x80) true
  else if t <=? 0x9f then parse_children left 0 (t - 0x90) false
  else if t <=? 0xbf then parse_bytes data size left 0 (t - 0xa0) NStr
  else if 0xe0 <=? t then Ok (S_node (NInt (to_signed 8 t)), 0)
  else match t with
       | 0xc0 => Ok (S_node NNil, 0)
       | 0xc2 => Ok (S_node (NBool false), 0)
       | 0xc3 => Ok (S_node (NBool true), 0)
       | 0xc4 => sized 1%nat (fun got len => parse_bytes data size left got len NBin)
       | 0xc5 => sized 2%nat (fun got len => parse_bytes data size left got len NBin)
       | 0xc6 => sized 4%nat (fun got len => parse_bytes data size left got len NBin)
       | 0xca => number 4%nat (fun _ => NOther)
       | 0xcb => number 8%nat (fun _ => NOther)
       | 0xcc => number 1%nat NUint
       | 0xcd => number 2%nat NUint
       | 0xce => number 4%nat NUint
       | 0xcf => number 8%nat NUint
       | 0xd0 => number 1%nat (fun v => NInt (to_signed 8 v))
       | 0xd1 => number 2%nat (fun v => NInt (to_signed 16 v))
       | 0xd2 => number 4%nat (fun v => NInt (to_signed 32 v))
       | 0xd3 => number 8%nat (fun v => NInt (to_signed 64 v))
       | 0xd9 => sized 1%nat (fun got len => parse_bytes data size left got len NStr)
       | 0xda => sized 2%nat (fun got len => parse_bytes data size left got len NStr)
       | 0xdb => sized 4%nat (fun got len => parse_bytes data size left got len NStr)
       | 0xdc => sized 2%nat (fun got len => parse_children left got len false)
       | 0xdd => sized 4%nat (fun got len => parse_children left got len false)
       | 0xde => sized 2%nat (fun got len => parse_children left got len true)
       | 0xdf => sized 4%nat (fun got len => parse_children left got len true)
       | _ => Er EINVAL   (* 0xc1, and the extension types *)
       end.

(** mpack.h mpack_level_t: a level of the parse stack.  [f_left] children have not been
    started; [f_done], last first, are the finished ones (the C code writes them in
    place). *)
Inductive kind := K_root | K_arr | K_map.
Record frame := mkF { f_kind : kind; f_left : N; f_done : list node }.

Fixpoint pairs (l : list node) : list (node * node) :=
  match l with
  | a :: b :: r => (a, b) :: pairs r
  | _ => []
  end.
Definition close (f : frame) : node :=
  match f_kind f with
  | K_map => NMap (pairs (rev (f_done f)))
  | _ => NArr (rev (f_done f))
  end.
Definition add (n : node) (f : frame) : frame := mkF (f_kind f) (f_left f) (n :: f_done f).

(** mpack.c:5719-5723: pop the finished levels; level 0 finished ends the parse. *)
Fixpoint pop (top : frame) (below : list frame) : node + list frame :=
  if f_left top =? 0 then
    match below with
    | [] => inl (hd NNil (f_done top))
    | g :: r => pop (add (close top) g) r
    end
  else inr (top :: below).

(** mpack.c:5655-5725 mpack_tree_parse_node, mpack_tree_continue_parsing: the root and
    the size of the tree. *)
Fixpoint parse_loop (fuel : nat) (data : list N) (size : nat) (left : N) (stack : list frame) : res (node * nat) :=
  match fuel, stack with
  | S k, f :: below =>
      c <- parse_contents data size left ;
      let (s, got) := c in
      let f' := mkF (f_kind f) (f_left f - 1) (f_done f) in
      let children := match s with S_open _ total => total | S_node _ => 0 end in
      let size' := (size + 1 + N.to_nat (got - children))%nat in
      let next :=
        match s with
        | S_node n => pop (add n f') below
        | S_open m 0 => pop (add (if m then NMap [] else NArr []) f') below
        | S_open m total => pop (mkF (if m then K_map else K_arr) total []) (f' :: below)
        end in
      match next with
      | inl n => Ok (n, size')
      | inr stack' => parse_loop k data size' (left - got) stack'
      end
  | _, _ => Er EUB
  end.

(** mpack.c:5748-5868 mpack_tree_parse_start, mpack_tree_parse.  Each round consumes a
    byte at least, so as many rounds as bytes are enough (MpackFacts). *)
Definition parse_tree (data : list N) : res (node * nat) :=
  let len := N.of_nat (length data) in
  _ <- reserve len 0 1 ;
  parse_loop (length data) data 0 (len - 1) [mkF K_root 1 []].

(** pack.c:237-264 bf_rpack_new and 294-297 bf_rpack_root. *)
Definition decode (data : list N) : res node := p <- parse_tree data ; Ok (fst p).
