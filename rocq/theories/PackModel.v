(** Serialisation: pack.c (the bf_rpack accessors and the bf_wpack buffer) and the
    *_pack / *_new_from_pack functions of matcher.c, rule.c, set.c, chain.c, hook.c
    and counter.c.  A serialised object is a tree of MessagePack nodes, as mpack
    gives it; for the bytes of each node see MpackModel.

    mpack's tree keeps the first error it meets and makes later reads fail; below,
    the first error ends the reading. *)
From Coq Require Import String NArith ZArith List Bool Arith.
From Verif Require Import Bytes Types GenModel ChainModel HashModel ListModel StrModel EnumModel SetModel.
Import ListNotations.
Local Open Scope string_scope.
Local Open Scope list_scope.
Local Open Scope N_scope.
Local Open Scope res_scope.

Definition EDOM : N := 33.

(** mpack_type_t, external/mpack.h: [NOther] stands for float and double (ext
    types are refused by the parser, see MpackModel). *)
Inductive node :=
| NNil
| NBool (b : bool)
| NUint (n : N)
| NInt (z : Z)
| NStr (s : list N)
| NBin (b : list N)
| NArr (l : list node)
| NMap (l : list (node * node))
| NOther.

(** mpack.c:6698-6737 mpack_node_map_str_impl: the value under a string key; a
    second occurrence of the key is an error. *)
Inductive found := Absent | Once (v : node) | Twice.
Fixpoint find_key (k : list N) (l : list (node * node)) : found :=
  match l with
  | [] => Absent
  | (NStr s, v) :: r =>
      if bytes_eqb k s
      then match find_key k r with Absent => Once v | _ => Twice end
      else find_key k r
  | _ :: r => find_key k r
  end.

(** pack.c:327-330 bf_rpack_kv_contains: false for a key seen twice, but then the
    tree holds an error and the next access fails with EINVAL; here it fails at
    once. *)
Definition contains (n : node) (k : list N) : res bool :=
  match n with
  | NMap l => match find_key k l with Absent => Ok false | Once _ => Ok true | Twice => Er EINVAL end
  | _ => Er EINVAL
  end.

(** pack.c:332-352 bf_rpack_kv_node. *)
Definition kv_node (n : node) (k : list N) : res node :=
  match n with
  | NMap l => match find_key k l with Once v => Ok v | _ => Er ENOENT end
  | _ => Er EDOM
  end.

(** pack.c:354-373 bf_rpack_int: int and unsigned nodes, in the range of int. *)
Definition rd_int (n : node) : res Z :=
  match n with
  | NUint u => if u <? two31 then Ok (Z.of_N u) else Er EINVAL
  | NInt z => if ((- Z.of_N two31 <=? z) && (z <? Z.of_N two31))%Z then Ok z else Er EINVAL
  | _ => Er EDOM
  end.

(** pack.c:387-405 bf_rpack_uint, 419-437 u8, 451-469 u16, 483-501 u32, 515-533 u64:
    unsigned nodes below 2^bits. *)
Definition rd_uint (bound : N) (n : node) : res N :=
  match n with
  | NUint u => if u <? bound then Ok u else Er EINVAL
  | _ => Er EDOM
  end.

(** pack.c:547-565 bf_rpack_str: mpack_node_cstr_alloc refuses a NUL byte. *)
Definition rd_str (n : node) : res (list N) :=
  match n with
  | NStr s => if existsb (N.eqb 0) s then Er EINVAL else Ok s
  | _ => Er EDOM
  end.

(** pack.c:582-600 bf_rpack_bool and 614-635 bf_rpack_bin. *)
Definition rd_bool (n : node) : res bool := match n with NBool b => Ok b | _ => Er EDOM end.
Definition rd_bin (n : node) : res (list N) := match n with NBin b => Ok b | _ => Er EDOM end.

(** pack.c:650-690 bf_rpack_kv_obj, bf_rpack_kv_array. *)
Definition rd_arr (n : node) : res (list node) := match n with NArr l => Ok l | _ => Er EDOM end.
Definition rd_obj (n : node) : res node := match n with NMap _ => Ok n | _ => Er EDOM end.

(** pack.h:317-358 bf_rpack_kv_enum, bf_rpack_enum: an int in [0, max). *)
Definition rd_enum (max : N) (n : node) : res N :=
  z <- rd_int n ;
  if ((0 <=? z) && (z <? Z.of_N max))%Z then Ok (Z.to_N z) else Er EINVAL.

Definition kv {A} (rd : node -> res A) (n : node) (k : string) : res A := c <- kv_node n (lit k) ; rd c.
(** if (bf_rpack_kv_contains(...)) read it, otherwise keep the default. *)
Definition kv_opt {A} (rd : node -> res A) (n : node) (k : string) (default : A) : res A :=
  b <- contains n (lit k) ; if b then kv rd n k else Ok default.

Fixpoint map_res {A B} (f : A -> res B) (l : list A) : res (list B) :=
  match l with
  | [] => Ok []
  | x :: r => y <- f x ; ys <- map_res f r ; Ok (y :: ys)
  end.

(** mpack_write_int (bf_wpack_int, bf_wpack_enum): a value that is not negative is
    written as an unsigned node. *)
Definition wr_int (z : Z) : node := if (z <? 0)%Z then NInt z else NUint (Z.to_N z).
Definition key (k : string) : node := NStr (lit k).

Definition enum_of {A} (o : option A) : res A := match o with Some a => Ok a | None => Er EUB end.

(** ** matcher.c:1394-1406 bf_matcher_pack, 1344-1381 bf_matcher_new_from_pack and
    1288-1307 bf_matcher_new (allocations succeed). *)
Definition matcher_pack (m : matcher) : node :=
  NMap [(key "type", wr_int (Z.of_N (mtype_id (m_type m))));
        (key "op", wr_int (Z.of_N (mop_id (m_op m))));
        (key "negate", NBool (m_neg m));
        (key "payload", NBin (m_pay m))].

Definition matcher_new (t : mtype) (o : mop) (pay : list N) (neg : bool) : res matcher :=
  match pay with
  | [] => Er EABORT   (* assert((payload && payload_len) || (!payload && !payload_len)) with payload != NULL *)
  | _ => Ok (mkM t o neg pay)
  end.

Definition matcher_unpack (n : node) : res matcher :=
  ti <- kv (rd_enum 31) n "type" ;
  t <- enum_of (mtype_of_id ti) ;
  oi <- kv (rd_enum 5) n "op" ;
  o <- enum_of (mop_of_id oi) ;
  neg <- kv_opt rd_bool n "negate" false ;
  pay <- kv rd_bin n "payload" ;
  matcher_new t o pay neg.

(** ** rule.c:161-178 bf_rule_pack, 68-146 bf_rule_new_from_pack; the defaults are
    those of bf_rule_new (rule.c:51-66, a zeroed structure). *)
Definition rule_pack (r : rule) : node :=
  NMap [(key "index", NUint (r_index r));
        (key "log", NUint (r_log r));
        (key "log_rate_ns", NUint (r_log_rate r));
        (key "has_counters", NBool (r_counters r));
        (key "mark", NUint (r_mark r));
        (key "verdict", wr_int (Z.of_N (verdict_id (r_verdict r))));
        (key "redirect_ifindex", NUint (r_rd_ifindex r));
        (key "redirect_dir", wr_int (Z.of_N (rdir_id (r_rd_dir r))));
        (key "matchers", NArr (map matcher_pack (r_matchers r)))].

(** rule.c:100-112: "has_counters", or its older name "counters". *)
Definition unpack_counters (n : node) : res bool :=
  match contains n (lit "has_counters") with
  | Ok true => kv rd_bool n "has_counters"
  | Ok false =>
      match contains n (lit "counters") with
      | Ok true => kv rd_bool n "counters"
      | _ => Er ENOENT
      end
  | Er _ => Er ENOENT
  end.

Definition rule_unpack (n : node) : res rule :=
  index <- kv (rd_uint two32) n "index" ;
  log <- kv (rd_uint 256) n "log" ;
  rate <- kv_opt (rd_uint two64) n "log_rate_ns" 0 ;
  counters <- unpack_counters n ;
  mark <- kv (rd_uint two64) n "mark" ;
  vi <- kv (rd_enum 5) n "verdict" ;
  v <- enum_of (verdict_of_id vi) ;
  ifx <- kv_opt (rd_uint two32) n "redirect_ifindex" 0 ;
  di <- kv_opt (rd_enum 2) n "redirect_dir" 0 ;
  d <- enum_of (rdir_of_id di) ;
  ml <- kv rd_arr n "matchers" ;
  ms <- map_res matcher_unpack ml ;
  Ok (mkR index ms log rate mark counters false v ifx d).

(** ** set.c:356-377 bf_set_pack and 276-342 bf_set_new_from_pack.  [nd] and [tb]
    are the answers of the allocator for the elements and the hash table. *)
Definition set_pack (u : uset) : res node :=
  l <- set_read u ;
  Ok (NMap [(key "name", match u_name u with Some s => NStr s | None => NNil end);
            (key "key", NArr (map (fun t => wr_int (Z.of_N (mtype_id t))) (u_key u)));
            (key "elements", NArr (map NBin l))]).

Fixpoint unpack_elems (nd : nat -> option nat) (tb : N -> bool) (i : nat) (u : uset) (l : list node) : res uset :=
  match l with
  | [] => Ok u
  | n :: r =>
      e <- rd_bin n ;
      if negb (length e =? u_esize u)%nat then Er EINVAL
      else
        a <- set_add_elem true (nd i) tb u e ;
        if snd a =? 0 then unpack_elems nd tb (S i) (fst a) r else Er (snd a)
  end.

(** The key loop, set.c:299-312: the ninth component is refused before it is read. *)
Fixpoint unpack_key (room : nat) (l : list node) {struct l} : res (list mtype) :=
  match l, room with
  | [], _ => Ok []
  | _, O => Er E2BIG
  | n :: r, S k =>
      i <- rd_enum 31 n ;
      t <- enum_of (mtype_of_id i) ;
      ts <- unpack_key k r ;
      Ok (t :: ts)
  end.

Definition set_unpack (nd : nat -> option nat) (tb : N -> bool) (n : node) : res uset :=
  c <- kv_node n (lit "name") ;
  name <- match c with NNil => Ok None | _ => s <- rd_str c ; Ok (Some s) end ;
  kl <- kv rd_arr n "key" ;
  ks <- unpack_key 8 kl ;
  u <- set_new name ks ;
  el <- kv rd_arr n "elements" ;
  unpack_elems nd tb 0 u el.

(** ** chain.c:365-378 bf_chain_pack, 296-350 bf_chain_new_from_pack.  A chain with
    its name and the pointer-level sets behind [c_sets]. *)
Record nchain := mkNC { nc_name : list N; nc_sets : list uset; nc_chain : chain }.

Definition bset_of (u : uset) : res bset :=
  l <- set_read u ; Ok (mkS (u_key u) (u_esize u) (u_trie u) l).

Definition chain_pack (c : nchain) : res node :=
  sets <- map_res set_pack (nc_sets c) ;
  Ok (NMap [(key "name", NStr (nc_name c));
            (key "hook", wr_int (Z.of_N (hook_id (c_hook (nc_chain c)))));
            (key "policy", wr_int (Z.of_N (verdict_id (c_policy (nc_chain c)))));
            (key "sets", NArr sets);
            (key "rules", NArr (map rule_pack (c_rules (nc_chain c))))]).

Fixpoint unpack_sets (nd : nat -> nat -> option nat) (tb : N -> bool) (i : nat) (l : list node) : res (list uset) :=
  match l with
  | [] => Ok []
  | n :: r => u <- set_unpack (nd i) tb n ; us <- unpack_sets nd tb (S i) r ; Ok (u :: us)
  end.

(** chain.c:255-299 bf_chain_new with the name (strdup succeeds). *)
Definition nchain_new (name : list N) (hook_id policy_id : N) (sets : list uset) (rules : list rule) : res nchain :=
  bs <- map_res bset_of sets ;
  c <- chain_new hook_id policy_id bs rules ;
  Ok (mkNC name sets c).

Definition chain_unpack (nd : nat -> nat -> option nat) (tb : N -> bool) (n : node) : res nchain :=
  name <- kv rd_str n "name" ;
  h <- kv (rd_enum 14) n "hook" ;
  p <- kv (rd_enum 5) n "policy" ;
  sl <- kv rd_arr n "sets" ;
  sets <- unpack_sets nd tb 0 sl ;
  rl <- kv rd_arr n "rules" ;
  rules <- map_res rule_unpack rl ;
  nchain_new name h p sets rules.

(** chain.c:487-516 bf_chain_new_from_copy. *)
Definition chain_copy (nd : nat -> nat -> option nat) (tb : N -> bool) (c : nchain) : res nchain :=
  n <- chain_pack c ; chain_unpack nd tb n.

(** counter.c:32-76. *)
Record counter := mkCnt { cnt_count : N; cnt_size : N }.
Definition counter_pack (c : counter) : node :=
  NMap [(key "count", NUint (cnt_count c)); (key "size", NUint (cnt_size c))].
Definition counter_unpack (n : node) : res counter :=
  a <- kv (rd_uint two64) n "count" ; b <- kv (rd_uint two64) n "size" ; Ok (mkCnt a b).
