(** The MessagePack format (https://github.com/msgpack/msgpack/blob/master/spec.md),
    without the extension types: [msgpack b n] says that the bytes [b] are one object
    and that [n] is its value.  Floating-point values are all [NOther]. *)
From Coq Require Import NArith ZArith List.
From Verif Require Import Bytes Types GenModel SetModel PackModel.
Import ListNotations.
Local Open Scope N_scope.

(** [h] announces [n] elements: either one byte [base + n] with [n < room], or one of
    the type bytes of [long] followed by [n] as a big-endian number of that many bytes. *)
Definition announces (base room : N) (long : list (N * nat)) (h : list N) (n : N) : Prop :=
  (n < room /\ h = [base + n]) \/
  (exists t w b, In (t, w) long /\ length b = w /\ h = t :: b /\ n = be_dec b).

Definition str_head := announces 0xa0 32 [(0xd9, 1%nat); (0xda, 2%nat); (0xdb, 4%nat)].
Definition bin_head := announces 0 0 [(0xc4, 1%nat); (0xc5, 2%nat); (0xc6, 4%nat)].
Definition arr_head := announces 0x90 16 [(0xdc, 2%nat); (0xdd, 4%nat)].
Definition map_head := announces 0x80 16 [(0xde, 2%nat); (0xdf, 4%nat)].

(** Two's complement, big-endian. *)
Definition signed (b : list N) : Z :=
  let range := (2 ^ (8 * Z.of_nat (length b)))%Z in
  if (2 * Z.of_N (be_dec b) <? range)%Z then Z.of_N (be_dec b) else (Z.of_N (be_dec b) - range)%Z.

Definition flat (l : list (node * node)) : list node := concat (map (fun kv => [fst kv; snd kv]) l).

Inductive msgpack : list N -> node -> Prop :=
| P_nil : msgpack [0xc0] NNil
| P_false : msgpack [0xc2] (NBool false)
| P_true : msgpack [0xc3] (NBool true)
| P_fixuint v : v < 128 -> msgpack [v] (NUint v)
| P_uint t w b : In (t, w) [(0xcc, 1%nat); (0xcd, 2%nat); (0xce, 4%nat); (0xcf, 8%nat)] -> length b = w ->
    msgpack (t :: b) (NUint (be_dec b))
| P_fixint v : 0xe0 <= v -> v < 256 -> msgpack [v] (NInt (signed [v]))
| P_int t w b : In (t, w) [(0xd0, 1%nat); (0xd1, 2%nat); (0xd2, 4%nat); (0xd3, 8%nat)] -> length b = w ->
    msgpack (t :: b) (NInt (signed b))
| P_float t w b : In (t, w) [(0xca, 4%nat); (0xcb, 8%nat)] -> length b = w -> msgpack (t :: b) NOther
| P_str h s : str_head h (N.of_nat (length s)) -> msgpack (h ++ s) (NStr s)
| P_bin h s : bin_head h (N.of_nat (length s)) -> msgpack (h ++ s) (NBin s)
| P_arr h b l : arr_head h (N.of_nat (length l)) -> msgpacks b l -> msgpack (h ++ b) (NArr l)
| P_map h b l : map_head h (N.of_nat (length l)) -> msgpacks b (flat l) -> msgpack (h ++ b) (NMap l)
with msgpacks : list N -> list node -> Prop :=
| P_none : msgpacks [] []
| P_more a b n l : msgpack a n -> msgpacks b l -> msgpacks (a ++ b) (n :: l).

Scheme msgpack_mind := Induction for msgpack Sort Prop
with msgpacks_mind := Induction for msgpacks Sort Prop.

(** Number of objects in a tree. *)
Fixpoint objects (n : node) : nat :=
  match n with
  | NArr l => S (list_sum (map objects l))
  | NMap l => S (list_sum (map (fun kv => objects (fst kv) + objects (snd kv))%nat l))
  | _ => 1%nat
  end.

(** The values the format can carry: numbers of 64 bits, negative when signed; sizes of
    32 bits. *)
Definition sized {A} (l : list A) : Prop := N.of_nat (length l) < 2 ^ 32.
Inductive carriable : node -> Prop :=
| Cr_nil : carriable NNil
| Cr_bool b : carriable (NBool b)
| Cr_uint v : v < 2 ^ 64 -> carriable (NUint v)
| Cr_int z : (- 2 ^ 63 <= z < 0)%Z -> carriable (NInt z)
| Cr_str s : sized s -> carriable (NStr s)
| Cr_bin s : sized s -> carriable (NBin s)
| Cr_arr l : sized l -> Forall carriable l -> carriable (NArr l)
| Cr_map l : sized l -> Forall (fun kv => carriable (fst kv) /\ carriable (snd kv)) l -> carriable (NMap l).

(** A chain whose names, payloads and lists stay below 2^32. *)
Definition roomy_set (u : uset) : Prop :=
  match u_name u with Some s => sized s | None => True end /\ sized (u_key u) /\
  forall l, set_read u = Ok l -> sized l /\ Forall sized l.
Definition roomy (c : nchain) : Prop :=
  sized (nc_name c) /\ sized (nc_sets c) /\ Forall roomy_set (nc_sets c) /\ sized (c_rules (nc_chain c)) /\
  Forall (fun r => sized (r_matchers r) /\ Forall (fun m => sized (m_pay m)) (r_matchers r)) (c_rules (nc_chain c)).
