(** What the texts that bfcli shows are for. *)
From Coq Require Import NArith List Bool.
From Verif Require Import Bytes Types StrModel ParseModel PrintModel.
Import ListNotations.
Local Open Scope N_scope.

(** The machine's functions are inverse to each other, and no interface has a name that
    is a number. *)
Definition ip6_char (c : N) : bool := isdigit c || ((97 <=? c) && (c <=? 102)) || (c =? 58) || (c =? 46).
Record consistent (pe : penv) (se : show_env) : Prop := mkCon {
  co_name : forall i n, se_ifname se i = Some n -> 0 < i < two31 /\ pe_ifindex pe n = i;
  co_number : forall i, se_ifname se i = None -> pe_ifindex pe (dec i) = 0;
  co_ip6 : forall a, length a = 16%nat -> bytes a -> exists s, se_ntop6 se a = Some s /\ pe_pton6 pe s = Some a /\
             s <> [] /\ (length s <= 45)%nat /\ forallb ip6_char s = true /\ first_char s <> 46
}.
