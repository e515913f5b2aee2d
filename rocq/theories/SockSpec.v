(** Socket operations, as a user of the cgroup socket hooks thinks of them, and how the
    kernel lays them out in struct bpf_sock_addr.  No proofs. *)
From Coq Require Import NArith ZArith List Bool.
From Verif Require Import Bytes Types World.
Import ListNotations.
Local Open Scope N_scope.

(** A connect() or sendmsg() call: address family of the socket (2: AF_INET, 10:
    AF_INET6), protocol of the socket, destination, source (sendmsg only). *)
Record sockop := mkOp {
  so_family : N;
  so_proto : N;
  so_dst : list N;           (** 4 or 16 bytes *)
  so_port : list N;          (** destination port, 2 bytes, network order *)
  so_src : option (list N)
}.

(** include/uapi/linux/bpf.h, struct bpf_sock_addr: user_ip4 at 4, user_ip6 at 8,
    user_port at 24 (network order, followed by two zero bytes), family at 28,
    protocol at 36, msg_src_ip4 at 40, msg_src_ip6 at 44; 72 bytes in all. *)
Record laid_out (h : hook) (d : list N) (o : sockop) : Prop := mkLaid {
  lo_size : length d = 72%nat;
  lo_family : le_dec (sub d 28 4) = so_family o;
  lo_proto : le_dec (sub d 36 4) = so_proto o;
  lo_port : sub d 24 2 = so_port o;
  lo_dst : match h with
           | H_CONNECT4 | H_SENDMSG4 => sub d 4 4 = so_dst o
           | _ => sub d 8 16 = so_dst o
           end;
  lo_src : match h with
           | H_SENDMSG4 => so_src o = Some (sub d 40 4)
           | H_SENDMSG6 => so_src o = Some (sub d 44 16)
           | _ => so_src o = None
           end
}.

(** Does a matcher of this type make sense for the operation? *)
Definition op_has (o : sockop) (t : mtype) : bool :=
  match t with
  | M_IP4_SADDR | M_IP4_SNET | M_IP4_DADDR | M_IP4_DNET | M_IP4_PROTO => so_family o =? 2
  | M_IP6_SADDR | M_IP6_SNET | M_IP6_DADDR | M_IP6_DNET => so_family o =? 10
  | M_TCP_DPORT => so_proto o =? 6
  | M_UDP_DPORT => so_proto o =? 17
  | M_DPORT => (so_proto o =? 6) || (so_proto o =? 17)
  | _ => true
  end.

(** What a matcher of this type looks at. *)
Definition op_field (o : sockop) (t : mtype) : list N :=
  match t with
  | M_IP4_DADDR | M_IP4_DNET | M_IP6_DADDR | M_IP6_DNET => so_dst o
  | M_IP4_SADDR | M_IP4_SNET | M_IP6_SADDR | M_IP6_SNET => match so_src o with Some a => a | None => [] end
  | M_TCP_DPORT | M_UDP_DPORT | M_DPORT => so_port o
  | M_IP4_PROTO => [so_proto o]
  | _ => []
  end.

(** The network protocol of the operation. *)
Definition op_l3 (o : sockop) : N :=
  if so_family o =? 2 then 0x0800 else if so_family o =? 10 then 0x86DD else 0.

(** Addresses are logged on 16 bytes. *)
Definition op_pad (a : list N) : list N := a ++ repeat 0 (16 - length a).

(** A log entry about the operation: its protocols, no size, its addresses and port, and
    the index and verdict of one of the enabled rules. *)
Definition op_logged (c : chain) (o : sockop) (l : logent) : Prop :=
  lg_l3 l = op_l3 o /\ lg_l4 l = so_proto o /\ lg_size l = 0 /\
  lg_sock l = Some (mkSk (option_map op_pad (so_src o)) (op_pad (so_dst o)) (be_dec (so_port o))) /\
  exists r, In r (c_rules c) /\ r_disabled r = false /\ lg_rule l = r_index r /\ lg_verdict l = verdict_id (r_verdict r).

(** All that a run may change: packet counts of the first [n] + 1 counters, and new log
    entries that satisfy [P].  (Time stamps and the numbers of clock reads, random draws
    and reservations are not mentioned.) *)
Record sock_run (n : N) (P : logent -> Prop) (w w' : world) : Prop := mkRun {
  sr_bytes : forall i, snd (w_cnt w' i) mod two64 = snd (w_cnt w i) mod two64;
  sr_err : forall i, n < i -> w_cnt w' i = w_cnt w i;
  sr_mark : w_mark w' = w_mark w;
  sr_redir : w_redir w' = w_redir w;
  sr_log : exists new, w_log w' = new ++ w_log w /\ Forall P new
}.
