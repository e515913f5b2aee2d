(** The part of the outside world that a filtering program can observe and change.
    This vocabulary is shared by the machine model and by the packet-level
    specification; it contains no code of bpfilter. *)
From Coq Require Import NArith ZArith List Bool.
From Verif Require Import Bytes.
Import ListNotations.
Local Open Scope N_scope.

(** The addresses of a socket operation as logged, struct bf_log_sock_addr
    (include/bpfilter/runtime.h:143-162), without the process id and name. *)
Record sockinfo := mkSk {
  sk_src : option (list N);  (** source address, where the hook has one: 16 bytes, IPv4 padded with zeros *)
  sk_dst : list N;           (** destination address, likewise *)
  sk_port : N                (** destination port, host order *)
}.

(** One published log entry, struct bf_log (include/bpfilter/runtime.h:172-205),
    without the copied header bytes (see LogModel.v for those). *)
Record logent := mkLog {
  lg_ts : N;          (** time stamp *)
  lg_rule : N;        (** index of the rule *)
  lg_verdict : N;     (** verdict of the rule, as in enum bf_verdict *)
  lg_l3 : N;          (** ethertype, host order *)
  lg_l4 : N;          (** transport protocol *)
  lg_size : N;        (** packet size; 0 for a socket operation *)
  lg_req : N;         (** requested headers (4 bits); 0 for a socket operation *)
  lg_sock : option sockinfo   (** the socket operation, if it is one *)
}.

Record world := mkW {
  w_cnt : N -> N * N;        (** counters map of this CPU: index -> (packets, bytes) *)
  w_ts : N -> N;             (** state map: rule index -> last log time stamp *)
  w_log : list logent;       (** published log entries, most recent first *)
  w_mark : N;                (** mark of the packet *)
  w_draws : nat;             (** random numbers consumed *)
  w_clks : nat;              (** clock reads done *)
  w_rings : nat;             (** ring buffer reservations attempted *)
  w_redir : option (N * N)   (** last bpf_redirect(ifindex, flags) *)
}.

Definition updN {A} (f : N -> A) (k : N) (v : A) : N -> A :=
  fun x => if x =? k then v else f x.

(** Account one packet of [size] bytes on counter [k] (64-bit counters). *)
Definition w_count (w : world) (k size : N) : world :=
  let '(c, s) := w_cnt w k in
  mkW (updN (w_cnt w) k ((c + 1) mod two64, (s + size) mod two64))
      (w_ts w) (w_log w) (w_mark w) (w_draws w) (w_clks w) (w_rings w) (w_redir w).

Definition w_set_mark (w : world) (m : N) : world :=
  mkW (w_cnt w) (w_ts w) (w_log w) m (w_draws w) (w_clks w) (w_rings w) (w_redir w).

Definition w_drew (w : world) : world :=
  mkW (w_cnt w) (w_ts w) (w_log w) (w_mark w) (S (w_draws w)) (w_clks w) (w_rings w) (w_redir w).

Definition w_clocked (w : world) : world :=
  mkW (w_cnt w) (w_ts w) (w_log w) (w_mark w) (w_draws w) (S (w_clks w)) (w_rings w) (w_redir w).

Definition w_stamp (w : world) (r ts : N) : world :=
  mkW (w_cnt w) (updN (w_ts w) r ts) (w_log w) (w_mark w) (w_draws w) (w_clks w) (w_rings w) (w_redir w).

Definition w_ringed (w : world) : world :=
  mkW (w_cnt w) (w_ts w) (w_log w) (w_mark w) (w_draws w) (w_clks w) (S (w_rings w)) (w_redir w).

Definition w_publish (w : world) (l : logent) : world :=
  mkW (w_cnt w) (w_ts w) (l :: w_log w) (w_mark w) (w_draws w) (w_clks w) (w_rings w) (w_redir w).

Definition w_redirect (w : world) (i f : N) : world :=
  mkW (w_cnt w) (w_ts w) (w_log w) (w_mark w) (w_draws w) (w_clks w) (w_rings w) (Some (i, f)).

(** Answers the outside gives: the clock, the random generator, the ring buffer
    (whether the n-th reservation succeeds) and bpf_redirect's return code. *)
Record oracle := mkO {
  o_rand : nat -> N;
  o_clock : nat -> N;
  o_ring : nat -> bool;
  o_redir : N -> N -> N
}.
