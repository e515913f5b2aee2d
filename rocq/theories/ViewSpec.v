(** How a packet is read: from the bytes a program can see to the view on which
    rules are evaluated.  This file does not depend on the code generator. *)
From Coq Require Import NArith ZArith List Bool.
From Verif Require Import Bytes Types World PktSpec.
Import ListNotations.
Local Open Scope N_scope.

(** A packet as handed to a program. *)
Record packet := mkP {
  p_data : list N;      (** bytes from the link header (XDP, TC) or the network header *)
  p_family : N;         (** address family (2 = IPv4, 10 = IPv6), used when there is no link header *)
  p_len : N;            (** accounted length *)
  p_if : N;             (** interface index *)
  p_hash : N            (** kernel flow hash *)
}.

(** For an IPv6 packet: given the Next Header value of the fixed header and the
    offset that follows it, the upper-layer protocol, its offset, and the extension
    headers met. *)
Definition walker := list N -> N -> N -> N * N * (N -> bool).

(** Size of the transport headers bpfilter reads; 0: not a supported protocol. *)
Definition l4_size (p : N) : N :=
  if p =? 6 then 20
  else if (p =? 17) || (p =? 1) || (p =? 58) then 8
  else 0.

(** [slice d o n]: [n] bytes at offset [o], None when the packet is too short. *)
Definition slice (d : list N) (o n : N) : option (list N) :=
  if o + n <=? N.of_nat (length d) then Some (sub d (N.to_nat o) (N.to_nat n)) else None.

Definition has_link (f : flavor) : bool := match f with F_XDP | F_TC => true | _ => false end.

(** Ethertype and offset of the network header. *)
Definition network (f : flavor) (p : packet) : option (N * N) :=
  if has_link f then
    match slice (p_data p) 0 14 with
    | Some h2 => Some (be_dec (sub h2 12 2), 14)
    | None => None
    end
  else Some (if p_family p =? 2 then 0x0800 else if p_family p =? 10 then 0x86DD else 0, 0).

Section Parse.
  Variable walk : walker.
  Variable fhash : N -> N -> list N -> list N -> N.

  Definition with_transport (p : packet) (l3 : N) (h3 : list N) (proto off : N) (eh : N -> bool)
    : option view :=
    if l4_size proto =? 0 then
      Some (mkV l3 0 h3 [] eh (p_if p) (p_len p) (p_hash p) (fhash l3 0 h3 []) None)
    else
      match slice (p_data p) off (l4_size proto) with
      | Some h4 => Some (mkV l3 proto h3 h4 eh (p_if p) (p_len p) (p_hash p) (fhash l3 proto h3 h4) None)
      | None => None
      end.

  (** [None]: a header the packet announces is missing (truncated packet). *)
  Definition parse (f : flavor) (p : packet) : option view :=
    match network f p with
    | None => None
    | Some (et, o3) =>
        if et =? 0x0800 then
          match slice (p_data p) o3 20 with
          | Some h3 => with_transport p et h3 (byte_at h3 9) (o3 + 4 * (byte_at h3 0 mod 16)) (fun _ => false)
          | None => None
          end
        else if et =? 0x86DD then
          match slice (p_data p) o3 40 with
          | Some h3 =>
              let '(proto, off, eh) := walk (p_data p) (byte_at h3 6) (o3 + 40) in
              with_transport p et h3 proto off eh
          | None => None
          end
        else Some (mkV 0 0 [] [] (fun _ => false) (p_if p) (p_len p) (p_hash p) (fhash 0 0 [] []) None)
    end.
End Parse.

(** ** Socket operations *)

(** On the cgroup socket hooks a program is given a connect() or sendmsg() call, laid
    out as the kernel's struct bpf_sock_addr (72 bytes, include/uapi/linux/bpf.h):
    destination IPv4 address at 4, destination IPv6 address at 8, destination port in
    network order at 24, address family of the socket at 28, transport protocol at 36,
    source IPv4 address at 40, source IPv6 address at 44. *)
Definition pad16 (a : list N) : list N := a ++ repeat 0 (16 - length a).

(** sendmsg() has a source address, connect() has none. *)
Definition sock_src (h : hook) (d : list N) : option (list N) :=
  match h with
  | H_SENDMSG4 => Some (sub d 40 4)
  | H_SENDMSG6 => Some (sub d 44 16)
  | _ => None
  end.

Definition sock_dst (h : hook) (d : list N) : list N :=
  if sock_addr_ip4 h then sub d 4 4 else sub d 8 16.

Definition sock_proto (d : list N) : N := le_dec (sub d 36 4).

(** What is logged of it. *)
Definition sock_info (h : hook) (d : list N) : sockinfo :=
  mkSk (option_map pad16 (sock_src h d)) (pad16 (sock_dst h d)) (be_dec (sub d 24 2)).

(** The operation, presented as the packet it would send: its network header holds the
    protocol and the addresses, its transport header the destination port, and
    everything else is 0. *)
Definition sock_view (h : hook) (d : list N) : view :=
  let fam := le_dec (sub d 28 4) in
  let l3 := if fam =? 2 then 0x0800 else if fam =? 10 then 0x86DD else 0 in
  let src n := match sock_src h d with Some s => s | None => repeat 0 n end in
  let h3 := if sock_addr_ip4 h
            then repeat 0 9 ++ [sock_proto d mod 256; 0; 0] ++ src 4%nat ++ sock_dst h d
            else repeat 0 8 ++ src 16%nat ++ sock_dst h d in
  mkV l3 (sock_proto d) h3 ([0; 0] ++ sub d 24 2) (fun _ => false) 0 0 0 0 (Some (sock_info h d)).
