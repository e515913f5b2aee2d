(** The IPv6 extension header walk as the generated code performs it, and the
    environments in which a loaded program runs. *)
From Coq Require Import NArith ZArith List Bool.
From Verif Require Import Bytes Types World BpfModel GenModel PktSpec ViewSpec Wf.
Import ListNotations.
Local Open Scope N_scope.

(** stub.c:250-317: is the ELF stub called for this first Next Header? *)
Definition calls_stub (first : N) : bool :=
  negb ((first =? 6) || (first =? 17)) &&
  (((first <? 64) && N.testbit LOW_EH_BITMASK first) ||
   (first =? 135) || (first =? 139) || (first =? 140)).

(** stub.c:250-317 with parse_ipv6_nh.bpf.c / parse_ipv6_eh.bpf.c (the loops are
    those of BpfModel.v; they only use the packet bytes of the environment). *)
Definition code_walk (e : env) (store_nexthdr : bool) : walker := fun _ first off =>
  if calls_stub first then
    if store_nexthdr then
      let '(p, o, m) := ip6_nh_loop e EXT_MAX_CHAIN first off 0 in
      (p mod 256, o, fun t => negb (N.land m (eh_bit t) =? 0))
    else
      let '(p, o) := ip6_eh_loop e EXT_MAX_CHAIN first off in (p mod 256, o, fun _ => false)
  else (first, off, fun _ => false).

(** What a program run in [e] for hook [h] is given. *)
Definition packet_of (e : env) (h : hook) : packet :=
  mkP (e_pkt e) (e_family e)
      (if has_link (hook_flavor h) then e_len e
       else if is_sock_addr h then 0 else e_len e + 14)
      (match hook_flavor h with
       | F_NF => if nf_ingress h then e_ifindex e else e_ifindex_out e
       | _ => e_ifindex e end)
      (e_hash e).

(** A socket context: 72 bytes, the port in the low half of its field, and an Internet
    protocol number in the protocol field.  (The kernel puts 262 there for Multipath
    TCP sockets; see finding F43.) *)
Definition sock_ctx (d : list N) : Prop :=
  length d = 72%nat /\ sub d 26 2 = [0; 0] /\ sock_proto d < 256.

(** The environment a program generated for [c] is loaded into: maps sized and
    filled as program.c does (bf_program_load_*_map), kernel values within the
    ranges of their C types. *)
Record wf_env (c : chain) (e : env) : Prop := mkWfE {
  we_hook : e_hook e = c_hook c;
  we_flavor : e_flavor e = hook_flavor (c_hook c);
  we_bytes : bytes (e_pkt e);
  we_len : e_len e < two32;
  we_if : e_ifindex e < two32;
  we_ifo : e_ifindex_out e < two32;
  we_family : e_family e < two31;
  we_hash : e_hash e < two32;
  we_dynptr : e_dynptr e < two64;
  we_sets : forall g, e_sets e g = set_maps c g;
  we_ncnt : e_ncnt e = n_rules c + 2;
  we_nstate : e_nstate e = n_rules c;
  we_rand : forall n, o_rand (e_or e) n < two32;
  we_sock : is_sock_addr (c_hook c) = true -> sock_ctx (e_pkt e)
}.
