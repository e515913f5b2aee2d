(** Vocabulary of the packet-path properties: what a run returns, chains that test a
    single matcher, disabled rules, prefixes bit by bit.  No proofs. *)
From Coq Require Import NArith ZArith List Bool.
From Verif Require Import Bytes Types World BpfModel GenModel PktSpec ViewSpec Wf ViewModel Deploy EvalSpec.
Import ListNotations.
Local Open Scope N_scope.

(** The program returns, to the kernel, the code of verdict [vd]. *)
Definition returns (c : chain) (e : env) (prog : list insn) (w : world) (vd : verdict) : Prop :=
  exists k w', exec e prog w = Done k w' /\ kernel_code (hook_flavor (c_hook c)) vd = Some k.

(** The packet is dropped when [b] holds and accepted otherwise. *)
Definition drops_when (c : chain) (e : env) (prog : list insn) (w : world) (b : bool) : Prop :=
  returns c e prog w (if b then V_DROP else V_ACCEPT).

(** A chain that drops what matcher [m] accepts: one enabled rule, policy ACCEPT. *)
Record tests (c : chain) (m : matcher) : Prop := mkTests {
  t_policy : c_policy c = V_ACCEPT;
  t_rule : exists r, c_rules c = [r] /\ r_matchers r = [m] /\ r_disabled r = false /\ r_verdict r = V_DROP
}.

(** The same rule, disabled. *)
Definition disable (r : rule) : rule :=
  mkR (r_index r) (r_matchers r) (r_log r) (r_log_rate r) (r_mark r) (r_counters r) true
      (r_verdict r) (r_rd_ifindex r) (r_rd_dir r).

(** The same chain with other rules. *)
Definition with_rules (c : chain) (rs : list rule) : chain :=
  mkC (c_hook c) (c_policy c) (c_sets c) rs (c_log c) (c_nexthdr c) (c_ratelimit c).

(** Bit [i] of an address, counted from the most significant bit of its first byte. *)
Definition addr_bit (a : list N) (i : N) : bool := N.testbit (byte_at a (N.to_nat (i / 8))) (7 - i mod 8).

(** Two addresses have the same [p] leading bits. *)
Definition same_prefix (p : N) (a b : list N) : Prop := forall i, i < p -> addr_bit a i = addr_bit b i.

(** A network matcher's payload (struct bf_ip4_lpm_key / bf_ip6_lpm_key): prefix
    length on 4 bytes, then the address. *)
Definition net_plen (pay : list N) : N := le_dec (firstn 4 pay).
Definition net_addr (n : nat) (pay : list N) : list N := firstn n (skipn 4 pay).

(** The code returned when rule [d] decides, or no rule. *)
Definition code_for (c : chain) (e : env) (d : option rule) (k : N) : Prop :=
  let fl := hook_flavor (c_hook c) in
  match d with
  | Some r => match r_verdict r with
              | V_REDIRECT => k = o_redir (e_or e) (r_rd_ifindex r) (match fl, r_rd_dir r with F_TC, D_INGRESS => 1 | _, _ => 0 end)
              | vd => kernel_code fl vd = Some k
              end
  | None => kernel_code fl (c_policy c) = Some k
  end.
