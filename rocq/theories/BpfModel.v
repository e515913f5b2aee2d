(** An executable model of the eBPF machine: registers, the 512-byte stack,
    packet slices, maps, helpers, kfuncs and the ELF stubs bpfilter appends to its
    programs.  Instruction semantics follow the kernel's
    Documentation/bpf/standardization/instruction-set.rst.

    Simplifications:
    - pointers are symbolic values, not numbers;
    - fields of kernel objects are named, not addressed by (BTF) offsets;
    - an operation the verifier would reject is [XErr];
    - the ELF stubs of src/libbpfilter/bpf/*.bpf.c are called as built-ins with the
      semantics of their C source. *)
From Coq Require Import NArith ZArith List Bool.
From Verif Require Import Bytes Types World.
Import ListNotations.
Local Open Scope N_scope.

Inductive reg := R0 | R1 | R2 | R3 | R4 | R5 | R6 | R7 | R8 | R9 | R10.

Definition reg_eqb (a b : reg) : bool :=
  match a, b with
  | R0, R0 | R1, R1 | R2, R2 | R3, R3 | R4, R4 | R5, R5 | R6, R6 | R7, R7
  | R8, R8 | R9, R9 | R10, R10 => true
  | _, _ => false
  end.

(** Maps a program can refer to: counters, log ring buffer, state, and one map per
    set group (cgen/fixup.h BF_FIXUP_TYPE_*_MAP_FD). *)
Inductive mapid := MCnt | MLog | MState | MSet (g : nat).

(** Kernel objects reachable from the program's argument. *)
Inductive kobj := KCtx | KNfState | KDevIn | KDevOut | KSkb.

(** Fields of those objects used by bpfilter. *)
Inductive kfield :=
| XdpData | XdpDataEnd | XdpIfindex            (* struct xdp_md *)
| SkLen | SkMark | SkIfindex | SkFamily        (* struct __sk_buff *)
| NfState | NfSkb                              (* struct bpf_nf_ctx *)
| StIn | StOut | StPf                          (* struct nf_hook_state *)
| DevIfindex                                   (* struct net_device *)
| KskLen | KskMark.                            (* struct sk_buff *)

Inductive val :=
| VN (n : N)                   (* 64-bit number *)
| VStk (o : Z)                 (* frame pointer + o *)
| VPkt (start len : N)         (* start of a readable slice of the packet *)
| VVal (l : list N)            (* value of a set map element *)
| VSt (o : Z)                  (* state map value + o *)
| VK (k : kobj)
| VMap (m : mapid)
| VDyn                         (* a dynptr's storage *)
| VUndef.

Definition mapid_eq_dec (a b : mapid) : {a = b} + {a <> b}.
Proof. decide equality. apply PeanoNat.Nat.eq_dec. Defined.

Definition val_eq_dec (a b : val) : {a = b} + {a <> b}.
Proof.
  decide equality; try apply N.eq_dec; try apply Z.eq_dec;
    try apply mapid_eq_dec; try (apply list_eq_dec; apply N.eq_dec).
  decide equality.
Defined.

(** One byte of stack: undefined, a number, or byte [i] of a stored pointer. *)
Inductive mb := MU | MB (n : N) | MP (v : val) (i : nat).

Definition stack := Z -> mb.

(** Static environment of one execution. *)
Record env := mkE {
  e_hook : hook;                  (* where the program is attached *)
  e_flavor : flavor;
  e_pkt : list N;                 (* data visible through the dynptr; on the socket
                                     hooks, the bytes of struct bpf_sock_addr *)
  e_len : N;                      (* length as reported by the context *)
  e_ifindex : N;                  (* ifindex: ctx field, or input device (NF) *)
  e_ifindex_out : N;              (* output device (NF) *)
  e_family : N;                   (* AF_INET / AF_INET6 / other *)
  e_hash : N;                     (* bpf_get_hash_recalc *)
  e_dynptr : N;                   (* return code of bpf_dynptr_from_* *)
  e_direct : N -> N -> bool;      (* is the slice (offset,len) in linear data? *)
  e_sets : nat -> option (bool * nat * (list (list N * list N)));
      (* set group -> (is LPM trie, key size, elements) *)
  e_ncnt : N;                     (* entries of the counters map *)
  e_nstate : N;                   (* entries of the state map value *)
  e_or : oracle
}.

Record st := mkSt { rg : reg -> val; stk : stack; wd : world }.

Definition setr (s : st) (r : reg) (v : val) : st :=
  mkSt (fun x => if reg_eqb x r then v else rg s x) (stk s) (wd s).
Definition setw (s : st) (w : world) : st := mkSt (rg s) (stk s) w.
Definition sets (s : st) (k : stack) : st := mkSt (rg s) k (wd s).

Inductive bsize := SB | SH | SW | SDW.
Definition szn (s : bsize) : nat := match s with SB => 1 | SH => 2 | SW => 4 | SDW => 8 end%nat.

Fixpoint zseq (a : Z) (n : nat) : list Z :=
  match n with O => [] | S k => a :: zseq (a + 1)%Z k end.

Fixpoint all_num (l : list mb) : option (list N) :=
  match l with
  | [] => Some []
  | MB n :: r => match all_num r with Some l' => Some (n :: l') | None => None end
  | _ => None
  end.

(** Do the bytes hold all 8 bytes of pointer [v], from index [i] on? *)
Fixpoint all_ptr (v : val) (i : nat) (l : list mb) : bool :=
  match l with
  | [] => Nat.eqb i 8
  | MP v' j :: r => if val_eq_dec v' v then Nat.eqb i j && all_ptr v (S i) r else false
  | _ => false
  end.

Definition rd_stk (k : stack) (a : Z) (n : nat) : list mb := map k (zseq a n).

Definition stk_load (k : stack) (a : Z) (n : nat) : val :=
  let l := rd_stk k a n in
  match all_num l with
  | Some bs => VN (le_dec bs)
  | None =>
      match l with
      | MP v O :: _ => if all_ptr v 0 l then v else VUndef
      | _ => VUndef
      end
  end.

(** Write the bytes [l] at address [a]. *)
Definition wr_stk (k : stack) (a : Z) (l : list mb) : stack :=
  fun z => if ((a <=? z) && (z <? a + Z.of_nat (length l)))%Z
           then nth (Z.to_nat (z - a)) l MU else k z.

Definition val_bytes (v : val) (n : nat) : list mb :=
  match v with
  | VN x => map MB (le_enc n x)
  | VUndef => repeat MU n
  | p => if Nat.eqb n 8 then map (MP p) (seq 0 8) else repeat MU n
  end.

Definition stk_ok (a : Z) (n : nat) : bool :=
  ((-512 <=? a) && (a + Z.of_nat n <=? 0))%Z.

(** Which reads of struct bpf_sock_addr the kernel allows, by attach point: its
    net/core/filter.c sock_addr_is_valid_access (without the socket pointer at 64). *)
Definition sock_access (h : hook) (off n : nat) : bool :=
  ((off mod n =? 0) &&
   (if (off <? 4) then n =? 4
    else if off <? 8 then sock_addr_ip4 h && (n <=? 4)
    else if off <? 24 then sock_addr_ip6 h && ((n <=? 4) || ((n =? 8) && (off + 8 <=? 24)))
    else if off <? 28 then n <=? 4
    else if off <? 40 then n =? 4
    else if off <? 44 then hook_is h H_SENDMSG4 && (n <=? 4)
    else if off <? 60 then hook_is h H_SENDMSG6 && ((n <=? 4) || ((n =? 8) && (off + 8 <=? 60)))
    else false))%nat.

(** Memory load of [n] bytes at pointer [v] + [off]. *)
Definition mload (e : env) (k : stack) (w : world) (v : val) (off : Z) (n : nat) : option val :=
  match v with
  | VStk o => if stk_ok (o + off) n then Some (stk_load k (o + off) n) else None
  | VPkt s ln =>
      if ((0 <=? off) && (off + Z.of_nat n <=? Z.of_N ln))%Z
      then Some (VN (le_dec (sub (e_pkt e) (N.to_nat s + Z.to_nat off) n))) else None
  | VVal l =>
      if ((0 <=? off) && (off + Z.of_nat n <=? Z.of_nat (length l)))%Z
      then Some (VN (le_dec (sub l (Z.to_nat off) n))) else None
  | VSt o =>
      let a := (o + off)%Z in
      if (Nat.eqb n 8 && (0 <=? a)%Z && (a mod 8 =? 0)%Z && (Z.to_N (a / 8)%Z <? e_nstate e))
      then Some (VN (w_ts w (Z.to_N (a / 8)%Z))) else None
  | VK KCtx =>
      match e_flavor e with
      | F_SOCK_ADDR =>
          if (0 <=? off)%Z && sock_access (e_hook e) (Z.to_nat off) n
          then Some (VN (le_dec (sub (e_pkt e) (Z.to_nat off) n))) else None
      | _ => None
      end
  | _ => None
  end.

Definition mstore (e : env) (s : st) (p : val) (off : Z) (n : nat) (v : val) : option st :=
  match p with
  | VStk o => if stk_ok (o + off) n
              then Some (sets s (wr_stk (stk s) (o + off) (val_bytes v n))) else None
  | VSt o =>
      let a := (o + off)%Z in
      match v with
      | VN x =>
          if (Nat.eqb n 8 && (0 <=? a)%Z && (a mod 8 =? 0)%Z && (Z.to_N (a / 8)%Z <? e_nstate e))
          then Some (setw s (w_stamp (wd s) (Z.to_N (a / 8)%Z) x)) else None
      | _ => None
      end
  | _ => None
  end.

Definition is_skb_flavor (f : flavor) : bool :=
  match f with F_TC | F_CGROUP_SKB => true | _ => false end.

(** Arbitrary base address used for xdp_md.data. *)
Definition xdp_base : N := 4096.

(** Read of a kernel object's field (LDX through the context or a BTF pointer). *)
Definition kload (e : env) (w : world) (k : kobj) (f : kfield) (sz : bsize) : option val :=
  match e_flavor e, k, f, sz with
  | F_XDP, KCtx, XdpData, SW => Some (VN xdp_base)
  | F_XDP, KCtx, XdpDataEnd, SW => Some (VN (xdp_base + e_len e))
  | F_XDP, KCtx, XdpIfindex, SW => Some (VN (e_ifindex e))
  | (F_TC | F_CGROUP_SKB), KCtx, SkLen, SW => Some (VN (e_len e))
  | (F_TC | F_CGROUP_SKB), KCtx, SkMark, SW => Some (VN (w_mark w))
  | (F_TC | F_CGROUP_SKB), KCtx, SkIfindex, SW => Some (VN (e_ifindex e))
  | (F_TC | F_CGROUP_SKB), KCtx, SkFamily, SW => Some (VN (e_family e))
  | F_NF, KCtx, NfState, SDW => Some (VK KNfState)
  | F_NF, KCtx, NfSkb, SDW => Some (VK KSkb)
  | F_NF, KNfState, StIn, SDW => Some (VK KDevIn)
  | F_NF, KNfState, StOut, SDW => Some (VK KDevOut)
  | F_NF, KNfState, StPf, SB => Some (VN (e_family e))
  | F_NF, KDevIn, DevIfindex, SW => Some (VN (e_ifindex e))
  | F_NF, KDevOut, DevIfindex, SW => Some (VN (e_ifindex_out e))
  | F_NF, KSkb, KskLen, SW => Some (VN (e_len e))
  | F_NF, KSkb, KskMark, SW => Some (VN (w_mark w))
  | _, _, _, _ => None
  end.

Inductive aluop := AMov | AAdd | ASub | AAnd | AOr | ALsh.
Inductive jop := JEQ | JNE | JGT | JGE | JLT | JLE.
Inductive operand := Im (z : Z) | Rg (r : reg).

(** Helpers, kfuncs and ELF stubs. *)
Inductive callee :=
| HMapLookup | HKtime | HPrandom | HRedirect | HHashRecalc
| KDynXdp | KDynSkb | KSlice
| StubCounters | StubLog | StubSockLog | StubFlowHash | StubIp6Eh | StubIp6Nh.

Inductive insn :=
| Alu (w64 : bool) (op : aluop) (dst : reg) (src : operand)
| Bswap16 (dst : reg)            (* BPF_BSWAP(dst,16); BPF_ENDIAN(TO_BE,dst,16) *)
| Ldx (sz : bsize) (dst src : reg) (off : Z)
| Stx (sz : bsize) (dst src : reg) (off : Z)     (* [dst+off] = src *)
| St (sz : bsize) (dst : reg) (off : Z) (imm : Z)
| LdxK (sz : bsize) (dst src : reg) (f : kfield)
| StxK (dst src : reg) (f : kfield)              (* 32-bit [dst.f] = src *)
| Jmp (w64 : bool) (op : jop) (dst : reg) (src : operand) (off : Z)
| Ja (off : Z)
| LdImm64 (dst : reg) (v : N)    (* first slot of LD_IMM64 *)
| LdMap (dst : reg) (m : mapid)  (* first slot of LD_MAP_FD, after fixup *)
| Pad                            (* second slot of both *)
| Call (c : callee)
| Exit.

Inductive xres := XNext (s : st) | XJump (k : Z) (s : st) | XExit (r : N) (s : st) | XErr.

Definition alu64 (op : aluop) (a b : N) : N :=
  match op with
  | AMov => b
  | AAdd => (a + b) mod two64
  | ASub => (a + (two64 - b mod two64)) mod two64
  | AAnd => N.land a b
  | AOr => N.lor a b
  | ALsh => N.shiftl a (b mod 64) mod two64
  end.

Definition alu32 (op : aluop) (a b : N) : N :=
  let a := a mod two32 in let b := b mod two32 in
  match op with
  | AMov => b
  | AAdd => (a + b) mod two32
  | ASub => (a + (two32 - b)) mod two32
  | AAnd => N.land a b
  | AOr => N.lor a b
  | ALsh => N.shiftl a (b mod 32) mod two32
  end.

Definition opval (s : st) (w64 : bool) (o : operand) : val :=
  match o with
  | Im z => VN (if w64 then imm64 z else imm32 z)
  | Rg r => rg s r
  end.

Definition do_alu (s : st) (w64 : bool) (op : aluop) (dst : reg) (src : operand) : option val :=
  match op, w64, rg s dst, opval s w64 src, src with
  | AMov, true, _, v, _ => Some v
  | AMov, false, _, VN b, _ => Some (VN (b mod two32))
  | AAdd, true, VStk o, _, Im z => Some (VStk (o + z))
  | AAdd, true, VSt o, _, Im z => Some (VSt (o + z))
  | _, true, VN a, VN b, _ => Some (VN (alu64 op a b))
  | _, false, VN a, VN b, _ => Some (VN (alu32 op a b))
  | _, _, _, _, _ => None
  end.

Definition jtest (op : jop) (a b : N) : bool :=
  match op with
  | JEQ => a =? b
  | JNE => negb (a =? b)
  | JGT => b <? a
  | JGE => b <=? a
  | JLT => a <? b
  | JLE => a <=? b
  end.

Definition is_ptr (v : val) : bool :=
  match v with VN _ | VUndef => false | _ => true end.

(** Pointers may only be compared for (in)equality with 0. *)
Definition do_jmp (s : st) (w64 : bool) (op : jop) (dst : reg) (src : operand) : option bool :=
  match rg s dst, opval s w64 src with
  | VN a, VN b =>
      Some (if w64 then jtest op a b else jtest op (a mod two32) (b mod two32))
  | p, VN b =>
      if is_ptr p && w64 && (b =? 0) then
        match op with JEQ => Some false | JNE => Some true | _ => None end
      else None
  | _, _ => None
  end.

(** struct bf_runtime, cgen/runtime.h:107-164: offsets of its fields; the whole
    structure (248 bytes) ends at the frame pointer. *)
Definition RT_SIZE : Z := 248.
Definition ctx_off (o : Z) : Z := (o - RT_SIZE)%Z.
Definition o_arg : Z := 0.       Definition o_dynptr : Z := 8.
Definition o_logmap : Z := 24.   Definition o_statemap : Z := 32.
Definition o_pktsize : Z := 40.  Definition o_eh : Z := 48.
Definition o_l2size : Z := 49.   Definition o_l3size : Z := 50.
Definition o_l4size : Z := 51.   Definition o_l3off : Z := 56.
Definition o_l4off : Z := 64.    Definition o_ifindex : Z := 72.
Definition o_l2hdr : Z := 80.    Definition o_l3hdr : Z := 88.
Definition o_l4hdr : Z := 96.    Definition o_l2 : Z := 104.
Definition o_l3 : Z := 120.      Definition o_l4 : Z := 160.
Definition o_scratch : Z := 184.
Definition scr_off (i : Z) : Z := ctx_off (o_scratch + i).

(** Longest-prefix-match lookup of an LPM trie: elements are (key,value) with
    key = 4-byte little-endian prefix length followed by the address; an element
    matches when its prefix is not longer than the lookup key's and the first
    prefixlen bits agree.  Later elements win among equal prefixes (kernel
    lib: kernel/bpf/lpm_trie.c trie_lookup_elem). *)
Definition bit_at (l : list N) (i : nat) : bool :=
  N.testbit (nth (i / 8) l 0) (N.of_nat (7 - i mod 8)).

Fixpoint bits_agree (a b : list N) (n : nat) : bool :=
  match n with
  | O => true
  | S k => Bool.eqb (bit_at a k) (bit_at b k) && bits_agree a b k
  end.

Definition lpm_plen (k : list N) : N := le_dec (firstn 4 k).

Definition lpm_covers (elem : list N) (plen : N) (addr : list N) : bool :=
  (lpm_plen elem <=? plen) && bits_agree (skipn 4 elem) addr (N.to_nat (lpm_plen elem)).

Fixpoint lpm_find (els : list (list N * list N)) (plen : N) (addr : list N)
  (best : option (N * list N)) : option (N * list N) :=
  match els with
  | [] => best
  | (k, v) :: r =>
      if lpm_covers k plen addr then
        match best with
        | Some (p, _) => if lpm_plen k <? p then lpm_find r plen addr best
                         else lpm_find r plen addr (Some (lpm_plen k, v))
        | None => lpm_find r plen addr (Some (lpm_plen k, v))
        end
      else lpm_find r plen addr best
  end.

Fixpoint hash_find (els : list (list N * list N)) (key : list N) : option (list N) :=
  match els with
  | [] => None
  | (k, v) :: r => match hash_find r key with
                   | Some v' => Some v'
                   | None => if bytes_eqb k key then Some v else None
                   end
  end.

(** bpf_map_lookup_elem.  For a trie, only the prefix length and the address bytes
    it covers are read from the key (the kernel never compares further bits). *)
Definition map_lookup (e : env) (s : st) (m : mapid) (a : Z) : option val :=
  match m with
  | MState => match all_num (rd_stk (stk s) a 4) with
              | Some kb => Some (if le_dec kb =? 0 then VSt 0 else VN 0)
              | None => None
              end
  | MSet g =>
      match e_sets e g with
      | None => None
      | Some (false, ks, els) =>
          if stk_ok a ks then
            match all_num (rd_stk (stk s) a ks) with
            | None => None
            | Some kb => Some match hash_find els kb with Some v => VVal v | None => VN 0 end
            end
          else None
      | Some (true, ks, els) =>
          if stk_ok a ks then
            match all_num (rd_stk (stk s) a 4) with
            | None => None
            | Some pb =>
                let plen := le_dec pb in
                match all_num (rd_stk (stk s) (a + 4) (N.to_nat ((plen + 7) / 8))) with
                | None => None
                | Some addr =>
                    Some match lpm_find els plen addr None with
                         | Some (_, v) => VVal v | None => VN 0 end
                end
            end
          else None
      end
  | _ => None
  end.

(** After a call, r1-r5 are unreadable and r0 holds the result. *)
Definition clobber (s : st) (v : val) : st :=
  setr (setr (setr (setr (setr (setr s R1 VUndef) R2 VUndef) R3 VUndef) R4 VUndef) R5 VUndef) R0 v.

(** bpf_dynptr_slice(ptr, offset, buffer, len). *)
Definition do_slice (e : env) (s : st) (off len : N) (buf : Z) : option (st * val) :=
  if off + len <=? N.of_nat (length (e_pkt e)) then
    if e_direct e off len then Some (s, VPkt off len)
    else if stk_ok buf (N.to_nat len) then
      Some (sets s (wr_stk (stk s) buf
                      (map MB (sub (e_pkt e) (N.to_nat off) (N.to_nat len)))), VStk buf)
    else None
  else Some (s, VN 0).

(** src/libbpfilter/bpf/update_counters.bpf.c:17-32. *)
Definition stub_counters (e : env) (s : st) : option st :=
  match rg s R1, rg s R2, rg s R3 with
  | VStk o, VMap MCnt, VN key =>
      let key := key mod two32 in
      if key <? e_ncnt e then
        match stk_load (stk s) (o + o_pktsize) 8 with
        | VN size => Some (clobber (setw s (w_count (wd s) key size)) (VN 0))
        | _ => None
        end
      else Some (clobber s (VN 1))
  | _, _, _ => None
  end.

(** src/libbpfilter/bpf/pkt_log.bpf.c:12-60, without the header copies. *)
Definition stub_log (e : env) (s : st) : option st :=
  match rg s R1, rg s R2, rg s R3, rg s R4, rg s R5 with
  | VStk o, VN rid, VN hdrs, VN vd, VN protos =>
      match stk_load (stk s) (o + o_logmap) 8 with
      | VMap MLog =>
          let w := wd s in
          if o_ring (e_or e) (w_rings w) then
            let w1 := w_ringed w in
            let ts := o_clock (e_or e) (w_clks w1) in
            let w2 := w_clocked w1 in
            match stk_load (stk s) (o + o_pktsize) 8 with
            | VN size =>
                Some (clobber (setw s (w_publish w2
                  (mkLog ts (rid mod two32) (vd mod two32)
                     (swap16 ((protos mod two32) / two16))
                     (protos mod 256) size (hdrs mod 16) None))) (VN 0))
            | _ => None
            end
          else Some (clobber (setw s (w_ringed w)) (VN 1))
      | _ => None
      end
  | _, _, _, _, _ => None
  end.

(** src/libbpfilter/bpf/sock_addr_log.bpf.c:13-54, without the process id and name;
    struct bf_runtime_sock_addr (cgen/runtime.h:58-68) is at the start of the scratch
    area: source at 0, destination at 16, port at 32.  BF_LOG_SOCK_ADDR_SADDR is 1
    (runtime.h:138). *)
Definition stub_sock_log (e : env) (s : st) : option st :=
  match rg s R1, rg s R2, rg s R3, rg s R4, rg s R5 with
  | VStk o, VN rid, VN vd, VN protos, VN fields =>
      match stk_load (stk s) (o + o_logmap) 8 with
      | VMap MLog =>
          let w := wd s in
          if o_ring (e_or e) (w_rings w) then
            let w1 := w_ringed w in
            let ts := o_clock (e_or e) (w_clks w1) in
            let w2 := w_clocked w1 in
            match all_num (rd_stk (stk s) (o + o_scratch) 16),
                  all_num (rd_stk (stk s) (o + o_scratch + 16) 16),
                  all_num (rd_stk (stk s) (o + o_scratch + 32) 2) with
            | Some saddr, Some daddr, Some port =>
                Some (clobber (setw s (w_publish w2
                  (mkLog ts (rid mod two32) (vd mod two32)
                     (swap16 ((protos mod two32) / two16)) (protos mod 256) 0 0
                     (Some (mkSk (if N.testbit fields 0 then Some saddr else None)
                              daddr (le_dec port)))))) (VN 0))
            | _, _, _ => None
            end
          else Some (clobber (setw s (w_ringed w)) (VN 1))
      | _ => None
      end
  | _, _, _, _, _ => None
  end.

Definition rotr8 (x : N) : N :=
  N.lor (N.shiftr x 8) (N.shiftl x 24 mod two32).

(** flow_hash.bpf.c:37-46 xxh32_avalanche. *)
Definition avalanche (h : N) : N :=
  let h := N.lxor h (N.shiftr h 15) in
  let h := (h * 2246822519) mod two32 in
  let h := N.lxor h (N.shiftr h 13) in
  let h := (h * 3266489917) mod two32 in
  N.lxor h (N.shiftr h 16).

(** flow_hash.bpf.c:68-120 bf_flow_hash, on the header bytes. *)
Definition w32 (h : list N) (o : nat) : N := le_dec (sub h o 4).
Definition w16 (h : list N) (o : nat) : N := le_dec (sub h o 2).
Definition xor4 (h : list N) (o : nat) : N :=
  N.lxor (N.lxor (N.lxor (w32 h o) (w32 h (o + 4))) (w32 h (o + 8))) (w32 h (o + 12)).

Definition flow_hash (l3be l4 : N) (h3 h4 : list N) : N :=
  let h :=
    if l3be =? swap16 ETH_P_IP then
      N.lxor (N.lxor (rotr8 (w32 h3 12)) (w32 h3 16)) (l4 * two16)
    else if l3be =? swap16 ETH_P_IPV6 then
      N.lxor (N.lxor (N.lxor (rotr8 (xor4 h3 8)) (xor4 h3 24))
                (N.land (be_dec (sub h3 0 4)) 1048575)) (l4 * two16)
    else 0 in
  let h :=
    if (l4 =? IPPROTO_TCP) || (l4 =? IPPROTO_UDP) then
      N.lxor h (N.lor (w16 h4 0 * two16) (w16 h4 2))
    else h in
  avalanche h.

(** Read [n] bytes through a pointer, one by one. *)
Fixpoint mbytes (e : env) (k : stack) (w : world) (p : val) (off : Z) (n : nat) : option (list N) :=
  match n with
  | O => Some []
  | S n' =>
      match mload e k w p off 1, mbytes e k w p (off + 1) n' with
      | Some (VN b), Some l => Some (b :: l)
      | _, _ => None
      end
  end.

Definition stub_flow_hash (e : env) (s : st) : option st :=
  match rg s R1, rg s R2, rg s R3 with
  | VStk o, VN l3, VN l4 =>
      let l3 := l3 mod two16 in let l4 := l4 mod 256 in
      let n3 := if l3 =? swap16 ETH_P_IP then 20%nat
                else if l3 =? swap16 ETH_P_IPV6 then 40%nat else 0%nat in
      let n4 := if (l4 =? IPPROTO_TCP) || (l4 =? IPPROTO_UDP) then 4%nat else 0%nat in
      match mbytes e (stk s) (wd s) (stk_load (stk s) (o + o_l3hdr) 8) 0 n3,
            mbytes e (stk s) (wd s) (stk_load (stk s) (o + o_l4hdr) 8) 0 n4 with
      | Some h3, Some h4 => Some (clobber s (VN (flow_hash l3 l4 h3 h4)))
      | _, _ => None
      end
  | _, _, _ => None
  end.

(** Protocol numbers of the IPv6 extension headers the stubs walk over. *)
Definition eh_common (p : N) : bool := (p =? 0) || (p =? 60) || (p =? 43) || (p =? 135).

(** bit of ctx->ipv6_eh, parse_ipv6_nh.bpf.c:22-27. *)
Definition eh_bit (p : N) : N :=
  if p =? 0 then 1 else if p =? 43 then 2 else if p =? 44 then 4
  else if p =? 51 then 8 else if p =? 60 then 16 else if p =? 135 then 32 else 0.

Definition pkt_byte (e : env) (o : N) : N := nth (N.to_nat o) (e_pkt e) 0.

(** parse_ipv6_eh.bpf.c:13-49 loop body, [n] iterations left: returns the final
    (protocol, l4_offset).  The 2-byte slice uses the stub's own stack, so it only
    fails when the packet is too short. *)
Fixpoint ip6_eh_loop (e : env) (n : nat) (nh off : N) : N * N :=
  match n with
  | O => (nh, off)
  | S k =>
      if off + 2 <=? N.of_nat (length (e_pkt e)) then
        let nxt := pkt_byte e off in let hl := pkt_byte e (off + 1) in
        if eh_common nh then ip6_eh_loop e k nxt ((off + (hl + 1) * 8) mod two32)
        else if nh =? 51 then ip6_eh_loop e k nxt ((off + (hl + 2) * 4) mod two32)
        else if nh =? 44 then ip6_eh_loop e k nxt ((off + hl + 8) mod two32)
        else (nh, off)
      else (0, off)
  end.

(** parse_ipv6_nh.bpf.c:29-85: same walk, collecting the header mask; a short
    packet ends the walk with the protocol reached so far. *)
Fixpoint ip6_nh_loop (e : env) (n : nat) (nh off ehm : N) : N * N * N :=
  match n with
  | O => (nh, off, ehm)
  | S k =>
      if off + 2 <=? N.of_nat (length (e_pkt e)) then
        let nxt := pkt_byte e off in let hl := pkt_byte e (off + 1) in
        if eh_common nh then
          ip6_nh_loop e k nxt ((off + (hl + 1) * 8) mod two32) (N.lor ehm (eh_bit nh))
        else if nh =? 51 then
          ip6_nh_loop e k nxt ((off + (hl + 2) * 4) mod two32) (N.lor ehm (eh_bit nh))
        else if nh =? 44 then
          ip6_nh_loop e k nxt ((off + (hl + 8)) mod two32) (N.lor ehm (eh_bit nh))
        else (nh, off, ehm)
      else (nh, off, ehm)
  end.

Definition EXT_MAX_CHAIN : nat := 6.

Definition stub_ip6 (e : env) (nh : bool) (s : st) : option st :=
  match rg s R1 with
  | VStk o =>
      match mload e (stk s) (wd s) (stk_load (stk s) (o + o_l3hdr) 8) 6 1,
            stk_load (stk s) (o + o_l3off) 4 with
      | Some (VN first), VN l3off =>
          let off0 := (l3off + 40) mod two32 in
          if nh then
            let '(p, off, m) := ip6_nh_loop e EXT_MAX_CHAIN first off0 0 in
            let k := wr_stk (stk s) (o + o_eh) [MB (m mod 256)] in
            let k := wr_stk k (o + o_l4off) (map MB (le_enc 4 off)) in
            Some (clobber (sets s k) (VN (p mod 256)))
          else
            let '(p, off) := ip6_eh_loop e EXT_MAX_CHAIN first off0 in
            let k := wr_stk (stk s) (o + o_l4off) (map MB (le_enc 4 off)) in
            Some (clobber (sets s k) (VN (p mod 256)))
      | _, _ => None
      end
  | _ => None
  end.

Definition do_call (e : env) (c : callee) (s : st) : option st :=
  match c with
  | HMapLookup =>
      match rg s R1, rg s R2 with
      | VMap m, VStk a => match map_lookup e s m a with
                          | Some v => Some (clobber s v) | None => None end
      | _, _ => None
      end
  | HKtime => Some (clobber (setw s (w_clocked (wd s))) (VN (o_clock (e_or e) (w_clks (wd s)))))
  | HPrandom => Some (clobber (setw s (w_drew (wd s))) (VN (o_rand (e_or e) (w_draws (wd s)))))
  | HRedirect =>
      match rg s R1, rg s R2 with
      | VN i, VN f =>
          Some (clobber (setw s (w_redirect (wd s) (i mod two32) f))
                  (VN (o_redir (e_or e) (i mod two32) f)))
      | _, _ => None
      end
  | HHashRecalc =>
      match e_flavor e, rg s R1 with
      | F_TC, VK KCtx => Some (clobber s (VN (e_hash e)))
      | _, _ => None
      end
  | KDynXdp =>
      match e_flavor e, rg s R1, rg s R2, rg s R3 with
      | F_XDP, VK KCtx, VN 0, VStk a =>
          if stk_ok a 16 then
            if e_dynptr e =? 0
            then Some (clobber (sets s (wr_stk (stk s) a (map (MP VDyn) (seq 0 16)))) (VN 0))
            else Some (clobber (sets s (wr_stk (stk s) a (repeat MU 16))) (VN (e_dynptr e)))
          else None
      | _, _, _, _ => None
      end
  | KDynSkb =>
      match e_flavor e, rg s R1, rg s R2, rg s R3 with
      | (F_TC | F_CGROUP_SKB), VK KCtx, VN 0, VStk a
      | F_NF, VK KSkb, VN 0, VStk a =>
          if stk_ok a 16 then
            if e_dynptr e =? 0
            then Some (clobber (sets s (wr_stk (stk s) a (map (MP VDyn) (seq 0 16)))) (VN 0))
            else Some (clobber (sets s (wr_stk (stk s) a (repeat MU 16))) (VN (e_dynptr e)))
          else None
      | _, _, _, _ => None
      end
  | KSlice =>
      match rg s R1, rg s R2, rg s R3, rg s R4 with
      | VStk d, VN off, VStk b, VN len =>
          match stk s d with
          | MP VDyn O =>
              match do_slice e s (off mod two32) (len mod two32) b with
              | Some (s', v) => Some (clobber s' v)
              | None => None
              end
          | _ => None
          end
      | _, _, _, _ => None
      end
  | StubCounters => stub_counters e s
  | StubLog => stub_log e s
  | StubSockLog => stub_sock_log e s
  | StubFlowHash => stub_flow_hash e s
  | StubIp6Eh => stub_ip6 e false s
  | StubIp6Nh => stub_ip6 e true s
  end.

(** Execution of one instruction. *)
Definition exec (e : env) (i : insn) (s : st) : xres :=
  match i with
  | Alu w64 op dst src =>
      match do_alu s w64 op dst src with
      | Some v => XNext (setr s dst v) | None => XErr end
  | Bswap16 dst =>
      match rg s dst with VN a => XNext (setr s dst (VN (swap16 a))) | _ => XErr end
  | Ldx sz dst src off =>
      match mload e (stk s) (wd s) (rg s src) off (szn sz) with
      | Some v => XNext (setr s dst v) | None => XErr end
  | Stx sz dst src off =>
      match mstore e s (rg s dst) off (szn sz) (rg s src) with
      | Some s' => XNext s' | None => XErr end
  | St sz dst off imm =>
      match mstore e s (rg s dst) off (szn sz) (VN (imm64 imm)) with
      | Some s' => XNext s' | None => XErr end
  | LdxK sz dst src f =>
      match rg s src with
      | VK k => match kload e (wd s) k f sz with
                | Some v => XNext (setr s dst v) | None => XErr end
      | _ => XErr
      end
  | StxK dst src f =>
      match e_flavor e, rg s dst, rg s src, f with
      | (F_TC | F_CGROUP_SKB), VK KCtx, VN v, SkMark =>
          XNext (setw s (w_set_mark (wd s) (v mod two32)))
      | _, _, _, _ => XErr
      end
  | Jmp w64 op dst src off =>
      match do_jmp s w64 op dst src with
      | Some true => XJump off s
      | Some false => XNext s
      | None => XErr
      end
  | Ja off => XJump off s
  | LdImm64 dst v => XJump 1 (setr s dst (VN (v mod two64)))
  | LdMap dst m => XJump 1 (setr s dst (VMap m))
  | Pad => XErr
  | Call c => match do_call e c s with Some s' => XNext s' | None => XErr end
  | Exit => match rg s R0 with VN r => XExit r s | _ => XErr end
  end.

(** Running a program from instruction [pc], for at most [fuel] instructions. *)
Inductive outcome := Done (ret : N) (w : world) | Fault | OutOfFuel.

Definition fetch (prog : list insn) (pc : Z) : option insn :=
  if (pc <? 0)%Z then None else nth_error prog (Z.to_nat pc).

Fixpoint run (e : env) (prog : list insn) (fuel : nat) (pc : Z) (s : st) : outcome :=
  match fuel with
  | O => OutOfFuel
  | S f =>
      match fetch prog pc with
      | None => Fault
      | Some i =>
          match exec e i s with
          | XNext s' => run e prog f (pc + 1) s'
          | XJump k s' => run e prog f (pc + 1 + k) s'
          | XExit r s' => Done r (wd s')
          | XErr => Fault
          end
      end
  end.

(** State in which the kernel starts the program: r1 holds the context, r10 the
    frame pointer, everything else and the stack are unreadable. *)
Definition start (w : world) : st :=
  mkSt (fun r => match r with R1 => VK KCtx | R10 => VStk 0 | _ => VUndef end)
       (fun _ => MU) w.
