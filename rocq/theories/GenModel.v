(** The code generator: chains to eBPF instructions.

    Modelled: cgen/matcher/cmp.c, cgen/matcher/meta.c, cgen/matcher/set.c,
    cgen/packet.c, cgen/stub.c, cgen/swich.c, cgen/jmp.c, cgen/xdp.c, cgen/tc.c,
    cgen/nf.c, cgen/cgroup_skb.c and the generation half of cgen/program.c.
    (All paths below are relative to src/libbpfilter.)

    Simplifications:
    - a sub-generator returns the instructions it emits instead of appending them
      to the program image; an instruction with a BF_FIXUP_TYPE_JMP_NEXT_RULE fixup
      is a [J] item, whose offset is filled in by [resolve] at the end of the rule;
    - map descriptors are symbolic, so the map fixups are done at emission;
    - ELF stubs are called as built-ins (BpfModel.v), so they are not appended;
    - instructions emitted only with verbose BPF logging (EMIT_PRINT) are left out. *)
From Coq Require Import NArith ZArith List Bool.
From Coq Require Import Floats.SpecFloat.
From Verif Require Import Bytes Types World BpfModel.
Import ListNotations.
Local Open Scope N_scope.
Local Open Scope res_scope.

(** One emitted instruction; [J] carries a jump-to-next-rule fixup. *)
Inductive item := I (i : insn) | J (i : insn).

Definition code := list item.

(** errno values standing for bf_abort() and for C undefined behaviour. *)
Definition EABORT : N := 1000.
Definition EUB : N := 1001.

(** cgen/jmp.c:17-35 bf_jmpctx_cleanup: a forward jump over [body]. *)
Definition jover (mk : Z -> insn) (body : code) : code :=
  I (mk (i16 (Z.of_nat (length body)))) :: body.

Definition reg_succ (r : reg) : reg :=
  match r with
  | R0 => R1 | R1 => R2 | R2 => R3 | R3 => R4 | R4 => R5 | R5 => R6 | R6 => R7
  | R7 => R8 | R8 => R9 | R9 | R10 => R10
  end.

(** Short names for the kernel's instruction macros. *)
Definition MOV64I r z := I (Alu true AMov r (Im z)).
Definition MOV64R r q := I (Alu true AMov r (Rg q)).
Definition MOV32I r z := I (Alu false AMov r (Im z)).
Definition ADD64I r z := I (Alu true AAdd r (Im z)).
Definition AND64I r z := I (Alu true AAnd r (Im z)).
Definition LSH64I r z := I (Alu true ALsh r (Im z)).

(** cgen/matcher/cmp.c:22-46 bf_cmp_get_jmp_ins. *)
Definition cmp_jmp_ins (m : matcher) : res jop :=
  match m_op m with
  | OP_EQ | OP_ALL => Ok (if xorb true (m_neg m) then JNE else JEQ)
  | OP_ANY | OP_IN => Ok (if xorb false (m_neg m) then JNE else JEQ)
  | OP_RANGE => Er EABORT
  end.

(** cgen/matcher/cmp.c:71-80 _bf_cmp_build_imm64. *)
Definition build_imm64 (dst scratch : reg) (data : N) : code :=
  [MOV32I dst (i32 (data / two32));
   LSH64I dst 32;
   MOV32I scratch (i32 data);
   I (Alu true AOr dst (Rg scratch))].

(** cgen/matcher/cmp.c:89-98 _bf_prefix_to_mask: the [n]-byte mask of a prefix.
    Simplification: for prefixlen > 8*n the C code writes past the mask; here the
    mask is all ones. *)
Fixpoint prefix_mask (prefixlen : N) (n : nat) : list N :=
  match n with
  | O => []
  | S k =>
      (if 8 <=? prefixlen then 255
       else (255 * 2 ^ (8 - prefixlen)) mod 256)
      :: prefix_mask (prefixlen - 8) k
  end.

(** The two-halves comparison of a 16-byte value (cmp.c:152-192 and 261-296). *)
Definition cmp_halves (jop16 : jop) (reg_ : reg) (lo hi : N) : code :=
  build_imm64 R3 R4 lo ++
  match jop16 with
  | JNE =>
      [J (Jmp true JNE reg_ (Rg R3) 0)] ++ build_imm64 R3 R4 hi ++
      [J (Jmp true JNE (reg_succ reg_) (Rg R3) 0)]
  | _ =>
      jover (Jmp true JNE reg_ (Rg R3))
        (build_imm64 R3 R4 hi ++
         jover (Jmp true JNE (reg_succ reg_) (Rg R3)) [J (Ja 0)])
  end.

(** cgen/matcher/cmp.c:100-200 bf_cmp_value. *)
Definition cmp_value (m : matcher) (ref : list N) (size : nat) (reg_ : reg) : res code :=
  match m_op m with
  | OP_EQ =>
      jop <- cmp_jmp_ins m ;
      match size with
      | 1%nat => Ok [J (Jmp true jop reg_ (Im (i32 (le_dec (firstn 1 ref)))) 0)]
      | 2%nat => Ok [J (Jmp true jop reg_ (Im (i32 (le_dec (firstn 2 ref)))) 0)]
      | 4%nat => Ok [MOV32I R2 (i32 (le_dec (firstn 4 ref)));
                     J (Jmp true jop reg_ (Rg R2) 0)]
      | 8%nat => Ok (build_imm64 R2 R3 (le_dec (firstn 8 ref)) ++
                     [J (Jmp true jop reg_ (Rg R2) 0)])
      | 16%nat => Ok (cmp_halves jop reg_ (le_dec (sub ref 0 8)) (le_dec (sub ref 8 8)))
      | _ => Er EINVAL
      end
  | _ => Er EINVAL
  end.

Definition bytes_and (a b : list N) : list N :=
  map (fun p => N.land (fst p) (snd p)) (combine a b).

(** cgen/matcher/cmp.c:202-303 bf_cmp_masked_value. *)
Definition cmp_masked (m : matcher) (addr : list N) (prefixlen : N) (size : nat)
  (reg_ : reg) : res code :=
  match m_op m with
  | OP_EQ =>
      jop <- cmp_jmp_ins m ;
      match size with
      | 4%nat =>
          let mask := le_dec (prefix_mask prefixlen 4) in
          Ok ([MOV32I R2 (i32 (le_dec (firstn 4 addr)))] ++
              (if mask =? two32 - 1 then []
               else [MOV32I R3 (i32 mask);
                     I (Alu false AAnd reg_ (Rg R3));
                     I (Alu false AAnd R2 (Rg R3))]) ++
              [J (Jmp true jop reg_ (Rg R2) 0)])
      | 16%nat =>
          let mask := prefix_mask prefixlen 16 in
          let masked := bytes_and (firstn 16 addr) mask in
          Ok ((if nth 15 mask 0 =? 255 then []
               else build_imm64 R3 R4 (le_dec (sub mask 0 8)) ++
                    [I (Alu true AAnd reg_ (Rg R3))] ++
                    build_imm64 R3 R4 (le_dec (sub mask 8 8)) ++
                    [I (Alu true AAnd (reg_succ reg_) (Rg R3))]) ++
              cmp_halves jop reg_ (le_dec (sub masked 0 8)) (le_dec (sub masked 8 8)))
      | _ => Er EINVAL
      end
  | _ => Er EINVAL
  end.

(** cgen/matcher/cmp.c:305-326 bf_cmp_range. *)
Definition cmp_range (m : matcher) (mn mx : N) (reg_ : reg) : code :=
  if m_neg m then
    jover (Jmp false JLT reg_ (Im (i32 mn)))
      (jover (Jmp false JGT reg_ (Im (i32 mx))) [J (Ja 0)])
  else
    [J (Jmp false JLT reg_ (Im (i32 mn)) 0); J (Jmp false JGT reg_ (Im (i32 mx)) 0)].

(** cgen/matcher/cmp.c:328-345 bf_cmp_bitfield. *)
Definition cmp_bitfield (m : matcher) (flags : N) (reg_ : reg) : res code :=
  match m_op m with
  | OP_ANY | OP_ALL =>
      jop <- cmp_jmp_ins m ;
      Ok [I (Alu false AAnd reg_ (Im (i32 flags)));
          J (Jmp false jop reg_
               (Im (match m_op m with OP_ANY => 0%Z | _ => i32 flags end)) 0)]
  | _ => Er EINVAL
  end.

(** cgen/stub.c:418-440 bf_stub_load_header. *)
Definition load_header (mt : meta) (r : reg) : res code :=
  match mt_layer mt with
  | L_3 => Ok [I (Ldx SDW r R10 (ctx_off o_l3hdr))]
  | L_4 => Ok [I (Ldx SDW r R10 (ctx_off o_l4hdr))]
  | L_NONE => Er EINVAL
  end.

(** cgen/stub.c:394-416 bf_stub_rule_check_protocol. *)
Definition check_protocol (mt : meta) : res code :=
  match mt_layer mt with
  | L_3 => Ok [J (Jmp true JNE R7 (Im (i32 (swap16 (mt_hdr mt)))) 0)]
  | L_4 => Ok [J (Jmp true JNE R8 (Im (i32 (mt_hdr mt mod 256))) 0)]
  | L_NONE => Er EINVAL
  end.

(** cgen/packet.c:68-100 _bf_matcher_pkt_load_field. *)
Definition load_field (mt : meta) (r : reg) : res code :=
  let o := Z.of_nat (mt_off mt) in
  match mt_size mt with
  | 1%nat => Ok [I (Ldx SB r R6 o)]
  | 2%nat => Ok [I (Ldx SH r R6 o)]
  | 4%nat => Ok [I (Ldx SW r R6 o)]
  | 8%nat => Ok [I (Ldx SDW r R6 o)]
  | 16%nat => Ok [I (Ldx SDW r R6 o); I (Ldx SDW (reg_succ r) R6 (o + 8))]
  | _ => Er EINVAL
  end.

(** cgen/packet.c:102-112 _bf_matcher_pkt_load. *)
Definition pkt_load (mt : meta) (r : reg) : res code :=
  a <- load_header mt R6 ; b <- load_field mt r ; Ok (a ++ b).

(** cgen/packet.c:125-137 _bf_matcher_pkt_load_and_cmp. *)
Definition gen_load_cmp (m : matcher) (mt : meta) : res code :=
  a <- pkt_load mt R1 ; b <- cmp_value m (m_pay m) (mt_size mt) R1 ; Ok (a ++ b).

(** cgen/packet.c:139-154 _bf_matcher_pkt_generate_net. *)
Definition gen_net (m : matcher) (mt : meta) : res code :=
  a <- pkt_load mt R1 ;
  b <- cmp_masked m (skipn 4 (m_pay m)) (le_dec (firstn 4 (m_pay m))) (mt_size mt) R1 ;
  Ok (a ++ b).

(** cgen/packet.c:156-178 _bf_matcher_pkt_generate_port. *)
Definition gen_port (m : matcher) (mt : meta) : res code :=
  a <- pkt_load mt R1 ;
  match m_op m with
  | OP_RANGE =>
      Ok (a ++ [I (Bswap16 R1)] ++
          cmp_range m (le_dec (sub (m_pay m) 0 2)) (le_dec (sub (m_pay m) 2 2)) R1)
  | _ => b <- cmp_value m (m_pay m) (mt_size mt) R1 ; Ok (a ++ b)
  end.

(** cgen/packet.c:180-204 _bf_matcher_pkt_generate_tcp_flags. *)
Definition gen_tcp_flags (m : matcher) (mt : meta) : res code :=
  a <- pkt_load mt R1 ;
  match m_op m with
  | OP_ANY | OP_ALL => b <- cmp_bitfield m (byte_at (m_pay m) 0) R1 ; Ok (a ++ b)
  | OP_EQ => b <- cmp_value m (m_pay m) (mt_size mt) R1 ; Ok (a ++ b)
  | _ => Er EINVAL
  end.

Definition is_eh_type (p : N) : bool :=
  (p =? 0) || (p =? 43) || (p =? 60) || (p =? 44) || (p =? 51) || (p =? 135).

(** cgen/packet.c:206-249 _bf_matcher_pkt_generate_ip6_nexthdr. *)
Definition gen_nexthdr (m : matcher) : res code :=
  let ehdr := byte_at (m_pay m) 0 in
  jop <- cmp_jmp_ins m ;
  if is_eh_type ehdr then
    let mask := if ehdr =? 0 then 1%Z else if ehdr =? 43 then 2%Z
                else if ehdr =? 44 then 4%Z else if ehdr =? 51 then 8%Z
                else if ehdr =? 60 then 16%Z else 32%Z in
    Ok [I (Ldx SDW R1 R10 (ctx_off o_eh)); AND64I R1 mask;
        J (Jmp true (match jop with JNE => JEQ | _ => JNE end) R1 (Im 0) 0)]
  else Ok [J (Jmp true jop R8 (Im (i32 ehdr)) 0)].

(** cgen/packet.c:251-273 _bf_matcher_pkt_generate_ip4_dscp. *)
Definition gen_ip4_dscp (m : matcher) (mt : meta) : res code :=
  a <- pkt_load mt R1 ;
  jop <- cmp_jmp_ins m ;
  Ok (a ++ [AND64I R1 252;
            J (Jmp true jop R1 (Im (i32 (byte_at (m_pay m) 0 * 4))) 0)]).

(** cgen/packet.c:275-301 _bf_matcher_pkt_generate_ip6_dscp. *)
Definition gen_ip6_dscp (m : matcher) (mt : meta) : res code :=
  a <- load_header mt R6 ;
  jop <- cmp_jmp_ins m ;
  Ok (a ++ [I (Ldx SH R1 R6 0); I (Bswap16 R1); AND64I R1 4032;
            J (Jmp true jop R1 (Im (i32 (byte_at (m_pay m) 0 * 64))) 0)]).

(** cgen/stub.c:442-478 bf_stub_load: copies [size] bytes from r6 + src to the
    stack, in the widest aligned units.  [fuel] bounds the loop and is [size]. *)
Definition aligned (n z : Z) : bool := (z mod n =? 0)%Z.

Definition load_unit (src dst : Z) (remaining : nat) : bsize :=
  if aligned 8 src && aligned 8 dst && (8 <=? remaining)%nat then SDW
  else if aligned 4 src && aligned 4 dst && (4 <=? remaining)%nat then SW
  else if aligned 2 src && aligned 2 dst && (2 <=? remaining)%nat then SH
  else SB.

Fixpoint stub_load (fuel : nat) (src dst : Z) (remaining : nat) : code :=
  match fuel, remaining with
  | S f, S _ =>
      let u := load_unit src dst remaining in
      [I (Ldx u R1 R6 src); I (Stx u R10 R1 dst)] ++
      stub_load f (src + Z.of_nat (szn u)) (dst + Z.of_nat (szn u)) (remaining - szn u)
  | _, _ => []
  end.

(** cgen/stub.c:480-488 bf_stub_stx_payload. *)
Definition stx_payload (mt : meta) (offset : nat) : code :=
  stub_load (mt_size mt) (Z.of_nat (mt_off mt)) (scr_off (Z.of_nat offset)) (mt_size mt).

(** Set groups: each group is the list of the positions of its sets in the chain.
    cgen/program.c:163-217 _bf_program_build_set_groups.  bf_set_same_key
    (set.c) compares the component lists. *)
Fixpoint key_eqb (a b : list mtype) : bool :=
  match a, b with
  | [], [] => true
  | x :: a', y :: b' => if mtype_eq_dec x y then key_eqb a' b' else false
  | _, _ => false
  end.

Definition group_head_key (sets : list bset) (g : list nat) : list mtype :=
  match g with
  | i :: _ => match nth_error sets i with Some s => s_key s | None => [] end
  | [] => []
  end.

Fixpoint add_to_group (sets : list bset) (i : nat) (key : list mtype)
  (groups : list (list nat)) : list (list nat) :=
  match groups with
  | [] => [[i]]
  | g :: r => if key_eqb key (group_head_key sets g) then (g ++ [i]) :: r
              else g :: add_to_group sets i key r
  end.

Fixpoint build_groups_aux (sets rest : list bset) (i : nat)
  (groups : list (list nat)) : list (list nat) :=
  match rest with
  | [] => groups
  | s :: r =>
      let groups' :=
        match s_elems s with
        | [] => groups
        | _ => if s_trie s then groups ++ [[i]]
               else add_to_group sets i (s_key s) groups
        end in
      build_groups_aux sets r (S i) groups'
  end.

Definition build_groups (sets : list bset) : list (list nat) :=
  build_groups_aux sets sets 0 [].

Fixpoint index_of (i : nat) (g : list nat) (k : nat) : option nat :=
  match g with
  | [] => None
  | x :: r => if Nat.eqb x i then Some k else index_of i r (S k)
  end.

(** cgen/program.c:219-242 bf_program_set_bit_index, and the group found by
    _bf_program_find_set_group (143-161) for the map fixup. *)
Fixpoint find_set (i : nat) (groups : list (list nat)) (k : nat) : option (nat * nat) :=
  match groups with
  | [] => None
  | g :: r => match index_of i g 0 with
              | Some b => Some (k, b)
              | None => find_set i r (S k)
              end
  end.

(** Elements of a group's map: cgen/program.c:1025-1120
    _bf_program_load_sets_maps. *)
Definition group_sets (sets : list bset) (g : list nat) : list bset :=
  flat_map (fun i => match nth_error sets i with Some s => [s] | None => [] end) g.

Definition mem (x : list N) (l : list (list N)) : bool := existsb (bytes_eqb x) l.

Fixpoint dedup (seen l : list (list N)) : list (list N) :=
  match l with
  | [] => []
  | x :: r => if mem x seen then dedup seen r else x :: dedup (x :: seen) r
  end.

(** Byte [b] of the bitmask of element [x]: bit [j] is set when the group's set
    number [8*b+j] contains [x]. *)
Fixpoint mask_byte (ss : list bset) (x : list N) (bit : N) : N :=
  match ss with
  | [] => 0
  | s :: r => (if mem x (s_elems s) then bit else 0) + mask_byte r x (2 * bit)
  end.

Definition elem_mask (ss : list bset) (x : list N) : list N :=
  map (fun b => mask_byte (firstn 8 (skipn (8 * b) ss)) x 1)
      (seq 0 ((length ss + 7) / 8)).

Definition group_map (sets : list bset) (g : list nat)
  : bool * nat * list (list N * list N) :=
  let ss := group_sets sets g in
  let hd := match ss with s :: _ => s | [] => mkS [] 0 false [] end in
  let els := dedup [] (flat_map s_elems ss) in
  (s_trie hd, s_esize hd, map (fun x => (x, elem_mask ss x)) els).

Definition set_maps (c : chain) (g : nat) : option (bool * nat * list (list N * list N)) :=
  match nth_error (build_groups (c_sets c)) g with
  | Some grp => Some (group_map (c_sets c) grp)
  | None => None
  end.

(** cgen/matcher/set.c:19-59 bf_set_generate_map_lookup. *)
Definition gen_map_lookup (c : chain) (m : matcher) (key_off : Z) : res code :=
  match set_of (c_sets c) m with
  | None => Er ENOENT
  | Some _ =>
      match find_set (N.to_nat (set_id m)) (build_groups (c_sets c)) 0 with
      | None => Er ENOENT
      | Some (g, bit) =>
          jop <- cmp_jmp_ins m ;
          Ok [I (LdMap R1 (MSet g)); I Pad;
              MOV64R R2 R10; ADD64I R2 key_off;
              I (Call HMapLookup);
              I (Jmp true JEQ R0 (Im 0) 2);
              I (Ldx SB R0 R0 (i16 (Z.of_nat (bit / 8))));
              I (Alu false AAnd R0 (Im (i32 (2 ^ N.of_nat (bit mod 8)))));
              J (Jmp true jop R0 (Im 0) 0)]
      end
  end.

(** cgen/packet.c:322-357: the component loop of _bf_matcher_pkt_generate_set. *)
Fixpoint gen_set_key (key : list mtype) (offset : nat) : res code :=
  match key with
  | [] => Ok []
  | t :: r =>
      let mt := meta_of t in
      a <- load_header mt R6 ;
      b <- gen_set_key r (offset + mt_size mt) ;
      Ok (a ++ stx_payload mt offset ++ b)
  end.

(** cgen/packet.c:303-359 _bf_matcher_pkt_generate_set and
    cgen/matcher/set.c:61-79 bf_set_generate_trie_lookup. *)
Definition gen_set (c : chain) (m : matcher) : res code :=
  match set_of (c_sets c) m with
  | None => Er ENOENT
  | Some s =>
      if s_trie s then
        match s_key s with
        | [] => Er EINVAL
        | t :: _ =>
            let mt := meta_of t in
            a <- load_header mt R6 ;
            b <- gen_map_lookup c m (scr_off 4) ;
            Ok (a ++
                [MOV64I R1 (Z.of_nat (mt_size mt * 8));
                 I (Stx SW R10 R1 (scr_off 4))] ++
                stub_load (mt_size mt) (Z.of_nat (mt_off mt)) (scr_off 8) (mt_size mt) ++
                b)
        end
      else
        a <- gen_set_key (s_key s) 0 ;
        b <- gen_map_lookup c m (scr_off 0) ;
        Ok (a ++ b)
  end.

(** cgen/swich.c:168-208 bf_swich_generate: options (immediate, body) tested in
    order, then the optional default. *)
Definition body_len (b : list insn) : Z := Z.of_nat (length b).

(** Instructions after the tests: every body followed by a jump to the end, then
    the default body. *)
Fixpoint swich_bodies (opts : list (N * list insn)) (dflt : list insn) : code :=
  match opts with
  | [] => map I dflt
  | (_, b) :: r =>
      let rest := swich_bodies r dflt in
      map I b ++ I (Ja (i16 (Z.of_nat (length rest)))) :: rest
  end.

(** The tests; [between] is the number of instructions between the end of the
    tests and the start of this option's body. *)
Fixpoint swich_tests (r : reg) (opts : list (N * list insn)) (has_dflt : bool)
  (between : nat) : code :=
  match opts with
  | [] => if has_dflt then [I (Ja (i16 (Z.of_nat between)))] else []
  | (imm, b) :: rest =>
      let after := (length rest + (if has_dflt then 1 else 0))%nat in
      I (Jmp true JEQ r (Im (i32 imm)) (i16 (Z.of_nat (after + between)))) ::
      swich_tests r rest has_dflt (between + length b + 1)
  end.

Definition swich (r : reg) (opts : list (N * list insn)) (dflt : option (list insn)) : code :=
  match dflt with
  | Some d => swich_tests r opts true 0 ++ swich_bodies opts d
  | None => swich_tests r opts false 0 ++ swich_bodies opts []
  end.

(** (uint32_t)((double)UINT32_MAX * (proba / 100.0)), cgen/matcher/meta.c:49 and
    112.  IEEE arithmetic is Coq's SpecFloat (binary64: precision 53, emax 1024).
    A value that uint32_t cannot represent is undefined behaviour: None. *)
Definition f32_of_bytes (l : list N) : spec_float :=
  let u := le_dec (firstn 4 l) in
  let neg := N.testbit u 31 in
  let ex := N.land (N.shiftr u 23) 255 in
  let ma := N.land u 8388607 in
  if ex =? 255 then (if ma =? 0 then S754_infinity neg else S754_nan)
  else
    let m := if ex =? 0 then ma else ma + 8388608 in
    let e := (Z.of_N (if (ex =? 0)%N then 1%N else ex) - 150)%Z in
    match m with
    | N0 => S754_zero neg
    | Npos p => binary_normalize 53 1024 (if neg then Zneg p else Zpos p) e neg
    end.

Definition d_of_Z (z : Z) : spec_float := binary_normalize 53 1024 z 0 false.

Definition trunc_u32 (f : spec_float) : option N :=
  match f with
  | S754_zero _ => Some 0
  | S754_finite false m e =>
      let v := if (0 <=? e)%Z then (Zpos m * 2 ^ e)%Z else (Zpos m / 2 ^ (- e))%Z in
      if (v <? 4294967296)%Z then Some (Z.to_N v) else None
  | S754_finite true m e =>
      if (if (0 <=? e)%Z then false else (Zpos m / 2 ^ (- e) =? 0)%Z) then Some 0 else None
  | _ => None
  end.

Definition prob_threshold (pay : list N) : option N :=
  trunc_u32 (SFmul 53 1024 (d_of_Z 4294967295) (SFdiv 53 1024 (f32_of_bytes pay) (d_of_Z 100))).

(** cgen/matcher/meta.c:33-43 _bf_matcher_generate_meta_iface. *)
Definition gen_iface (m : matcher) : res code :=
  jop <- cmp_jmp_ins m ;
  Ok [I (Ldx SH R1 R10 (ctx_off o_ifindex));
      J (Jmp true jop R1 (Im (i32 (le_dec (firstn 4 (m_pay m))))) 0)].

(** cgen/matcher/meta.c:45-63 _bf_matcher_generate_meta_probability. *)
Definition gen_probability (m : matcher) : res code :=
  match prob_threshold (m_pay m) with
  | None => Er EUB
  | Some thr =>
      Ok [I (Call HPrandom);
          J (Jmp true (if m_neg m then JLE else JGT) R0 (Im (i32 thr)) 0)]
  end.

(** cgen/matcher/meta.c:65-105 _bf_matcher_generate_meta_port. *)
Definition gen_meta_port (m : matcher) : res code :=
  let o := match m_type m with M_SPORT => 0%Z | _ => 2%Z end in
  let pre :=
    [I (Ldx SDW R6 R10 (ctx_off o_l4hdr))] ++
    swich R8 [(IPPROTO_TCP, [Ldx SH R1 R6 o]); (IPPROTO_UDP, [Ldx SH R1 R6 o])]
      (Some [Alu true AMov R1 (Im 0)]) ++
    [J (Jmp true JEQ R1 (Im 0) 0)] in
  match m_op m with
  | OP_RANGE =>
      Ok (pre ++ [I (Bswap16 R1)] ++
          cmp_range m (le_dec (sub (m_pay m) 0 2)) (le_dec (sub (m_pay m) 2 2)) R1)
  | _ => b <- cmp_value m (m_pay m) 2 R1 ; Ok (pre ++ b)
  end.

(** cgen/matcher/meta.c:107-158 _bf_matcher_generate_meta_flow_probability. *)
Definition gen_flow_probability (m : matcher) : res code :=
  match prob_threshold (m_pay m) with
  | None => Er EUB
  | Some thr =>
      Ok [I (Jmp true JEQ R7 (Im (i32 (swap16 ETH_P_IP))) 2);
          I (Jmp true JEQ R7 (Im (i32 (swap16 ETH_P_IPV6))) 1);
          J (Ja 0);
          I (Jmp true JEQ R8 (Im (i32 IPPROTO_TCP)) 2);
          I (Jmp true JEQ R8 (Im (i32 IPPROTO_UDP)) 1);
          J (Ja 0);
          MOV64R R1 R10; ADD64I R1 (- RT_SIZE); MOV64R R2 R7; MOV64R R3 R8;
          I (Call StubFlowHash);
          J (Jmp false (if m_neg m then JLE else JGT) R0 (Im (i32 thr)) 0)]
  end.

(** cgen/matcher/meta.c:160-189 bf_matcher_generate_meta. *)
Definition gen_meta (m : matcher) : res code :=
  match m_type m with
  | M_IFACE => gen_iface m
  | M_L3_PROTO => cmp_value m (le_enc 2 (swap16 (le_dec (firstn 2 (m_pay m))))) 2 R7
  | M_L4_PROTO => cmp_value m (m_pay m) 1 R8
  | M_PROBABILITY => gen_probability m
  | M_SPORT | M_DPORT => gen_meta_port m
  | M_FLOW_PROBABILITY => gen_flow_probability m
  | M_MARK | M_FLOW_HASH => Er ENOTSUP
  | _ => Er EINVAL
  end.

(** cgen/packet.c:361-419 bf_packet_gen_inline_matcher. *)
Definition gen_packet_matcher (c : chain) (m : matcher) : res code :=
  let mt := meta_of (m_type m) in
  match m_type m with
  | M_IFACE | M_L3_PROTO | M_L4_PROTO | M_PROBABILITY | M_SPORT | M_DPORT
  | M_FLOW_PROBABILITY => gen_meta m
  | M_MARK | M_FLOW_HASH => Er ENOTSUP
  | M_IP4_DSCP => gen_ip4_dscp m mt
  | M_IP4_SADDR | M_IP4_DADDR | M_IP4_PROTO | M_IP6_SADDR | M_IP6_DADDR
  | M_ICMP_TYPE | M_ICMP_CODE | M_ICMPV6_TYPE | M_ICMPV6_CODE => gen_load_cmp m mt
  | M_IP4_SNET | M_IP4_DNET | M_IP6_SNET | M_IP6_DNET => gen_net m mt
  | M_TCP_SPORT | M_TCP_DPORT | M_UDP_SPORT | M_UDP_DPORT => gen_port m mt
  | M_TCP_FLAGS => gen_tcp_flags m mt
  | M_IP6_NEXTHDR => gen_nexthdr m
  | M_IP6_DSCP => gen_ip6_dscp m mt
  | M_SET => gen_set c m
  end.

(** ** The cgroup socket hooks *)

(** Offsets in struct bpf_sock_addr (include/uapi/linux/bpf.h). *)
Definition sa_user_ip4 : nat := 4.    Definition sa_user_ip6 : nat := 8.
Definition sa_user_port : nat := 24.  Definition sa_family : nat := 28.
Definition sa_protocol : nat := 36.   Definition sa_src_ip4 : nat := 40.
Definition sa_src_ip6 : nat := 44.

(** cgen/cgroup_sock_addr.c:82-148 _bf_cgroup_sock_addr_load_field into r1 (and r2 for
    16 bytes); r1 is the only destination used.  The 1-, 2- and 8-byte cases have no
    caller. *)
Definition sa_load (offset size : nat) : res code :=
  let o := Z.of_nat offset in
  match size with
  | 4%nat => Ok [I (Ldx SW R1 R6 o)]
  | 16%nat =>
      if (offset mod 8 =? 0)%nat then Ok [I (Ldx SDW R1 R6 o); I (Ldx SDW R2 R6 (o + 8))]
      else Ok [I (Ldx SW R1 R6 o); I (Ldx SW R3 R6 (o + 4)); LSH64I R3 32;
               I (Alu true AOr R1 (Rg R3));
               I (Ldx SW R2 R6 (o + 8)); I (Ldx SW R3 R6 (o + 12)); LSH64I R3 32;
               I (Alu true AOr R2 (Rg R3))]
  | _ => Er EINVAL
  end.

(** cgroup_sock_addr.c:150-190 _bf_cgroup_sock_addr_store_field, from r1. *)
Definition sa_store (offset : Z) (size : nat) : res code :=
  match size with
  | 2%nat => Ok [I (Stx SH R10 R1 offset)]
  | 4%nat => Ok [I (Stx SW R10 R1 offset)]
  | 16%nat => Ok [I (Stx SDW R10 R1 offset); I (Stx SDW R10 R2 (offset + 8))]
  | _ => Er EINVAL
  end.

(** cgroup_sock_addr.c:192-207 _bf_cgroup_sock_addr_load_and_cmp. *)
Definition sa_load_cmp (m : matcher) (offset size : nat) : res code :=
  a <- sa_load offset size ; b <- cmp_value m (m_pay m) size R1 ; Ok (a ++ b).

(** cgroup_sock_addr.c:209-229 _bf_cgroup_sock_addr_generate_net. *)
Definition sa_net (m : matcher) (offset size : nat) : res code :=
  a <- sa_load offset size ;
  b <- cmp_masked m (skipn 4 (m_pay m)) (le_dec (firstn 4 (m_pay m))) size R1 ;
  Ok (a ++ b).

(** cgroup_sock_addr.c:231-257 _bf_cgroup_sock_addr_generate_port. *)
Definition sa_port (m : matcher) : res code :=
  a <- sa_load sa_user_port 4 ;
  match m_op m with
  | OP_RANGE =>
      Ok (a ++ [I (Bswap16 R1)] ++
          cmp_range m (le_dec (sub (m_pay m) 0 2)) (le_dec (sub (m_pay m) 2 2)) R1)
  | _ => b <- cmp_value m (m_pay m) 2 R1 ; Ok (a ++ b)
  end.

(** cgroup_sock_addr.c:259-282 _bf_cgroup_sock_addr_ctx_offset. *)
Definition sa_offset (t : mtype) : res nat :=
  match t with
  | M_IP4_SADDR | M_IP4_SNET => Ok sa_src_ip4
  | M_IP4_DADDR | M_IP4_DNET => Ok sa_user_ip4
  | M_IP6_SADDR | M_IP6_SNET => Ok sa_src_ip6
  | M_IP6_DADDR | M_IP6_DNET => Ok sa_user_ip6
  | M_IP4_PROTO => Ok sa_protocol
  | M_TCP_DPORT | M_UDP_DPORT => Ok sa_user_port
  | _ => Er ENOTSUP
  end.

(** cgroup_sock_addr.c:320-358: the component loop of
    _bf_cgroup_sock_addr_generate_set. *)
Fixpoint sa_set_key (key : list mtype) (offset : nat) : res code :=
  match key with
  | [] => Ok []
  | t :: r =>
      let n := mt_size (meta_of t) in
      o <- sa_offset t ;
      b <- sa_set_key r (offset + n) ;
      Ok (match t with
          | M_IP4_PROTO => [I (Stx SB R10 R8 (scr_off (Z.of_nat offset)))]
          | _ => stub_load n (Z.of_nat o) (scr_off (Z.of_nat offset)) n
          end ++ b)
  end.

(** cgroup_sock_addr.c:284-361 _bf_cgroup_sock_addr_generate_set, with
    cgen/matcher/set.c:61-79 bf_set_generate_trie_lookup. *)
Definition sa_set (c : chain) (m : matcher) : res code :=
  match set_of (c_sets c) m with
  | None => Er ENOENT
  | Some s =>
      if s_trie s then
        match s_key s with
        | [] => Er EINVAL
        | t :: _ =>
            let n := mt_size (meta_of t) in
            o <- sa_offset t ;
            b <- gen_map_lookup c m (scr_off 4) ;
            Ok ([MOV64I R1 (Z.of_nat (n * 8)); I (Stx SW R10 R1 (scr_off 4))] ++
                stub_load n (Z.of_nat o) (scr_off 8) n ++ b)
        end
      else
        a <- sa_set_key (s_key s) 0 ;
        b <- gen_map_lookup c m (scr_off 0) ;
        Ok (a ++ b)
  end.

(** cgroup_sock_addr.c:363-417 _bf_cgroup_sock_addr_gen_inline_matcher. *)
Definition sa_matcher (c : chain) (m : matcher) : res code :=
  match m_type m with
  | M_L3_PROTO | M_L4_PROTO | M_PROBABILITY => gen_meta m
  | M_IP4_SADDR => sa_load_cmp m sa_src_ip4 4
  | M_IP4_SNET => sa_net m sa_src_ip4 4
  | M_IP4_DADDR => sa_load_cmp m sa_user_ip4 4
  | M_IP4_DNET => sa_net m sa_user_ip4 4
  | M_IP4_PROTO => b <- cmp_value m (m_pay m) 1 R1 ; Ok (MOV64R R1 R8 :: b)
  | M_IP6_SADDR => sa_load_cmp m sa_src_ip6 16
  | M_IP6_SNET => sa_net m sa_src_ip6 16
  | M_IP6_DADDR => sa_load_cmp m sa_user_ip6 16
  | M_IP6_DNET => sa_net m sa_user_ip6 16
  | M_DPORT | M_TCP_DPORT | M_UDP_DPORT => sa_port m
  | M_SET => sa_set c m
  | _ => Er ENOTSUP
  end.

(** cgen/tc.c:90-120, cgen/cgroup_skb.c:119-138, cgen/nf.c:130-155 and the above: the
    flavor's gen_inline_matcher. *)
Definition gen_matcher (c : chain) (m : matcher) : res code :=
  match hook_flavor (c_hook c), m_type m with
  | (F_TC | F_CGROUP_SKB), M_MARK =>
      b <- cmp_value m (m_pay m) 4 R1 ;
      Ok ([I (Ldx SDW R1 R10 (ctx_off o_arg)); I (LdxK SW R1 R1 SkMark)] ++ b)
  | F_NF, M_MARK =>
      b <- cmp_value m (m_pay m) 4 R1 ;
      Ok ([I (Ldx SDW R1 R10 (ctx_off o_arg)); I (LdxK SDW R2 R1 NfSkb);
           I (LdxK SW R1 R2 KskMark)] ++ b)
  | F_TC, M_FLOW_HASH =>
      let pre := [I (Ldx SDW R1 R10 (ctx_off o_arg)); I (Call HHashRecalc)] in
      match m_op m with
      | OP_RANGE =>
          Ok (pre ++ cmp_range m (le_dec (sub (m_pay m) 0 4)) (le_dec (sub (m_pay m) 4 4)) R0)
      | _ => b <- cmp_value m (m_pay m) 4 R0 ; Ok (pre ++ b)
      end
  | F_SOCK_ADDR, _ => sa_matcher c m
  | _, _ => gen_packet_matcher c m
  end.

(** ops->get_verdict: cgen/xdp.c:119-134, cgen/tc.c:159-176, cgen/nf.c:163-178,
    cgen/cgroup_skb.c:146-161, cgen/cgroup_sock_addr.c:419-441. *)
Definition get_verdict (f : flavor) (v : verdict) : res Z :=
  match f, v with
  | F_XDP, (V_ACCEPT | V_NEXT) => Ok 2%Z
  | F_XDP, V_DROP => Ok 1%Z
  | F_TC, V_ACCEPT => Ok 0%Z
  | F_TC, V_DROP => Ok 2%Z
  | F_TC, V_NEXT => Ok (-1)%Z
  | F_NF, (V_ACCEPT | V_NEXT) => Ok 1%Z
  | F_NF, V_DROP => Ok 0%Z
  | (F_CGROUP_SKB | F_SOCK_ADDR), (V_ACCEPT | V_NEXT) => Ok 1%Z
  | (F_CGROUP_SKB | F_SOCK_ADDR), V_DROP => Ok 0%Z
  | _, _ => Er ENOTSUP
  end.

(** ops->gen_inline_set_mark: cgen/tc.c:79-88, cgen/cgroup_skb.c:107-117. *)
Definition gen_set_mark (f : flavor) (mark : N) : res code :=
  match f with
  | F_TC | F_CGROUP_SKB =>
      Ok [I (Ldx SDW R1 R10 (ctx_off o_arg)); MOV64I R2 (i32 mark);
          I (StxK R1 R2 SkMark)]
  | _ => Er ENOTSUP
  end.

(** ops->gen_inline_redirect: cgen/xdp.c:92-110, cgen/tc.c:133-150. *)
Definition gen_redirect (f : flavor) (ifindex : N) (d : rdir) : res code :=
  match f with
  | F_XDP =>
      match d with
      | D_EGRESS => Ok [MOV64I R1 (i32 ifindex); MOV64I R2 0; I (Call HRedirect); I Exit]
      | D_INGRESS => Er ENOTSUP
      end
  | F_TC =>
      Ok [MOV64I R1 (i32 ifindex);
          MOV64I R2 (match d with D_INGRESS => 1%Z | D_EGRESS => 0%Z end);
          I (Call HRedirect); I Exit]
  | _ => Er ENOTSUP
  end.

(** cgen/packet.c:421-441 bf_packet_gen_inline_log. *)
Definition gen_packet_log (r : rule) : code :=
  [MOV64R R1 R10; ADD64I R1 (ctx_off o_arg); MOV64I R2 (i32 (r_index r));
   MOV64I R3 (i32 (r_log r)); MOV64I R4 (Z.of_N (verdict_id (r_verdict r)));
   MOV64R R5 R7; LSH64I R5 16; I (Alu true AOr R5 (Rg R8));
   I (Call StubLog)].

(** cgen/cgroup_sock_addr.c:443-527 _bf_cgroup_sock_addr_gen_inline_log: the addresses
    and the port are copied to the scratch area, which is zeroed first; [saddr] is the
    offset of the source address for the hooks that have one. *)
Definition sa_copy (offset : nat) (dst : Z) (size : nat) : code :=
  match sa_load offset size, sa_store dst size with
  | Ok a, Ok b => a ++ b
  | _, _ => []
  end.

Definition sa_log (saddr : option nat) (daddr size : nat) (r : rule) : code :=
  map (fun i => I (St SDW R10 (scr_off i) 0)) [0; 8; 16; 24; 32]%Z ++
  match saddr with Some o => sa_copy o (scr_off 0) size | None => [] end ++
  sa_copy daddr (scr_off 16) size ++
  [I (Ldx SW R1 R6 (Z.of_nat sa_user_port)); I (Bswap16 R1);
   I (Stx SH R10 R1 (scr_off 32));
   MOV64R R1 R10; ADD64I R1 (ctx_off o_arg); MOV64I R2 (i32 (r_index r));
   MOV64I R3 (Z.of_N (verdict_id (r_verdict r)));
   MOV64R R4 R7; LSH64I R4 16; I (Alu true AOr R4 (Rg R8));
   MOV64I R5 (match saddr with Some _ => 1%Z | None => 0%Z end);
   I (Call StubSockLog)].

(** ops->gen_inline_log of the hook's flavor. *)
Definition gen_log (h : hook) (r : rule) : code :=
  match h with
  | H_CONNECT4 => sa_log None sa_user_ip4 4 r
  | H_SENDMSG4 => sa_log (Some sa_src_ip4) sa_user_ip4 4 r
  | H_CONNECT6 => sa_log None sa_user_ip6 16 r
  | H_SENDMSG6 => sa_log (Some sa_src_ip6) sa_user_ip6 16 r
  | _ => gen_packet_log r
  end.

(** The call of the update_counters ELF stub (program.c:634-640, 866-872). *)
Definition gen_count (idx : N) : code :=
  [MOV64R R1 R10; ADD64I R1 (ctx_off o_arg); I (LdMap R2 MCnt); I Pad;
   MOV32I R3 (i32 idx); I (Call StubCounters)].

(** cgen/program.c:479-505 _bf_program_check_proto.  [checked] is the pair of
    layer bits already checked. *)
Definition checked_get (ck : bool * bool) (l : layer) : bool :=
  match l with L_3 => fst ck | L_4 => snd ck | L_NONE => false end.
Definition checked_set (ck : bool * bool) (l : layer) : bool * bool :=
  match l with L_3 => (true, snd ck) | L_4 => (fst ck, true) | L_NONE => ck end.

Definition check_proto (t : mtype) (ck : bool * bool) : res (code * (bool * bool)) :=
  let mt := meta_of t in
  if checked_get ck (mt_layer mt) then Ok ([], ck)
  else match mt_layer mt with
       | L_NONE => Ok ([], ck)
       | l => a <- check_protocol mt ; Ok (a, checked_set ck l)
       end.

Fixpoint check_protos (ts : list mtype) (ck : bool * bool) : res (code * (bool * bool)) :=
  match ts with
  | [] => Ok ([], ck)
  | t :: r =>
      a <- check_proto t ck ;
      b <- check_protos r (snd a) ;
      Ok (fst a ++ fst b, snd b)
  end.

(** The types a matcher needs checked: its own, or its set's components
    (program.c:524-549). *)
Definition matcher_types (c : chain) (m : matcher) : res (list mtype) :=
  match m_type m with
  | M_SET => match set_of (c_sets c) m with
             | Some s => Ok (s_key s)
             | None => Er ENOENT
             end
  | t => Ok [t]
  end.

Fixpoint gen_guards (c : chain) (ms : list matcher) (ck : bool * bool) : res code :=
  match ms with
  | [] => Ok []
  | m :: r =>
      ts <- matcher_types c m ;
      a <- check_protos ts ck ;
      b <- gen_guards c r (snd a) ;
      Ok (fst a ++ b)
  end.

Fixpoint gen_matchers (c : chain) (ms : list matcher) : res code :=
  match ms with
  | [] => Ok []
  | m :: r => a <- gen_matcher c m ; b <- gen_matchers c r ; Ok (a ++ b)
  end.

(** program.c:577-632: the log part of a rule. *)
Definition gen_rule_log (h : hook) (r : rule) : code :=
  if r_log r =? 0 then []
  else if r_log_rate r =? 0 then gen_log h r
  else
    [I (Ldx SDW R9 R10 (ctx_off o_statemap))] ++
    jover (Jmp true JEQ R9 (Im 0))
      ((if r_index r =? 0 then [] else [ADD64I R9 (i32 (r_index r * 8))]) ++
       [I (Call HKtime); I (Ldx SDW R1 R9 0); MOV64R R2 R0;
        I (Alu true ASub R2 (Rg R1)); I (LdImm64 R1 (r_log_rate r)); I Pad] ++
       jover (Jmp true JLT R2 (Rg R1))
         ([I (Stx SDW R9 R0 0)] ++ gen_log h r)).

(** program.c:642-672: the verdict part of a rule. *)
Definition gen_rule_verdict (f : flavor) (r : rule) : res code :=
  match r_verdict r with
  | V_ACCEPT | V_DROP | V_NEXT =>
      k <- get_verdict f (r_verdict r) ; Ok [MOV64I R0 k; I Exit]
  | V_REDIRECT => gen_redirect f (r_rd_ifindex r) (r_rd_dir r)
  | V_CONTINUE => Ok []
  end.

(** cgen/program.c:507-680 _bf_program_generate_rule (before the fixup). *)
Definition gen_rule (c : chain) (r : rule) : res code :=
  if r_disabled r then Ok []
  else
    let f := hook_flavor (c_hook c) in
    g <- gen_guards c (r_matchers r) (false, false) ;
    ms <- gen_matchers c (r_matchers r) ;
    mk <- (if mark_is_set r then gen_set_mark f (mark_get r) else Ok []) ;
    vd <- gen_rule_verdict f r ;
    Ok (g ++ ms ++ mk ++ gen_rule_log (c_hook c) r ++
        (if r_counters r then gen_count (r_index r) else []) ++ vd).

(** cgen/program.c:379-478 _bf_program_fixup for BF_FIXUP_TYPE_JMP_NEXT_RULE: the
    offset is (int16_t)(image size - position - 1). *)
Definition set_off (i : insn) (o : Z) : insn :=
  match i with
  | Jmp w op d s _ => Jmp w op d s o
  | Ja _ => Ja o
  | i => i
  end.

Fixpoint resolve (l : code) : list insn :=
  match l with
  | [] => []
  | I i :: r => i :: resolve r
  | J i :: r => set_off i (i16 (Z.of_nat (length r))) :: resolve r
  end.

Fixpoint gen_rules (c : chain) (rs : list rule) : res (list (list insn)) :=
  match rs with
  | [] => Ok []
  | r :: rest => a <- gen_rule c r ; b <- gen_rules c rest ; Ok (resolve a :: b)
  end.

Definition n_rules (c : chain) : N := N.of_nat (length (c_rules c)).

(** The block that counts an error and lets the packet through; jumped over when
    the preceding call succeeded (stub.c:74-95, 131-152, 210-228, 363-381). *)
Definition fail_block (c : chain) (k : Z) : code :=
  gen_count (n_rules c + 1) ++ [MOV64I R0 k; I Exit].

(** cgen/stub.c:47-103 bf_stub_make_ctx_{xdp,skb}_dynptr. *)
Definition make_dynptr (c : chain) (kfunc : callee) (k : Z) : code :=
  [MOV64I R2 0; MOV64R R3 R10; ADD64I R3 (ctx_off o_dynptr); I (Call kfunc)] ++
  jover (Jmp true JEQ R0 (Im 0)) (fail_block c k).

(** cgen/stub.c:105-162 bf_stub_parse_l2_ethhdr. *)
Definition parse_l2 (c : chain) (k : Z) : code :=
  [MOV64R R1 R10; ADD64I R1 (ctx_off o_dynptr); MOV64I R2 0;
   MOV64R R3 R10; ADD64I R3 (ctx_off o_l2); MOV64I R4 14;
   I (Stx SB R10 R4 (ctx_off o_l2size)); I (Call KSlice)] ++
  jover (Jmp true JNE R0 (Im 0)) (fail_block c k) ++
  [I (Stx SDW R10 R0 (ctx_off o_l2hdr)); I (Ldx SH R7 R0 12);
   I (St SW R10 (ctx_off o_l3off) 14)].

(** stub.c:36 _BF_LOW_EH_BITMASK. *)
Definition LOW_EH_BITMASK : N := 0x1801800000000801.

(** stub.c:250-317: the IPv6 part of bf_stub_parse_l3_hdr. *)
Definition parse_ip6 (c : chain) : code :=
  let eh := [MOV64R R1 R10; ADD64I R1 (ctx_off o_arg);
             I (Call (if c_nexthdr c then StubIp6Nh else StubIp6Eh)); MOV64R R8 R0] in
  let tail := [I (Ldx SW R2 R10 (ctx_off o_l3off)); ADD64I R2 40;
               I (Stx SW R10 R2 (ctx_off o_l4off))] in
  let mid := [I (LdImm64 R2 LOW_EH_BITMASK); I Pad;
              I (Jmp true JGE R8 (Im 64) 4);
              MOV64I R3 1; I (Alu true ALsh R3 (Rg R8)); I (Alu true AAnd R3 (Rg R2));
              I (Jmp true JNE R3 (Im 0) 4);
              I (Jmp true JEQ R8 (Im 135) 3);
              I (Jmp true JEQ R8 (Im 139) 2);
              I (Jmp true JEQ R8 (Im 140) 1)] ++
             jover Ja (eh ++ [I (Ja (i16 (Z.of_nat (length tail))))]) in
  [I (Ldx SB R8 R0 6)] ++
  jover (Jmp true JEQ R8 (Im 6)) (jover (Jmp true JEQ R8 (Im 17)) mid) ++ tail.

(** cgen/stub.c:164-320 bf_stub_parse_l3_hdr. *)
Definition parse_l3 (c : chain) (k : Z) : code :=
  swich R7 [(swap16 ETH_P_IP, [Alu true AMov R4 (Im 20)]);
            (swap16 ETH_P_IPV6, [Alu true AMov R4 (Im 40)])]
    (Some [Alu true AMov R7 (Im 0)]) ++
  jover (Jmp true JEQ R7 (Im 0))
    ([I (Stx SB R10 R4 (ctx_off o_l3size));
      MOV64R R1 R10; ADD64I R1 (ctx_off o_dynptr);
      I (Ldx SW R2 R10 (ctx_off o_l3off));
      MOV64R R3 R10; ADD64I R3 (ctx_off o_l2); I (Call KSlice)] ++
     jover (Jmp true JNE R0 (Im 0)) (fail_block c k) ++
     [I (Stx SDW R10 R0 (ctx_off o_l3hdr))] ++
     jover (Jmp true JNE R7 (Im (i32 (swap16 ETH_P_IP))))
       [I (Ldx SB R1 R0 0); AND64I R1 15; LSH64I R1 2;
        I (Ldx SW R2 R10 (ctx_off o_l3off)); I (Alu true AAdd R1 (Rg R2));
        I (Stx SW R10 R1 (ctx_off o_l4off)); I (Ldx SB R8 R0 9)] ++
     jover (Jmp true JNE R7 (Im (i32 (swap16 ETH_P_IPV6)))) (parse_ip6 c)).

(** cgen/stub.c:322-392 bf_stub_parse_l4_hdr. *)
Definition parse_l4 (c : chain) (k : Z) : code :=
  swich R8 [(IPPROTO_TCP, [Alu true AMov R4 (Im 20)]);
            (IPPROTO_UDP, [Alu true AMov R4 (Im 8)]);
            (IPPROTO_ICMP, [Alu true AMov R4 (Im 8)]);
            (IPPROTO_ICMPV6, [Alu true AMov R4 (Im 8)])]
    (Some [Alu true AMov R8 (Im 0)]) ++
  jover (Jmp true JEQ R8 (Im 0))
    ([I (Stx SB R10 R4 (ctx_off o_l4size));
      MOV64R R1 R10; ADD64I R1 (ctx_off o_dynptr);
      I (Ldx SW R2 R10 (ctx_off o_l4off));
      MOV64R R3 R10; ADD64I R3 (ctx_off o_l4); I (Call KSlice)] ++
     jover (Jmp true JNE R0 (Im 0)) (fail_block c k) ++
     [I (Stx SDW R10 R0 (ctx_off o_l4hdr))]).

(** AF_INET / AF_INET6 to ethertype, nf.c:84-97, cgroup_skb.c:67-80 and
    cgroup_sock_addr.c:58-69. *)
Definition family_swich (r : reg) : code :=
  swich r [(2, [Alu true AMov R7 (Im (i32 (swap16 ETH_P_IP)))]);
           (10, [Alu true AMov R7 (Im (i32 (swap16 ETH_P_IPV6)))])]
    (Some [Alu true AMov R7 (Im 0)]).

(** cgen/nf.c:39-43 _bf_nf_hook_is_ingress. *)
Definition nf_ingress (h : hook) : bool :=
  match h with H_NF_PRE_ROUTING | H_NF_LOCAL_IN | H_NF_FORWARD => true | _ => false end.

(** ops->gen_inline_prologue: cgen/xdp.c:33-72, cgen/tc.c:27-70, cgen/nf.c:45-121,
    cgen/cgroup_skb.c:32-98, cgen/cgroup_sock_addr.c:39-80. *)
Definition gen_prologue (c : chain) : res code :=
  let f := hook_flavor (c_hook c) in
  k <- get_verdict f V_ACCEPT ;
  match f with
  | F_XDP =>
      Ok ([I (LdxK SW R2 R1 XdpData); I (LdxK SW R3 R1 XdpDataEnd);
           I (Alu true ASub R3 (Rg R2)); I (Stx SDW R10 R3 (ctx_off o_pktsize));
           I (LdxK SW R2 R1 XdpIfindex); I (Stx SW R10 R2 (ctx_off o_ifindex))] ++
          make_dynptr c KDynXdp k ++ parse_l2 c k ++ parse_l3 c k ++ parse_l4 c k)
  | F_TC =>
      Ok ([I (LdxK SW R3 R1 SkLen); I (Stx SDW R10 R3 (ctx_off o_pktsize));
           I (LdxK SW R2 R1 SkIfindex); I (Stx SW R10 R2 (ctx_off o_ifindex))] ++
          make_dynptr c KDynSkb k ++ parse_l2 c k ++ parse_l3 c k ++ parse_l4 c k)
  | F_CGROUP_SKB =>
      Ok ([I (LdxK SW R3 R1 SkLen); ADD64I R3 14;
           I (Stx SDW R10 R3 (ctx_off o_pktsize));
           I (LdxK SW R2 R1 SkIfindex); I (Stx SW R10 R2 (ctx_off o_ifindex));
           I (LdxK SW R2 R1 SkFamily)] ++
          family_swich R2 ++
          [I (St SW R10 (ctx_off o_l3off) 0)] ++
          make_dynptr c KDynSkb k ++ parse_l3 c k ++ parse_l4 c k)
  | F_NF =>
      Ok ([I (LdxK SDW R2 R1 NfState);
           I (LdxK SDW R3 R2 (if nf_ingress (c_hook c) then StIn else StOut));
           I (LdxK SW R4 R3 DevIfindex); I (Stx SW R10 R4 (ctx_off o_ifindex));
           I (LdxK SB R3 R2 StPf)] ++
          family_swich R3 ++
          [I (St SW R10 (ctx_off o_l3off) 0);
           I (LdxK SDW R1 R1 NfSkb); I (LdxK SW R2 R1 KskLen); ADD64I R2 14;
           I (Stx SDW R10 R2 (ctx_off o_pktsize))] ++
          make_dynptr c KDynSkb k ++ parse_l3 c k ++ parse_l4 c k)
  | F_SOCK_ADDR =>
      Ok ([MOV64R R6 R1; I (St SDW R10 (ctx_off o_pktsize) 0);
           I (Ldx SW R2 R6 (Z.of_nat sa_family))] ++
          family_swich R2 ++
          [I (Ldx SW R8 R6 (Z.of_nat sa_protocol))])
  end.

(** cgen/program.c:818-865: everything before the rules. *)
Definition gen_head (c : chain) : res code :=
  p <- gen_prologue c ;
  Ok ([I (Stx SDW R10 R1 (ctx_off o_arg)); MOV64I R7 0; MOV64I R8 0] ++
      (if c_log c then [I (LdMap R2 MLog); I Pad; I (Stx SDW R10 R2 (ctx_off o_logmap))]
       else []) ++
      (if c_nexthdr c then [I (Stx SDW R10 R7 (ctx_off o_eh))] else []) ++
      p ++
      (if c_ratelimit c then
         [I (St SW R10 (scr_off 0) 0); I (LdMap R1 MState); I Pad;
          MOV64R R2 R10; ADD64I R2 (scr_off 0); I (Call HMapLookup);
          I (Stx SDW R10 R0 (ctx_off o_statemap))]
       else [])).

(** cgen/program.c:877-890: the chain policy. *)
Definition gen_tail (c : chain) : res code :=
  k <- get_verdict (hook_flavor (c_hook c)) (c_policy c) ;
  Ok (gen_count (n_rules c) ++ [MOV64I R0 k; I Exit]).

(** cgen/program.c:815-902 bf_program_generate. *)
Definition gen_program (c : chain) : res (list insn) :=
  h <- gen_head c ;
  rs <- gen_rules c (c_rules c) ;
  t <- gen_tail c ;
  Ok (resolve h ++ concat rs ++ resolve t).
