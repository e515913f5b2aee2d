(** Model of how a generated program is put together: instructions appended one
    by one, references left open in a list of fixups, ELF stubs appended once
    each, the messages the program prints gathered in one buffer, and the
    fixups resolved - next rule, stub call, map.  What the individual
    instructions are is GenModel/ProgModel; here an instruction is the five
    fields of struct bpf_insn. *)
From Coq Require Import ZArith NArith List Lia Bool.
From Verif Require Import Bytes Types BpfModel GenModel.
Import ListNotations.
Open Scope res_scope.

(** include/uapi/linux/bpf.h struct bpf_insn, as built by the BPF_* macros of
    external/include/filter.h. *)
Record word := mkW { w_code : N; w_dst : N; w_src : N; w_off : Z; w_imm : Z }.
Definition set_off (w : word) (z : Z) : word := mkW (w_code w) (w_dst w) (w_src w) z (w_imm w).
Definition set_imm (w : word) (z : Z) : word := mkW (w_code w) (w_dst w) (w_src w) (w_off w) z.

(** filter.h:315-320 BPF_CALL_REL(0): BPF_JMP|BPF_CALL, BPF_PSEUDO_CALL. *)
Definition call_rel : word := mkW 133 0 1 0 0.
(** filter.h BPF_LD_MAP_FD(BPF_REG_1, 0) with src_reg = BPF_PSEUDO_MAP_VALUE
    (printer.h:74-77, program.c:708-712). *)
Definition ld_text : word := mkW 24 1 2 0 0.
(** the second half of that load: everything zero but the immediate
    (printer.h:78, program.c:713). *)
Definition text_half (z : Z) : word := mkW 0 0 0 0 z.
(** printer.h:86-91: BPF_MOV64_IMM(BPF_REG_2, len), BPF_EMIT_CALL(BPF_FUNC_trace_printk). *)
Definition mov_len (z : Z) : word := mkW 183 2 0 0 z.
Definition call_printk : word := mkW 133 0 0 0 6.

(** C conversions to int, int16_t and uint32_t (two's complement). *)
Definition to_s32 (z : Z) : Z := (let m := z mod 4294967296 in if m <? 2147483648 then m else m - 4294967296)%Z.
Definition to_s16 (z : Z) : Z := (let m := z mod 65536 in if m <? 32768 then m else m - 65536)%Z.
Definition to_u32 (z : Z) : Z := (z mod 4294967296)%Z.
Definition to_u64 (z : Z) : Z := (z mod 18446744073709551616)%Z.

(** cgen/fixup.h:26-60 enum bf_fixup_type; the attribute of SET_MAP_FD and
    ELFSTUB_CALL is kept with the type.  A set is named by its position. *)
Inductive mapref := M_set (s : nat) | M_counters | M_printer | M_log | M_state.
Inductive kind := K_next | K_map (k : mapref) | K_call (id : nat).
Record fixup := mkFx { fx_at : nat; fx_kind : kind }.

(** cgen/printer.c:22-30 struct bf_printer_msg. *)
Record pmsg := mkP { p_off : nat; p_len : nat; p_str : list N }.

(** printer.c:268-281 _bf_printer_total_size: end of the last message. *)
Fixpoint total_size (l : list pmsg) : nat :=
  match l with [] => 0 | [m] => p_off m + p_len m | _ :: r => total_size r end.

(** printer.c:283-333 bf_printer_add_msg, without allocation failures.  A C
    string is its bytes before the NUL. *)
Definition add_msg (l : list pmsg) (s : list N) : list pmsg * pmsg :=
  match find (fun m => bytes_eqb (p_str m) s) l with
  | Some m => (l, m)
  | None => let m := mkP (total_size l) (length s + 1) s in (l ++ [m], m)
  end.

(** memcpy into a buffer. *)
Definition blit (buf : list N) (off : nat) (b : list N) : list N :=
  firstn off buf ++ b ++ skipn (off + length b) buf.

(** printer.c:335-372 bf_printer_assemble.  [junk]: what malloc returns.  A copy
    that leaves the buffer or reads past the message is undefined behaviour. *)
Fixpoint copy_msgs (buf : list N) (l : list pmsg) : res (list N) :=
  match l with
  | [] => Ok buf
  | m :: r =>
      if (length (p_str m) + 1 <? p_len m)%nat || (length buf <? p_off m + p_len m)%nat then Er EUB
      else copy_msgs (blit buf (p_off m) (firstn (p_len m) (p_str m ++ [0%N]))) r
  end.
Definition assemble (junk : nat -> list N) (l : list pmsg) : res (list N) :=
  match total_size l with
  | O => Ok [0%N]
  | n => copy_msgs (firstn n (junk n ++ repeat 0%N n)) l
  end.

(** include/bpfilter/elfstub.h:60-84 struct bf_elfstub: the stub's instructions
    and, for each load of a string of .rodata, the instruction's index and the
    string. *)
Record stub := mkStub { st_insns : list word; st_strs : list (nat * list N) }.

(** Whether assertions are compiled in (they are not in CMake's release builds,
    the default: CMakeLists.txt:41-43), and what the program is linked against:
    the stubs (bf_ctx_get_elfstub) and the file descriptors of the maps, None for a map that is not created. *)
Record env := mkEnv { e_debug : bool; e_stub : nat -> option stub; e_fd : mapref -> option Z }.

(** program.h:180-250 struct bf_program: img, fixups, printer,
    elfstubs_location (0 when the stub is not placed). *)
Record asm := mkA { a_img : list word; a_fix : list fixup; a_msgs : list pmsg; a_loc : nat -> Z }.
Definition asm0 : asm := mkA [] [] [] (fun _ => 0%Z).

(** program.c:379-398 _bf_program_fixup_insn: assertions are aborts. *)
Definition patch_off (debug : bool) (w : word) (v : Z) : res word :=
  if debug && negb (w_off w =? 0)%Z then Er EABORT
  else if debug && negb (v <? 32767)%Z then Er EABORT
  else Ok (set_off w (to_s16 v)).
Definition patch_imm (debug : bool) (w : word) (v : Z) : res word :=
  if debug && negb (w_imm w =? 0)%Z then Er EABORT else Ok (set_imm w v).

(** program.c:422-470, the value of each type of fixup. *)
Definition patched (E : env) (loc : nat -> Z) (size at_ : nat) (k : kind) (w : word) : res word :=
  match k with
  | K_next => patch_off (e_debug E) w (to_s32 (Z.of_nat size - Z.of_nat at_ - 1))
  | K_map m => match e_fd E m with Some fd => patch_imm (e_debug E) w fd | None => Er ENOENT end
  | K_call id =>
      let o := to_u64 (loc id - Z.of_nat at_ - 1) in
      if (2147483647 <=? o)%Z then Er EINVAL else patch_imm (e_debug E) w o
  end.

Fixpoint wset {A} (l : list A) (i : nat) (w : A) : list A :=
  match l, i with
  | [], _ => []
  | _ :: r, O => w :: r
  | x :: r, S j => x :: wset r j w
  end.

(** program.c:400-477 _bf_program_fixup: every fixup of the type is applied and
    removed, the others stay. *)
Fixpoint fixups (sel : kind -> bool) (E : env) (loc : nat -> Z) (img : list word) (l : list fixup)
  : res (list word * list fixup) :=
  match l with
  | [] => Ok (img, [])
  | f :: r =>
      if sel (fx_kind f) then
        match nth_error img (fx_at f) with
        | None => Er EINVAL
        | Some w =>
            w' <- patched E loc (length img) (fx_at f) (fx_kind f) w ;
            fixups sel E loc (wset img (fx_at f) w') r
        end
      else
        p <- fixups sel E loc img r ;
        Ok (fst p, f :: snd p)
  end.
Definition fix_all (sel : kind -> bool) (E : env) (a : asm) : res asm :=
  p <- fixups sel E (a_loc a) (a_img a) (a_fix a) ;
  Ok (mkA (fst p) (snd p) (a_msgs a) (a_loc a)).
Definition is_next (k : kind) : bool := match k with K_next => true | _ => false end.
Definition is_call (k : kind) : bool := match k with K_call _ => true | _ => false end.
Definition is_set (k : kind) : bool := match k with K_map (M_set _) => true | _ => false end.
Definition is_counters (k : kind) : bool := match k with K_map M_counters => true | _ => false end.
Definition is_printer (k : kind) : bool := match k with K_map M_printer => true | _ => false end.
Definition is_log (k : kind) : bool := match k with K_map M_log => true | _ => false end.
Definition is_state (k : kind) : bool := match k with K_map M_state => true | _ => false end.

(** What the code generator does to the program, one emission at a time:
    program.c:728-740 bf_program_emit, 766-787 bf_program_emit_fixup (with
    JMP_NEXT_RULE or one of the maps), 789-813 bf_program_emit_fixup_elfstub,
    printer.h:68-92 EMIT_PRINT, and 660 the end of a rule. *)
Inductive step :=
| E_ins (w : word)
| E_next (w : word)
| E_map (k : mapref) (w : word)
| E_call (id : nat)
| E_print (m : list N)
| E_end.

Definition push (a : asm) (w : word) : asm := mkA (a_img a ++ [w]) (a_fix a) (a_msgs a) (a_loc a).
Definition push_fix (a : asm) (w : word) (k : kind) : asm :=
  mkA (a_img a ++ [w]) (a_fix a ++ [mkFx (length (a_img a)) k]) (a_msgs a) (a_loc a).

Definition do_step (E : env) (a : asm) (s : step) : res asm :=
  match s with
  | E_ins w => Ok (push a w)
  | E_next w => Ok (push_fix a w K_next)
  | E_map k w => Ok (push_fix a w (K_map k))
  | E_call id => Ok (push_fix a call_rel (K_call id))
  | E_print t =>
      let '(l, m) := add_msg (a_msgs a) t in
      let a1 := push_fix (mkA (a_img a) (a_fix a) l (a_loc a)) ld_text (K_map M_printer) in
      let a2 := push a1 (text_half (to_s32 (Z.of_nat (p_off m)))) in
      let a3 := push a2 (mov_len (to_s32 (Z.of_nat (p_len m)))) in
      Ok (push a3 call_printk)
  | E_end => fix_all is_next E a
  end.
Fixpoint do_steps (E : env) (a : asm) (l : list step) : res asm :=
  match l with [] => Ok a | s :: r => a1 <- do_step E a s ; do_steps E a1 r end.

(** program.c:702-742: one string of a stub; bf_vector_set fails outside the
    image. *)
Definition place_str (start : nat) (a : asm) (p : nat * list N) : res asm :=
  let i := (start + fst p)%nat in
  let '(l, m) := add_msg (a_msgs a) (snd p) in
  if (length (a_img a) <=? i)%nat then Er EINVAL
  else if (length (a_img a) <=? S i)%nat then Er EINVAL
  else Ok (mkA (wset (wset (a_img a) i ld_text) (S i) (text_half (to_s32 (Z.of_nat (p_off m)))))
               (a_fix a ++ [mkFx i (K_map M_printer)]) l (a_loc a)).
Fixpoint place_strs (start : nat) (a : asm) (l : list (nat * list N)) : res asm :=
  match l with [] => Ok a | p :: r => a1 <- place_str start a p ; place_strs start a1 r end.

(** program.c:668-749 _bf_program_generate_elfstubs.  The fixups the strings add
    while the list is walked are of another type, so walking the list as it was
    is the same. *)
Fixpoint gen_stubs (E : env) (l : list fixup) (a : asm) : res asm :=
  match l with
  | [] => Ok a
  | f :: r =>
      match fx_kind f with
      | K_call id =>
          if (a_loc a id =? 0)%Z then
            match e_stub E id with
            | None => Er ENOENT
            | Some st =>
                let off := length (a_img a) in
                a1 <- place_strs off (mkA (a_img a ++ st_insns st) (a_fix a) (a_msgs a) (a_loc a)) (st_strs st) ;
                gen_stubs E r (mkA (a_img a1) (a_fix a1) (a_msgs a1)
                                   (fun j => if Nat.eqb j id then to_u32 (Z.of_nat off) else a_loc a1 j))
            end
          else gen_stubs E r a
      | _ => gen_stubs E r a
      end
  end.

(** program.c:950-995: the log and state maps are created, and their fixups
    resolved, only for chains that need them. *)
Definition fix_if (m : mapref) (sel : kind -> bool) (E : env) (a : asm) : res asm :=
  match e_fd E m with Some _ => fix_all sel E a | None => Ok a end.

(** program.c:815-898 bf_program_generate from the emissions on, and 1130-1157
    bf_program_load up to the system call: the instructions given to the kernel
    and the value of the printer map. *)
Definition link (E : env) (junk : nat -> list N) (l : list step) : res (list word * list N) :=
  a <- do_steps E asm0 l ;
  a <- gen_stubs E (a_fix a) a ;
  a <- fix_all is_call E a ;
  a <- fix_all is_set E a ;
  a <- fix_all is_counters E a ;
  buf <- assemble junk (a_msgs a) ;
  a <- fix_all is_printer E a ;
  a <- fix_if M_log is_log E a ;
  a <- fix_if M_state is_state E a ;
  Ok (a_img a, buf).

(** The emissions of a whole chain: bf_program_generate (program.c:815-898) with
    the instructions of GenModel, a rule ending where its fixups are resolved
    (program.c:660).  [enc]: the instruction as struct bpf_insn, references
    still open.  Stub numbers are those of elfstub.h:93-173; a set's map is the
    map of its group. *)
Definition stub_id (c : callee) : option nat :=
  match c with
  | StubIp6Eh => Some 0%nat | StubIp6Nh => Some 1%nat | StubCounters => Some 2%nat
  | StubLog => Some 3%nat | StubFlowHash => Some 4%nat | StubSockLog => Some 5%nat
  | _ => None
  end.
Definition mref (m : mapid) : mapref :=
  match m with MCnt => M_counters | MLog => M_log | MState => M_state | MSet g => M_set g end.
Definition carry (enc : insn -> word) (it : item) : step :=
  match it with
  | J i => E_next (enc i)
  | I (LdMap d m) => E_map (mref m) (enc (LdMap d m))
  | I (Call c) => match stub_id c with Some id => E_call id | None => E_ins (enc (Call c)) end
  | I i => E_ins (enc i)
  end.
Fixpoint rules_script (enc : insn -> word) (c : chain) (rs : list rule) : res (list step) :=
  match rs with
  | [] => Ok []
  | r :: rest =>
      a <- gen_rule c r ; b <- rules_script enc c rest ;
      Ok (map (carry enc) a ++ E_end :: b)
  end.
Definition chain_script (enc : insn -> word) (c : chain) : res (list step) :=
  h <- gen_head c ;
  rs <- rules_script enc c (c_rules c) ;
  t <- gen_tail c ;
  Ok (map (carry enc) h ++ rs ++ map (carry enc) t).
