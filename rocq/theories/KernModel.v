(** The part of the kernel that the control plane of bpfilter talks to, and the
    programs that talk to it.

    A library function that makes system calls is a tree ([prog]): it either returns
    or issues one call and continues with the kernel's answer.  [ksys] is the effect of
    one call on the kernel's state.  Interleavings, crashes and failures are then
    statements about which calls are made in which order (SysSpec.v).

    What is simplified.  One bpffs mount, one pin directory below it.  Descriptor,
    inode and object numbers are never reused.  [readdir] returns one snapshot of the
    directory.  Pin names inside a chain directory are an enumeration instead of
    strings.  A call fails either for the reasons written in [ksys] or because the
    environment makes it fail with an error number of its choice (no memory, too many
    files, permission, verifier refusal, device gone, ...), see [can_fail]. *)
From Coq Require Import NArith ZArith List Bool.
From Verif Require Import Bytes Types World BpfModel GenModel StrModel PackModel HookModel.
Import ListNotations.
Local Open Scope N_scope.

Definition fd := N.
Definition ino := N.
Definition oid := N.
Definition pid := N.
Definition name := list N.

(** flock(2) state of an open file description. *)
Inductive lmode := L_NONE | L_READ | L_WRITE.

(** Names of pins in a chain directory: cgen.c:35-37, program.c:61-65,
    program.c:1109 ("bf_set_%04x" of a 16-bit index), link.c:317,322. *)
Inductive pname :=
| P_ctx | P_ctx_tmp | P_prog | P_link | P_link_extra
| P_cmap | P_pmap | P_lmap | P_smap | P_set (i : N).

Definition pname_eqb (a b : pname) : bool :=
  match a, b with
  | P_ctx, P_ctx | P_ctx_tmp, P_ctx_tmp | P_prog, P_prog | P_link, P_link
  | P_link_extra, P_link_extra | P_cmap, P_cmap | P_pmap, P_pmap | P_lmap, P_lmap
  | P_smap, P_smap => true
  | P_set i, P_set j => i =? j
  | _, _ => false
  end.

(** What a link is attached to: an interface, a cgroup directory, or a netfilter
    family and priority. *)
Inductive target := T_if (ifindex : Z) | T_cgroup (path : name) | T_nf (family : N) (prio : Z).

(** The serialised handle: handle.c:172-224 bf_handle_pack.  Presence of each map and
    the names of the set maps; the link's hook and options. *)
Record hdesc := mkHD {
  hd_link : option (hook * hookopts);
  hd_cmap : bool; hd_pmap : bool; hd_lmap : bool; hd_smap : bool;
  hd_sets : list pname
}.

(** Kernel objects.  A program keeps its counters map and its set maps alive; a link
    keeps its program alive. *)
Inductive obj :=
| O_prog (img : list insn) (sets : list oid) (cmap : oid)
| O_counters (n : N) (v : N -> list (N * N))       (* slots; per slot, one pair per CPU *)
| O_set (m : bool * nat * list (list N * list N))  (* trie?, key size, (key, value) list *)
| O_ctx (d : option (node * hdesc))                (* the context map *)
| O_map                                            (* printer, log and state maps *)
| O_link (h : hook) (t : target) (prog : oid) (detached : bool).

(** Open file descriptions. *)
Inductive desc :=
| D_bpffs
| D_pindir (m : lmode)
| D_dir (i : ino) (m : lmode)
| D_obj (o : oid)
| D_cgroup (path : name).

Record kst := mkK {
  k_pindir : bool;                       (* does <bpffs>/bpfilter exist *)
  k_ents : list (name * ino);            (* its entries *)
  k_dirs : ino -> list (pname * oid);    (* contents of the chain directories *)
  k_objs : oid -> option obj;
  k_fds : list (fd * (pid * desc));
  k_next : N;                            (* next unused number *)
  k_cpus : nat                           (* number of possible CPUs *)
}.

(** System calls.  [name] arguments are relative to a descriptor of the pin directory,
    [pname] arguments to a descriptor of a chain directory. *)
Inductive call :=
| C_alloc                                          (* malloc, calloc, strdup *)
| C_open_bpffs                                     (* open(bpffs, O_DIRECTORY) *)
| C_open_pindir (b : fd)                           (* openat(bpffs, "bpfilter") *)
| C_mk_pindir (b : fd)                             (* mkdirat(bpffs, "bpfilter") *)
| C_flock (f : fd) (m : lmode)                     (* flock(LOCK_SH/LOCK_EX | LOCK_NB) *)
| C_close (f : fd)
| C_staging_name                                   (* /dev/urandom, getpid *)
| C_mkdir (p : fd) (n : name)
| C_opendir (p : fd) (n : name)
| C_fstat (f : fd)
| C_stat (p : fd) (n : name)
| C_rename (p : fd) (a b : name)                   (* renameat2(RENAME_NOREPLACE) *)
| C_rmdir (p : fd) (n : name)                      (* unlinkat(AT_REMOVEDIR) *)
| C_readdir (p : fd)
| C_listdir (d : fd)                               (* readdir of a chain directory *)
| C_unlink (d : fd) (p : pname)
| C_rename_pin (d : fd) (a b : pname)              (* renameat inside a chain directory *)
| C_pin (d : fd) (p : pname) (o : fd)              (* BPF_OBJ_PIN *)
| C_get (d : fd) (p : pname)                       (* BPF_OBJ_GET *)
| C_map_create (o : obj)
| C_set_fill (f : fd) (m : bool * nat * list (list N * list N))  (* BPF_MAP_UPDATE_BATCH *)
| C_map_poke (f : fd)                              (* BPF_MAP_UPDATE_ELEM, printer map *)
| C_ctx_write (f : fd) (d : node * hdesc)
| C_ctx_read (f : fd)
| C_cnt_read (f : fd) (i : N)
| C_cnt_write (f : fd) (i : N) (v : list (N * N))
| C_prog_load (img : list insn) (sets : list fd) (cmap : fd)
| C_open_cgroup (path : name)
| C_link_create (prog : fd) (h : hook) (t : target)
| C_link_update (l : fd) (prog : fd)
| C_link_detach (l : fd)
| C_dup (f : fd)                                    (* dup(2), of a map or program only *)
| C_ncpus.

Inductive reply :=
| R_ok | R_err (e : N) | R_fd (f : fd) | R_ino (i : ino) | R_name (n : name)
| R_names (l : list name) | R_pnames (l : list pname)
| R_ctx (d : node * hdesc) | R_cnt (l : list (N * N)) | R_n (n : nat).

(** ** Lookup in the tables *)
Fixpoint ent_find (n : name) (l : list (name * ino)) : option ino :=
  match l with
  | [] => None
  | (m, i) :: r => if bytes_eqb n m then Some i else ent_find n r
  end.
Definition ent_del (n : name) (l : list (name * ino)) : list (name * ino) :=
  filter (fun p => negb (bytes_eqb n (fst p))) l.

Fixpoint pin_find (p : pname) (l : list (pname * oid)) : option oid :=
  match l with
  | [] => None
  | (q, o) :: r => if pname_eqb p q then Some o else pin_find p r
  end.
Definition pin_del (p : pname) (l : list (pname * oid)) : list (pname * oid) :=
  filter (fun x => negb (pname_eqb p (fst x))) l.

Fixpoint fd_find (f : fd) (l : list (fd * (pid * desc))) : option (pid * desc) :=
  match l with
  | [] => None
  | (g, d) :: r => if f =? g then Some d else fd_find f r
  end.
Definition fd_del (f : fd) (l : list (fd * (pid * desc))) : list (fd * (pid * desc)) :=
  filter (fun x => negb (f =? fst x)) l.

(** A descriptor is usable by the process that opened it. *)
Definition desc_of (k : kst) (p : pid) (f : fd) : option desc :=
  match fd_find f (k_fds k) with
  | Some (q, d) => if p =? q then Some d else None
  | None => None
  end.

(** ** Updates *)
Definition with_fds (k : kst) (l : list (fd * (pid * desc))) : kst :=
  mkK (k_pindir k) (k_ents k) (k_dirs k) (k_objs k) l (k_next k) (k_cpus k).
Definition with_ents (k : kst) (l : list (name * ino)) : kst :=
  mkK (k_pindir k) l (k_dirs k) (k_objs k) (k_fds k) (k_next k) (k_cpus k).
Definition with_dir (k : kst) (i : ino) (l : list (pname * oid)) : kst :=
  mkK (k_pindir k) (k_ents k) (updN (k_dirs k) i l) (k_objs k) (k_fds k) (k_next k) (k_cpus k).
Definition with_obj (k : kst) (o : oid) (v : obj) : kst :=
  mkK (k_pindir k) (k_ents k) (k_dirs k) (updN (k_objs k) o (Some v)) (k_fds k) (k_next k) (k_cpus k).
Definition with_next (k : kst) : kst :=
  mkK (k_pindir k) (k_ents k) (k_dirs k) (k_objs k) (k_fds k) (k_next k + 1) (k_cpus k).

(** A new descriptor for [d]. *)
Definition new_fd (k : kst) (p : pid) (d : desc) : kst * reply :=
  (with_next (with_fds k ((k_next k, (p, d)) :: k_fds k)), R_fd (k_next k)).

(** A new object with a descriptor for it: object number and descriptor number are the
    two next numbers. *)
Definition new_obj (k : kst) (p : pid) (v : obj) : kst * reply :=
  new_fd (with_next (with_obj k (k_next k) v)) p (D_obj (k_next k)).

(** flock(2): two descriptions of the same directory conflict unless both are shared. *)
Definition same_place (a b : desc) : bool :=
  match a, b with
  | D_pindir _, D_pindir _ => true
  | D_dir i _, D_dir j _ => i =? j
  | _, _ => false
  end.
Definition mode_of (d : desc) : lmode :=
  match d with D_pindir m | D_dir _ m => m | _ => L_NONE end.
Definition with_mode (d : desc) (m : lmode) : desc :=
  match d with D_pindir _ => D_pindir m | D_dir i _ => D_dir i m | _ => d end.
Definition conflict (a b : lmode) : bool :=
  match a, b with
  | L_NONE, _ | _, L_NONE | L_READ, L_READ => false
  | _, _ => true
  end.
Definition contended (k : kst) (f : fd) (d : desc) (m : lmode) : bool :=
  existsb (fun x => negb (fst x =? f) && same_place d (snd (snd x)) && conflict m (mode_of (snd (snd x)))) (k_fds k).

Definition set_desc (k : kst) (p : pid) (f : fd) (d : desc) : kst :=
  with_fds k (map (fun x => if fst x =? f then (f, (p, d)) else x) (k_fds k)).

(** Calls that the environment may make fail.  Closing a descriptor and removing a
    name (unlink, rmdir, detach) by its owner do not fail for outside reasons. *)
Definition can_fail (c : call) : bool :=
  match c with
  | C_close _ | C_staging_name | C_rmdir _ _ | C_unlink _ _ | C_link_detach _ => false
  | _ => true
  end.

(** The staging prefix, core/lock.h:176. *)
Definition staging_prefix : name := [95; 95; 98; 102; 95; 115; 116; 97; 103; 105; 110; 103; 95].
Fixpoint has_prefix (p n : name) : bool :=
  match p, n with
  | [], _ => true
  | x :: p', y :: n' => (x =? y) && has_prefix p' n'
  | _, [] => false
  end.
Definition is_staging (n : name) : bool := has_prefix staging_prefix n.

(** What the environment decides for one call: nothing, a failure, or (for the staging
    name) the random part of the name. *)
Inductive decision := E_none | E_fail (e : N) | E_suffix (s : name).

Definition names_of (k : kst) : list name := map fst (k_ents k).

(** The counters of a fresh map are zero. *)
Definition zeros (k : kst) : list (N * N) := repeat (0, 0) (k_cpus k).
Definition fresh_obj (k : kst) (o : obj) : obj :=
  match o with O_counters n _ => O_counters n (fun _ => zeros k) | O_ctx _ => O_ctx None | _ => o end.

Definition obj_of (k : kst) (p : pid) (f : fd) : option (oid * obj) :=
  match desc_of k p f with
  | Some (D_obj o) => match k_objs k o with Some v => Some (o, v) | None => None end
  | _ => None
  end.
Definition dir_of (k : kst) (p : pid) (f : fd) : option ino :=
  match desc_of k p f with Some (D_dir i _) => Some i | _ => None end.
Definition oid_of (k : kst) (p : pid) (f : fd) : option oid :=
  match desc_of k p f with Some (D_obj o) => Some o | _ => None end.
Definition is_pindir (k : kst) (p : pid) (f : fd) : bool :=
  match desc_of k p f with Some (D_pindir _) => true | _ => false end.

Definition EAGAIN : N := 11.
Definition EBADFD : N := 77.
Definition ENOLINK : N := 67.

Definition all_some {A B} (f : A -> option B) : list A -> option (list B) :=
  fix go l := match l with
              | [] => Some []
              | a :: r => match f a, go r with Some b, Some bs => Some (b :: bs) | _, _ => None end
              end.

(** ** One call, when the environment does not make it fail. *)
Definition kdo (k : kst) (p : pid) (c : call) (suffix : name) : kst * reply :=
  match c with
  | C_alloc => (k, R_ok)
  | C_open_bpffs => new_fd k p D_bpffs
  | C_open_pindir b =>
      match desc_of k p b with
      | Some D_bpffs => if k_pindir k then new_fd k p (D_pindir L_NONE) else (k, R_err ENOENT)
      | _ => (k, R_err EBADF)
      end
  | C_mk_pindir b =>
      match desc_of k p b with
      | Some D_bpffs =>
          if k_pindir k then (k, R_err EEXIST)
          else (mkK true (k_ents k) (k_dirs k) (k_objs k) (k_fds k) (k_next k) (k_cpus k), R_ok)
      | _ => (k, R_err EBADF)
      end
  | C_flock f m =>
      match desc_of k p f with
      | Some d => if contended k f d m then (k, R_err EWOULDBLOCK) else (set_desc k p f (with_mode d m), R_ok)
      | None => (k, R_err EBADF)
      end
  | C_close f =>
      match desc_of k p f with
      | Some _ => (with_fds k (fd_del f (k_fds k)), R_ok)
      | None => (k, R_err EBADF)
      end
  | C_staging_name => (k, R_name (staging_prefix ++ suffix))
  | C_mkdir pd n =>
      if negb (is_pindir k p pd) then (k, R_err EBADF)
      else match ent_find n (k_ents k) with
           | Some _ => (k, R_err EEXIST)
           | None => (with_next (with_dir (with_ents k ((n, k_next k) :: k_ents k)) (k_next k) []), R_ok)
           end
  | C_opendir pd n =>
      if negb (is_pindir k p pd) then (k, R_err EBADF)
      else match ent_find n (k_ents k) with
           | Some i => new_fd k p (D_dir i L_NONE)
           | None => (k, R_err ENOENT)
           end
  | C_fstat f => match dir_of k p f with Some i => (k, R_ino i) | None => (k, R_err EBADF) end
  | C_stat pd n =>
      if negb (is_pindir k p pd) then (k, R_err EBADF)
      else match ent_find n (k_ents k) with Some i => (k, R_ino i) | None => (k, R_err ENOENT) end
  | C_rename pd a b =>
      if negb (is_pindir k p pd) then (k, R_err EBADF)
      else match ent_find a (k_ents k), ent_find b (k_ents k) with
           | None, _ => (k, R_err ENOENT)
           | Some _, Some _ => (k, R_err EEXIST)
           | Some i, None => (with_ents k ((b, i) :: ent_del a (k_ents k)), R_ok)
           end
  | C_rmdir pd n =>
      if negb (is_pindir k p pd) then (k, R_err EBADF)
      else match ent_find n (k_ents k) with
           | None => (k, R_err ENOENT)
           | Some i => match k_dirs k i with
                       | [] => (with_ents k (ent_del n (k_ents k)), R_ok)
                       | _ :: _ => (k, R_err ENOTEMPTY)
                       end
           end
  | C_readdir pd => if is_pindir k p pd then (k, R_names (names_of k)) else (k, R_err EBADF)
  | C_listdir d =>
      match dir_of k p d with Some i => (k, R_pnames (map fst (k_dirs k i))) | None => (k, R_err EBADF) end
  | C_unlink d q =>
      match dir_of k p d with
      | None => (k, R_err EBADF)
      | Some i => match pin_find q (k_dirs k i) with
                  | None => (k, R_err ENOENT)
                  | Some _ => (with_dir k i (pin_del q (k_dirs k i)), R_ok)
                  end
      end
  | C_rename_pin d a b =>
      match dir_of k p d with
      | None => (k, R_err EBADF)
      | Some i => match pin_find a (k_dirs k i) with
                  | None => (k, R_err ENOENT)
                  | Some o => (with_dir k i ((b, o) :: pin_del a (pin_del b (k_dirs k i))), R_ok)
                  end
      end
  | C_pin d q f =>
      match dir_of k p d, oid_of k p f with
      | Some i, Some o =>
          match pin_find q (k_dirs k i) with
          | Some _ => (k, R_err EEXIST)
          | None => (with_dir k i ((q, o) :: k_dirs k i), R_ok)
          end
      | _, _ => (k, R_err EBADF)
      end
  | C_get d q =>
      match dir_of k p d with
      | None => (k, R_err EBADF)
      | Some i => match pin_find q (k_dirs k i) with
                  | None => (k, R_err ENOENT)
                  | Some o => new_fd k p (D_obj o)
                  end
      end
  | C_map_create o =>
      match o with
      | O_prog _ _ _ | O_link _ _ _ _ => (k, R_err EINVAL)
      | _ => new_obj k p (fresh_obj k o)
      end
  | C_set_fill f m =>
      match obj_of k p f with
      | Some (o, O_set _) => (with_obj k o (O_set m), R_ok)
      | _ => (k, R_err EBADF)
      end
  | C_map_poke f => match obj_of k p f with Some (_, O_map) => (k, R_ok) | _ => (k, R_err EBADF) end
  | C_ctx_write f d =>
      match obj_of k p f with
      | Some (o, O_ctx _) => (with_obj k o (O_ctx (Some d)), R_ok)
      | _ => (k, R_err EBADF)
      end
  | C_ctx_read f =>
      match obj_of k p f with
      | Some (_, O_ctx (Some d)) => (k, R_ctx d)
      | Some (_, O_ctx None) => (k, R_err ENOENT)
      | _ => (k, R_err EBADF)
      end
  | C_cnt_read f i =>
      match obj_of k p f with
      | Some (_, O_counters n v) => if i <? n then (k, R_cnt (v i)) else (k, R_err ENOENT)
      | _ => (k, R_err EBADF)
      end
  | C_cnt_write f i l =>
      match obj_of k p f with
      | Some (o, O_counters n v) =>
          if i <? n then (with_obj k o (O_counters n (updN v i l)), R_ok) else (k, R_err E2BIG)
      | _ => (k, R_err EBADF)
      end
  | C_prog_load img sets cm =>
      match all_some (oid_of k p) sets, oid_of k p cm with
      | Some ss, Some cmo => new_obj k p (O_prog img ss cmo)
      | _, _ => (k, R_err EBADF)
      end
  | C_open_cgroup path => new_fd k p (D_cgroup path)
  | C_link_create pf h t =>
      match obj_of k p pf with
      | Some (o, O_prog _ _ _) => new_obj k p (O_link h t o false)
      | _ => (k, R_err EBADF)
      end
  | C_link_update l pf =>
      match obj_of k p l, obj_of k p pf with
      | Some (o, O_link h t _ false), Some (po, O_prog _ _ _) => (with_obj k o (O_link h t po false), R_ok)
      | Some (_, O_link _ _ _ true), Some _ => (k, R_err ENOLINK)
      | _, _ => (k, R_err EBADF)
      end
  | C_link_detach l =>
      match obj_of k p l with
      | Some (o, O_link h t po _) => (with_obj k o (O_link h t po true), R_ok)
      | _ => (k, R_err EBADF)
      end
  | C_dup f => match oid_of k p f with Some o => new_fd k p (D_obj o) | None => (k, R_err EBADF) end
  | C_ncpus => (k, R_n (k_cpus k))
  end.

Definition ksys (k : kst) (p : pid) (c : call) (d : decision) : kst * reply :=
  match d with
  | E_fail e => if can_fail c then (k, R_err e) else kdo k p c []
  | E_suffix s => kdo k p c s
  | E_none => kdo k p c []
  end.

(** ** Programs *)
Inductive prog (A : Type) : Type :=
| Ret (a : A)
| Do (c : call) (k : reply -> prog A).
Arguments Ret {A} _.
Arguments Do {A} _ _.

Fixpoint pbind {A B} (m : prog A) (f : A -> prog B) : prog B :=
  match m with
  | Ret a => f a
  | Do c k => Do c (fun r => pbind (k r) f)
  end.

Notation "x <~ m ;; f" := (pbind m (fun x => f)) (at level 61, m at next level, right associativity).
Notation "m ;;; f" := (pbind m (fun _ => f)) (at level 61, right associativity).

(** One call: its answer, or its error. *)
Definition sys (c : call) : prog (res reply) :=
  Do c (fun r => match r with R_err e => Ret (Er e) | _ => Ret (Ok r) end).

(** Calls that return a descriptor; calls whose result is ignored. *)
Definition sys_fd (c : call) : prog (res fd) :=
  Do c (fun r => match r with R_fd f => Ret (Ok f) | R_err e => Ret (Er e) | _ => Ret (Er EINVAL) end).
Definition sys_unit (c : call) : prog (res unit) :=
  Do c (fun r => match r with R_err e => Ret (Er e) | _ => Ret (Ok tt) end).
Definition sys_ (c : call) : prog unit := Do c (fun _ => Ret tt).
