(** Any number of processes that use the library at the same time.

    A process is idle, inside one call of the public API, or dead.  One step of the
    system is: an idle process enters an API call; a process inside a call makes its
    next system call (the environment may make it fail); a process whose call is over
    becomes idle; a process dies, between any two system calls; a descriptor of a dead
    process is closed, in any order.  There is no bound on the number of processes, of
    calls, or of deaths; numbers of dead processes are not reused. *)
From Coq Require Import NArith ZArith List Bool.
From Verif Require Import Bytes Types World BpfModel GenModel StrModel SetModel PackModel HookModel KernModel LockModel CtlModel.
Import ListNotations.
Local Open Scope N_scope.

(** The calls of the public API (bpfilter.h) and the set-up of a context (ctx.h). *)
Inductive api :=
| A_setup
| A_ruleset_get (mm : nat -> mem)
| A_ruleset_set (m1 m2 m3 : nat -> mem) (chains : list nchain) (opts : list (option hookopts))
| A_ruleset_flush (mm : nat -> mem)
| A_chain_set (m1 m2 : mem) (c : nchain) (o : option hookopts)
| A_chain_get (mm : mem) (n : name)
| A_chain_prog_fd (mm : mem) (n : name)
| A_chain_logs_fd (mm : mem) (n : name)
| A_chain_load (mm : mem) (c : nchain)
| A_chain_attach (mm : mem) (n : name) (o : hookopts)
| A_chain_update (m1 m2 : mem) (c : nchain)
| A_chain_update_set (m1 m2 m3 m4 m5 : mem) (n : name) (add del : uset)
| A_chain_flush (mm : mem) (n : name).

Definition forget {A} (m : prog A) : prog unit := pbind m (fun _ => Ret tt).

Definition run_api (a : api) : prog unit :=
  match a with
  | A_setup => sweep_staging
  | A_ruleset_get mm => forget (ruleset_get mm)
  | A_ruleset_set m1 m2 m3 cs os => forget (ruleset_set m1 m2 m3 cs os)
  | A_ruleset_flush mm => forget (ruleset_flush mm)
  | A_chain_set m1 m2 c o => forget (chain_set m1 m2 c o)
  | A_chain_get mm n => forget (chain_get mm n)
  | A_chain_prog_fd mm n => forget (chain_prog_fd mm n)
  | A_chain_logs_fd mm n => forget (chain_logs_fd mm n)
  | A_chain_load mm c => forget (chain_load mm c)
  | A_chain_attach mm n o => forget (chain_attach mm n o)
  | A_chain_update m1 m2 c => forget (chain_update m1 m2 c)
  | A_chain_update_set m1 m2 m3 m4 m5 n a d => forget (chain_update_set m1 m2 m3 m4 m5 n a d)
  | A_chain_flush mm n => forget (chain_flush mm n)
  end.

Inductive pstate := Idle | Inside (m : prog unit) | Dead.

Record system := mkSys { s_kernel : kst; s_proc : pid -> pstate }.

Definition set_proc (s : system) (p : pid) (x : pstate) : pid -> pstate := updN (s_proc s) p x.

(** What an outside observer sees of a step. *)
Inductive event :=
| Ev_enter (p : pid) (a : api)
| Ev_call (p : pid) (c : call) (r : reply)
| Ev_leave (p : pid)
| Ev_die (p : pid)
| Ev_close (p : pid) (f : fd).

Inductive step : system -> event -> system -> Prop :=
| St_enter s p a : s_proc s p = Idle ->
    step s (Ev_enter p a) (mkSys (s_kernel s) (set_proc s p (Inside (run_api a))))
| St_call s p c f d : s_proc s p = Inside (Do c f) ->
    step s (Ev_call p c (snd (ksys (s_kernel s) p c d)))
      (mkSys (fst (ksys (s_kernel s) p c d)) (set_proc s p (Inside (f (snd (ksys (s_kernel s) p c d))))))
| St_leave s p : s_proc s p = Inside (Ret tt) ->
    step s (Ev_leave p) (mkSys (s_kernel s) (set_proc s p Idle))
| St_die s p : s_proc s p <> Dead -> step s (Ev_die p) (mkSys (s_kernel s) (set_proc s p Dead))
| St_close s p f d : s_proc s p = Dead -> desc_of (s_kernel s) p f = Some d ->
    step s (Ev_close p f) (mkSys (with_fds (s_kernel s) (fd_del f (k_fds (s_kernel s)))) (s_proc s)).

(** A machine on which bpfilter has not run in this boot, or all of whose users are gone:
    no descriptor is open; names and inodes of the pin directory are distinct. *)
Definition quiet (s : system) : Prop :=
  k_fds (s_kernel s) = [] /\ (forall p, s_proc s p = Idle) /\
  NoDup (map fst (k_ents (s_kernel s))) /\ NoDup (map snd (k_ents (s_kernel s))) /\
  (forall n i, In (n, i) (k_ents (s_kernel s)) -> i < k_next (s_kernel s)).

(** Executions, most recent event last. *)
Inductive execution (s0 : system) : list event -> system -> Prop :=
| Ex_nil : execution s0 [] s0
| Ex_step l s e s' : execution s0 l s -> step s e s' -> execution s0 (l ++ [e]) s'.

Definition reachable (s : system) : Prop := exists s0 l, quiet s0 /\ execution s0 l s.

(** [p] holds a lock of mode [m] on chain directory [i], on the pin directory. *)
Definition locks_dir (k : kst) (p : pid) (i : ino) (m : lmode) : Prop :=
  exists f, desc_of k p f = Some (D_dir i m) /\ m <> L_NONE.
Definition locks_pindir (k : kst) (p : pid) (m : lmode) : Prop :=
  exists f, desc_of k p f = Some (D_pindir m) /\ m <> L_NONE.

(** The next system call of a process. *)
Definition next_call (s : system) (p : pid) (c : call) : Prop :=
  exists f, s_proc s p = Inside (Do c f).

(** Calls that change, or read, the contents of the chain directory behind [d]. *)
Definition writes (c : call) (d : fd) : Prop :=
  match c with
  | C_unlink d' _ | C_rename_pin d' _ _ | C_pin d' _ _ => d' = d
  | _ => False
  end.
Definition reads (c : call) (d : fd) : Prop :=
  match c with C_get d' _ | C_listdir d' => d' = d | _ => False end.
Definition touches (c : call) (d : fd) : Prop := writes c d \/ reads c d.

(** The process that takes a step. *)
Definition actor (e : event) : pid :=
  match e with Ev_enter p _ | Ev_call p _ _ | Ev_leave p | Ev_die p | Ev_close p _ => p end.

(** [p] runs one library function [m], outside or inside of an API call, while any other
    processes take any steps: from [s] the function returns [a] in [t]. *)
Inductive runs {A} (p : pid) : prog A -> system -> A -> system -> Prop :=
| Rn_ret a s : runs p (Ret a) s a s
| Rn_other m s e s' a t : step s e s' -> actor e <> p -> runs p m s' a t -> runs p m s a t
| Rn_own c f d s a t :
    runs p (f (snd (ksys (s_kernel s) p c d))) (mkSys (fst (ksys (s_kernel s) p c d)) (s_proc s)) a t ->
    runs p (Do c f) s a t.

(** The lock object [lk] without a chain is what [p] holds: the pin directory is locked
    in the mode that [lk] says. *)
Definition holds_pindir (k : kst) (p : pid) (lk : lock) : Prop :=
  lk_chain lk = None /\
  exists b f, lk_bpffs lk = Some b /\ desc_of k p b = Some D_bpffs /\
              lk_pin lk = Some f /\ desc_of k p f = Some (D_pindir (lk_pinmode lk)).

(** The run of [m] by [p] when nobody else acts and nothing fails. *)
Fixpoint solo {A} (p : pid) (m : prog A) (k : kst) : A * kst :=
  match m with
  | Ret a => (a, k)
  | Do c f => solo p (f (snd (ksys k p c E_none))) (fst (ksys k p c E_none))
  end.

(** A call that [m] can make, whatever the kernel answers. *)
Inductive can_call {A} : prog A -> call -> Prop :=
| Cc_here c f : can_call (Do c f) c
| Cc_next c f r c' : can_call (f r) c' -> can_call (Do c f) c'.

(** [p] runs [m] alone.  Calls [c] with [F c] may be made to fail by the environment.
    [stops F p m k k']: [p] can be stopped in state [k'], before, between or after its
    calls.  [ends F p m k a k']: [m] can return [a] in state [k']. *)
Definition env_ok (F : call -> bool) (c : call) (d : decision) : Prop :=
  match d with E_fail _ => F c = true | _ => True end.
Definition any_fault : call -> bool := fun _ => true.
Definition no_fault : call -> bool := fun _ => false.

Inductive stops {A} (F : call -> bool) (p : pid) : prog A -> kst -> kst -> Prop :=
| Sp_here m k : stops F p m k k
| Sp_next c f k d k' : env_ok F c d ->
    stops F p (f (snd (ksys k p c d))) (fst (ksys k p c d)) k' -> stops F p (Do c f) k k'.
Inductive ends {A} (F : call -> bool) (p : pid) : prog A -> kst -> A -> kst -> Prop :=
| En_ret a k : ends F p (Ret a) k a k
| En_next c f k d a k' : env_ok F c d ->
    ends F p (f (snd (ksys k p c d))) (fst (ksys k p c d)) a k' -> ends F p (Do c f) k a k'.

(** The kernel after all descriptors of [p] are closed. *)
Definition closed (p : pid) (k : kst) : kst := with_fds k (filter (fun x => negb (fst (snd x) =? p)) (k_fds k)).

(** Nobody holds a lock on the pin directory; somebody holds a lock on directory [i]. *)
Definition pindir_unlocked (k : kst) : Prop := forall f q m, In (f, (q, D_pindir m)) (k_fds k) -> m = L_NONE.
Definition busy (k : kst) (i : ino) : bool :=
  existsb (fun x => match snd (snd x) with D_dir j L_READ | D_dir j L_WRITE => j =? i | _ => false end) (k_fds k).

(** Pin names in a directory are distinct, as in every file system. *)
Definition pins_distinct (k : kst) : Prop := forall i, NoDup (map fst (k_dirs k i)).

(** The kernel's tables are in order: the numbers in use are below [k_next], two
    descriptions of one directory do not hold conflicting locks, distinct names are
    distinct directories, pins and descriptors refer to existing objects, descriptors are
    listed once, and a directory that was not made yet is empty. *)
Record sane (k : kst) : Prop := {
  sane_fd : forall f x, fd_find f (k_fds k) = Some x -> f < k_next k;
  sane_ent : forall n i, ent_find n (k_ents k) = Some i -> i < k_next k;
  sane_inj : forall n m i, ent_find n (k_ents k) = Some i -> ent_find m (k_ents k) = Some i -> n = m;
  sane_dir : forall f p i m, fd_find f (k_fds k) = Some (p, D_dir i m) -> i < k_next k;
  sane_lock : forall f g p q a b, f <> g ->
    fd_find f (k_fds k) = Some (p, a) -> fd_find g (k_fds k) = Some (q, b) ->
    same_place a b = true -> conflict (mode_of a) (mode_of b) = false;
  sane_obj : forall o v, k_objs k o = Some v -> o < k_next k;
  sane_pin : forall j q o, pin_find q (k_dirs k j) = Some o -> exists v, k_objs k o = Some v;
  sane_fdo : forall f p o, fd_find f (k_fds k) = Some (p, D_obj o) -> exists v, k_objs k o = Some v;
  sane_uniq : NoDup (map fst (k_fds k));
  sane_fresh : forall i, k_next k <= i -> k_dirs k i = []
}.
