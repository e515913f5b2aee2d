(** What can be seen of the state of a machine, and the calls that are made on it. *)
From Coq Require Import NArith ZArith List Bool.
From Verif Require Import Bytes Types World BpfModel GenModel StrModel SetModel SetSpec PackModel PackSpec HookModel KernModel LockModel CtlModel SysSpec CtlSpec.
Import ListNotations.
Local Open Scope N_scope.

(** A machine on which bpfilter has not run since boot. *)
Definition fresh_boot (k : kst) : Prop :=
  sane k /\ k_ents k = [] /\ k_fds k = [] /\ forall i, k_dirs k i = [].

(** A chain object that the library accepts: it was made by bf_chain_new or read back,
    it can be packed and unpacked, and its name is not one of the library's own names for
    directories under construction. *)
Definition usual (c : nchain) : Prop := chain_built c /\ storable c /\ is_staging (nc_name c) = false.

(** What a process finds in directory [i], whose name is [n]: no chain, or a chain of that
    name and all that it needs. *)
Definition consistent_as (n : name) (k : kst) (i : ino) : Prop :=
  pin k i P_ctx = None \/ exists c hd, holds_chain k i c hd /\ chain_built c /\ storable c /\ nc_name c = n.

(** All calls but the two that replace the program of an existing chain. *)
Definition no_update (a : api) : Prop :=
  match a with
  | A_setup | A_ruleset_get _ | A_ruleset_flush _ | A_chain_get _ _ | A_chain_prog_fd _ _ | A_chain_logs_fd _ _ => True
  | A_chain_set _ _ c _ | A_chain_load _ c => usual c
  | A_ruleset_set _ _ _ cs _ => Forall usual cs
  | A_chain_attach _ n _ | A_chain_flush _ n => is_staging n = false
  | A_chain_update _ _ _ | A_chain_update_set _ _ _ _ _ _ _ _ => False
  end.

(** The kernel after the first [n] system calls of a program, none of which is made to fail. *)
Fixpoint cut {A} (n : nat) (p : pid) (m : prog A) (k : kst) : kst :=
  match n, m with
  | S n', Do c f => cut n' p (f (snd (ksys k p c E_none))) (fst (ksys k p c E_none))
  | _, _ => k
  end.
(** The outcome when the calls in [F] fail with [e], if [can_fail] says they can. *)
Fixpoint spoil {A} (F : call -> bool) (e : N) (p : pid) (m : prog A) (k : kst) : A * kst :=
  match m with
  | Ret a => (a, k)
  | Do c f => let d := if F c && can_fail c then E_fail e else E_none in spoil F e p (f (snd (ksys k p c d))) (fst (ksys k p c d))
  end.

(** ** What can be seen of a kernel: its entries, pins and descriptors, and the objects
    that are pinned or that some descriptor refers to. *)
Definition in_use (k : kst) (o : oid) : Prop :=
  (exists i q, pin k i q = Some o) \/ exists f p, fd_find f (k_fds k) = Some (p, D_obj o).
Record unchanged (k0 k : kst) : Prop := {
  uc_ents : k_ents k = k_ents k0;
  uc_pins : forall i q, pin k i q = pin k0 i q;
  uc_fds : forall f, fd_find f (k_fds k) = fd_find f (k_fds k0);
  uc_objs : forall o v, k_objs k0 o = Some v -> k_objs k o = Some v;
  uc_none : forall o, in_use k o -> in_use k0 o
}.

(** No entry, pin or descriptor is new, no object changed; what may be missing is an
    empty directory of that name, and, in the chain's directory, two names that only a
    process that died there leaves behind. *)
Record nothing_new (n : name) (k0 k : kst) : Prop := {
  nn_ents : forall m j, ent_find m (k_ents k) = Some j -> ent_find m (k_ents k0) = Some j;
  nn_kept : forall m j, ent_find m (k_ents k0) = Some j -> ent_find m (k_ents k) = Some j \/ (m = n /\ forall q, pin k0 j q = None);
  nn_pins : forall i q o, pin k i q = Some o -> pin k0 i q = Some o;
  nn_left : forall i q o, pin k0 i q = Some o -> pin k i q = Some o \/
    (ent_find n (k_ents k0) = Some i /\ (q = P_link_extra \/ q = P_ctx_tmp) /\ exists c hd, holds_chain k0 i c hd /\ hd_link hd = None);
  nn_fds : forall f, fd_find f (k_fds k) = fd_find f (k_fds k0);
  nn_objs : forall o v, k_objs k0 o = Some v -> k_objs k o = Some v;
  nn_use : forall o, in_use k o -> in_use k0 o
}.

(** ** Counters *)

(** The sum of a slot over the CPUs, packets and bytes, modulo 2^64. *)
Definition total (l : list (N * N)) : N * N :=
  (fold_right N.add 0 (map fst l) mod two64, fold_right N.add 0 (map snd l) mod two64).
(** What the counter map [v] of a chain says: for each rule that counts the slot of its
    index; after the rules the policy's slot and the errors' slot. *)
Definition reading (ch : chain) (v : N -> list (N * N)) : counters :=
  mkCnts (map (fun r => if r_counters r then Some (total (v (r_index r))) else None) (c_rules ch))
         (total (v (n_rules ch))) (total (v (n_rules ch + 1))).
(** The counter map pinned in a directory. *)
Definition counts_at (k : kst) (i : ino) (n : N) (v : N -> list (N * N)) : Prop :=
  exists o, pin k i P_cmap = Some o /\ k_objs k o = Some (O_counters (n + 2) v).

(** The hook options that a description of a chain reports: those of its link. *)
Definition desc_opts (hd : hdesc) : option hookopts := match hd_link hd with Some (_, o) => Some o | None => None end.

(** The chain that a call is about. *)
Definition about (a : api) : option name :=
  match a with
  | A_setup | A_ruleset_get _ | A_ruleset_set _ _ _ _ _ | A_ruleset_flush _ => None
  | A_chain_set _ _ c _ | A_chain_load _ c | A_chain_update _ _ c => Some (nc_name c)
  | A_chain_get _ n | A_chain_prog_fd _ n | A_chain_logs_fd _ n | A_chain_attach _ n _ | A_chain_flush _ n => Some n
  | A_chain_update_set _ _ _ _ _ n _ _ => Some n
  end.

(** All calls, the two updates included. *)
Definition usual_call (a : api) : Prop :=
  match a with
  | A_chain_update _ _ c => usual c
  | A_chain_update_set _ _ _ _ _ n add del => is_staging n = false /\ set_reachable add /\ set_reachable del
  | _ => no_update a
  end.

(** Nobody else is at work, and nothing was left half made: no descriptor is open, and no
    directory under construction is left (bf_ctx_setup removes those). *)
Definition at_rest (k : kst) : Prop :=
  k_fds k = [] /\ forall s, is_staging s = true -> ent_find s (k_ents k) = None.
(** A chain that can be loaded: its program can be generated, it has fewer than 65536
    groups of sets, and its sets have fewer than 2^32 elements. *)
Definition loadable (c : nchain) : Prop :=
  usual c /\ (exists img, gen_program (nc_chain c) = Ok img) /\ NoDup (set_names (nc_chain c)) /\
  Forall (fun u => forall l, set_read u = Ok l -> N.of_nat (length l) < two32) (nc_sets c).
(** The sets of a chain have fewer than 2^32 elements (the format counts them in 32 bits). *)
Definition modest (c : nchain) : Prop :=
  Forall (fun u => forall l, set_read u = Ok l -> N.of_nat (length l) < two32) (nc_sets c).
Definition all_modest (k : kst) : Prop :=
  forall n i c hd, ent_find n (k_ents k) = Some i -> holds_chain k i c hd -> modest c.
Definition plenty (mm : mem) : Prop := forall i, generous (m_nd mm i) (m_tb mm).

(** The object is not a link that is still attached. *)
Definition detached (k : kst) (o : oid) : Prop := forall h t po b, k_objs k o = Some (O_link h t po b) -> b = true.

(** The counters map that a handle of process [p] refers to: [n] slots with contents [v]. *)
Definition cmap_is (k : kst) (p : pid) (h : handle) (o : oid) (n : N) (v : N -> list (N * N)) : Prop :=
  exists f, h_cmap h = Some f /\ desc_of k p f = Some (D_obj o) /\ k_objs k o = Some (O_counters n v).
