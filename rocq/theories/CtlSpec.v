(** What a chain directory holds, independently of the control plane's functions. *)
From Coq Require Import NArith ZArith List Bool.
From Verif Require Import Bytes Types World BpfModel GenModel StrModel SetModel MapModel PackModel PackSpec HookModel KernModel SysSpec.
Import ListNotations.
Local Open Scope N_scope.

(** The object pinned under a name in a directory. *)
Definition pin (k : kst) (i : ino) (q : pname) : option oid := pin_find q (k_dirs k i).

(** Where a chain is attached: an interface for XDP and TC, a cgroup, or, for netfilter,
    a family (2 is IPv4, 10 is IPv6) and the first of the two priorities. *)
Definition attach_point (hk : hook) (o : hookopts) (family : N) : option target :=
  match hook_flavor hk with
  | F_XDP | F_TC => Some (T_if (match ho_ifindex o with Some z => z | None => 0%Z end))
  | F_CGROUP_SKB | F_SOCK_ADDR => match ho_cgpath o with Some path => Some (T_cgroup path) | None => None end
  | F_NF => Some (T_nf family (match ho_priorities o with Some p => fst p | None => 0%Z end))
  end.

(** The set maps of a chain, by group: the names under which they are pinned. *)
Definition set_names (ch : chain) : list pname :=
  map (fun i => P_set (N.of_nat i mod two16)) (seq 0 (length (build_groups (c_sets ch)))).

(** The objects [O], reachable by name through [R], are everything the chain [ch] needs,
    and [hd] is their description: the program generated for [ch], which refers to
    exactly these maps; one counter per rule and two more; a log map iff something logs;
    a state map iff something is rate limited; each set map filled from the sets of its
    group; and, if [hd] says that the chain is attached, a live link of this program at
    the chain's hook (for netfilter: one for each family). *)
Record complete_at (R : pname -> oid -> Prop) (O : oid -> option obj) (ch : chain) (hd : hdesc) : Prop := {
  cp_body : exists img po ss cm v,
    gen_program ch = Ok img /\
    R P_prog po /\ O po = Some (O_prog img ss cm) /\
    R P_cmap cm /\ O cm = Some (O_counters (n_rules ch + 2) v) /\
    Forall2 R (set_names ch) ss /\
    Forall2 (fun o g => O o = Some (O_set (load_map (c_sets ch) g))) ss (build_groups (c_sets ch)) /\
    match hd_link hd with
    | None => True
    | Some (hk, opts) => hk = c_hook ch /\
        (exists lo t, attach_point hk opts 2 = Some t /\ R P_link lo /\ O lo = Some (O_link hk t po false)) /\
        (hook_flavor hk = F_NF ->
         exists lx t, attach_point hk opts 10 = Some t /\ R P_link_extra lx /\ O lx = Some (O_link hk t po false))
    end;
  cp_cmap : hd_cmap hd = true;
  cp_pmap : hd_pmap hd = true /\ exists o, R P_pmap o /\ O o = Some O_map;
  cp_lmap : hd_lmap hd = c_log ch /\ (c_log ch = true -> exists o, R P_lmap o /\ O o = Some O_map);
  cp_smap : hd_smap hd = c_ratelimit ch && negb (n_rules ch =? 0) /\
            (hd_smap hd = true -> exists o, R P_smap o /\ O o = Some O_map);
  cp_sets : hd_sets hd = set_names ch
}.

(** Directory [i] holds the chain [c]: the context map is pinned, it contains [c] and the
    description [hd] of the pins, and the pins are complete. *)
Definition holds_chain (k : kst) (i : ino) (c : nchain) (hd : hdesc) : Prop :=
  (exists o t, pin k i P_ctx = Some o /\ k_objs k o = Some (O_ctx (Some (t, hd))) /\ chain_pack c = Ok t) /\
  complete_at (fun q o => pin k i q = Some o) (k_objs k) (nc_chain c) hd.

(** What a process finds in directory [i]: no chain, or a chain and all that it needs. *)
Definition consistent (k : kst) (i : ino) : Prop :=
  pin k i P_ctx = None \/ exists c hd, holds_chain k i c hd /\ chain_built c /\ storable c.
Definition all_consistent (k : kst) : Prop :=
  forall n i, ent_find n (k_ents k) = Some i -> consistent k i.

(** The names that a chain with description [hd] can have in its directory, and a
    directory in which there is nothing else. *)
Definition pin_names (hd : hdesc) : list pname :=
  P_prog :: (match hd_link hd with Some _ => [P_link; P_link_extra] | None => [] end) ++
  (if hd_cmap hd then [P_cmap] else []) ++ (if hd_pmap hd then [P_pmap] else []) ++ (if hd_lmap hd then [P_lmap] else []) ++
  (if hd_smap hd then [P_smap] else []) ++ hd_sets hd.
Definition tidy (k : kst) (i : ino) : Prop :=
  exists o t hd, pin k i P_ctx = Some o /\ k_objs k o = Some (O_ctx (Some (t, hd))) /\
    forall q, pin k i q <> None -> q = P_ctx \/ In q (pin_names hd).

(** Something that fails by decision of the environment. *)
Definition faulty (F : call -> bool) : Prop := exists c, F c = true.
