(** What an update of a chain must not disturb. *)
From Coq Require Import NArith ZArith List Bool.
From Verif Require Import Bytes Types World BpfModel GenModel NewSpec StrModel SetModel SetSpec PackModel PackSpec HookModel KernModel LockModel CtlModel SysSpec CtlSpec HistSpec.
Import ListNotations.
Local Open Scope N_scope.

(** The calls whose failure bf_chain_update does not undo: memory, pinning, storing the
    description; and the lookup of the second netfilter link, whose failure goes unnoticed.
    Making maps and programs, reading and writing counters, and switching the link are
    not among them. *)
Definition vital (c : call) : bool :=
  match c with
  | C_alloc | C_pin _ _ _ | C_rename_pin _ _ _ | C_ctx_write _ _ | C_map_create (O_ctx _) | C_get _ P_link_extra => true
  | _ => false
  end.
Definition spared (F : call -> bool) : Prop := forall c, vital c = true -> F c = false.

(** A live link at the hook [hk] and the place [t] that runs a program with these
    instructions.  A link lives as long as it is pinned or open. *)
Definition runs_at (k : kst) (hk : hook) (t : target) (img : list insn) : Prop :=
  exists lo po ss cm, in_use k lo /\ k_objs k lo = Some (O_link hk t po false) /\ k_objs k po = Some (O_prog img ss cm).

(** The two priorities of a netfilter chain, exchanged. *)
Definition other_opts (o : hookopts) : hookopts :=
  mkHO (ho_ifindex o) (ho_cgpath o) (ho_family o)
       (match ho_priorities o with Some (a, b) => Some (b, a) | None => Some (0, 0)%Z end).

(** The hook of a chain attached with these options is served by one of the two
    programs; for netfilter, at one of the chain's two priorities, in both families. *)
Definition on_duty (k : kst) (hk : hook) (o : hookopts) (old new : chain) : Prop :=
  forall fam, (fam = 2 \/ (fam = 10 /\ hook_flavor hk = F_NF)) ->
  exists t img, (attach_point hk o fam = Some t \/ (hook_flavor hk = F_NF /\ attach_point hk (other_opts o) fam = Some t)) /\
    (gen_program old = Ok img \/ gen_program new = Ok img) /\ runs_at k hk t img.

(** ** Editing a set *)
Definition sets_storable (l : list uset) : Prop :=
  Forall (fun u => set_reachable u /\ match u_name u with Some s => ~ In 0 s | None => True end) l.

(** [c'] is [c] but for the first set of that name, to whose elements those of [add] were
    added and from which then those of [del] were removed. *)
Record edited (c c' : nchain) (add del : uset) : Prop := {
  ed_name : nc_name c' = nc_name c;
  ed_hook : c_hook (nc_chain c') = c_hook (nc_chain c);
  ed_policy : c_policy (nc_chain c') = c_policy (nc_chain c);
  ed_rules : c_rules (nc_chain c') = c_rules (nc_chain c);
  ed_len : length (nc_sets c') = length (nc_sets c);
  ed_set : exists j u u' s a d,
    nth_error (nc_sets c) j = Some u /\ nth_error (nc_sets c') j = Some u' /\
    u_name u = u_name add /\ u_name u <> None /\ (forall i v, (i < j)%nat -> nth_error (nc_sets c) i = Some v -> u_name v <> u_name add) /\
    (forall i v v', i <> j -> nth_error (nc_sets c) i = Some v -> nth_error (nc_sets c') i = Some v' -> same_set v v') /\
    u_name u' = u_name u /\ u_key u' = u_key u /\ set_read u = Ok s /\ set_read add = Ok a /\ set_read del = Ok d /\
    set_read u' = Ok (difference (union s a) d);
  (** what the program generator reads is what the sets contain *)
  ed_view : map_res bset_of (nc_sets c') = Ok (c_sets (nc_chain c'))
}.
(** No set became empty, or ceased to be. *)
Definition same_empties (c c' : nchain) : Prop :=
  Forall2 (fun a b : bset => s_elems a = [] <-> s_elems b = []) (c_sets (nc_chain c)) (c_sets (nc_chain c')).

(** The rules that cannot match are disabled, the others are not. *)
Definition up_to_date (c : nchain) : Prop :=
  forall r, In r (c_rules (nc_chain c)) ->
    (r_disabled r = true <-> uses_empty_set (c_sets (nc_chain c)) r \/ mixes_protocols (c_sets (nc_chain c)) r).
(** At most 65536 sets: their maps have different names. *)
Definition few_sets (c : nchain) : Prop := N.of_nat (length (nc_sets c)) <= 65536.

(** ** Histories of a machine *)

(** An update that fits: the old chain is there, with nothing but its own pins, and the
    new one is for the same hook; an edit of a set leaves the same sets empty. *)
Definition fits (k : kst) (a : api) : Prop :=
  match a with
  | A_chain_update _ _ c' => usual c' /\ few_sets c' /\
      exists i c hd, ent_find (nc_name c') (k_ents k) = Some i /\ holds_chain k i c hd /\ chain_built c /\ storable c /\ few_sets c /\ tidy k i /\
        c_hook (nc_chain c') = c_hook (nc_chain c)
  | A_chain_update_set _ _ _ _ _ n add del => is_staging n = false /\ sets_storable [add; del] /\
      exists i c hd, ent_find n (k_ents k) = Some i /\ holds_chain k i c hd /\ chain_built c /\ storable c /\ few_sets c /\ tidy k i /\
        forall c', edited c c' add del -> same_empties c c'
  | _ => False
  end.
(** One API call after the other, each by a process whose descriptors are closed when it
    ends.  [P] says which calls are made.  Every system call of such a call may fail, and
    the process may die between any two of them.  Updates that fit are made as well:
    these run to their end, and the failures they do not undo do not occur. *)
Inductive history (P : api -> Prop) : kst -> Prop :=
| Hi_boot k : fresh_boot k -> history P k
| Hi_call k p a k' : history P k -> P a -> stops any_fault p (run_api a) k k' -> history P (closed p k')
| Hi_update k p F a k' : history P k -> fits k a -> spared F -> ends F p (run_api a) k tt k' -> history P (closed p k').
