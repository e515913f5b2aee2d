(** What a user may expect of chain construction.  No reference to the validation
    code. *)
From Coq Require Import NArith ZArith List Bool.
From Verif Require Import Bytes Types World PktSpec.
Import ListNotations.
Local Open Scope N_scope.

(** A rule that chains of hook [h] with the sets [sets] can have. *)
Record rule_ok (h : hook) (sets : list bset) (r : rule) : Prop := mkRok {
  ro_refs : forall m, In m (r_matchers r) -> m_type m = M_SET -> exists s, set_of sets m = Some s;
  ro_types : forall m, In m (r_matchers r) -> unsupported (m_type m) h = false;
  ro_comps : forall m s t, In m (r_matchers r) -> m_type m = M_SET -> set_of sets m = Some s -> In t (s_key s) ->
             unsupported t h = false;
  ro_mark : 4294967296 <= r_mark r -> hook_flavor h = F_TC \/ hook_flavor h = F_CGROUP_SKB;
  ro_log : hook_flavor h = F_SOCK_ADDR -> r_log r = 0 \/ r_log r = 255
}.

(** A rule refers to an empty set. *)
Definition uses_empty_set (sets : list bset) (r : rule) : Prop :=
  exists m s, In m (r_matchers r) /\ m_type m = M_SET /\ set_of sets m = Some s /\ s_elems s = [].

(** The types a rule talks about, set components included. *)
Definition talks_about (sets : list bset) (r : rule) (t : mtype) : Prop :=
  exists m, In m (r_matchers r) /\ In t (types_of sets m).

(** A rule talks about two protocols of the same layer. *)
Definition mixes_protocols (sets : list bset) (r : rule) : Prop :=
  exists t t', talks_about sets r t /\ talks_about sets r t' /\
    mt_layer (meta_of t) = mt_layer (meta_of t') /\ mt_layer (meta_of t) <> L_NONE /\
    mt_hdr (meta_of t) <> mt_hdr (meta_of t').

(** Everything but the index and the disabled mark. *)
Record same_options (r r' : rule) : Prop := mkSame {
  so_matchers : r_matchers r' = r_matchers r;
  so_log : r_log r' = r_log r;
  so_rate : r_log_rate r' = r_log_rate r;
  so_mark : r_mark r' = r_mark r;
  so_counters : r_counters r' = r_counters r;
  so_verdict : r_verdict r' = r_verdict r;
  so_if : r_rd_ifindex r' = r_rd_ifindex r;
  so_dir : r_rd_dir r' = r_rd_dir r
}.

(** The same rule, enabled. *)
Definition enable (r : rule) : rule :=
  mkR (r_index r) (r_matchers r) (r_log r) (r_log_rate r) (r_mark r) (r_counters r) false
      (r_verdict r) (r_rd_ifindex r) (r_rd_dir r).

(** Rules whose reference to an empty set is negated ("not in {}"). *)
Definition negates_empty_set (sets : list bset) (r : rule) : Prop :=
  exists m s, In m (r_matchers r) /\ m_type m = M_SET /\ set_of sets m = Some s /\ s_elems s = [] /\ m_neg m = true.
