(** hook.c:187-653: hook options. *)
From Coq Require Import String NArith ZArith List Bool.
From Verif Require Import Bytes Types World BpfModel GenModel ChainModel StrModel EnumModel PackModel.
Import ListNotations.
Local Open Scope string_scope.
Local Open Scope list_scope.
Local Open Scope N_scope.
Local Open Scope res_scope.

(** hook.h:138-152 struct bf_hookopts: a value is [Some] when its bit of used_opts
    is set. *)
Record hookopts := mkHO {
  ho_ifindex : option Z; ho_cgpath : option cstr; ho_family : option N; ho_priorities : option (Z * Z) }.

(** hook.c:421-430 bf_hookopts_new. *)
Definition hookopts_new : hookopts := mkHO None None None None.

(** hook.h:154-161. *)
Inductive optkind := K_IFINDEX | K_CGPATH | K_FAMILY | K_PRIORITIES.
Definition optkinds : list optkind := [K_IFINDEX; K_CGPATH; K_FAMILY; K_PRIORITIES].

(** bf_hookopts_is_used. *)
Definition used (o : hookopts) (k : optkind) : bool :=
  match k with
  | K_IFINDEX => match ho_ifindex o with Some _ => true | None => false end
  | K_CGPATH => match ho_cgpath o with Some _ => true | None => false end
  | K_FAMILY => match ho_family o with Some _ => true | None => false end
  | K_PRIORITIES => match ho_priorities o with Some _ => true | None => false end
  end.

Definition ERANGE : N := 34.

(** hook.c:196-224 _bf_hookopts_ifindex_parse: strtoul with a NULL endptr. *)
Definition parse_ifindex (o : hookopts) (v : cstr) : res hookopts :=
  if used o K_IFINDEX then Er EEXIST
  else
    let '(n, _, range) := strtoul 0 v in
    if range then Er ERANGE
    else if two31 - 1 <? n then Er E2BIG
    else Ok (mkHO (Some (Z.of_N n)) (ho_cgpath o) (ho_family o) (ho_priorities o)).

(** hook.c:235-252 _bf_hookopts_cgpath_parse. *)
Definition parse_cgpath (mem : bool) (o : hookopts) (v : cstr) : res hookopts :=
  if used o K_CGPATH then Er EEXIST
  else if negb mem then Er ENOMEM
  else Ok (mkHO (ho_ifindex o) (Some v) (ho_family o) (ho_priorities o)).

(** hook.c:263-281 _bf_hookopts_family_parse: checked, then forgotten. *)
Definition parse_family (o : hookopts) (v : cstr) : res hookopts :=
  if used o K_FAMILY then Er EEXIST
  else if streq (lit "inet4") v || streq (lit "inet6") v then Ok o
  else Er ENOTSUP.

(** hook.c:294-346 _bf_hookopts_priorities_parse; 45 is '-'. *)
Definition parse_priorities (mem : bool) (o : hookopts) (v : cstr) : res hookopts :=
  if used o K_PRIORITIES then Er EEXIST
  else if negb mem then Er ENOMEM
  else
    match split_at 45 v with
    | None => Er EINVAL
    | Some (_, []) => Er EINVAL
    | Some (lhs, rhs) =>
        let '(a, _, r0) := strtoul 0 lhs in
        if r0 then Er EINVAL
        else
          let '(b, _, r1) := strtoul 0 rhs in
          if r1 then Er EINVAL
          else if (two31 - 1 <? a) || (two31 - 1 <? b) then Er EINVAL
          else if a =? b then Er EINVAL
          else if (a =? 0) || (b =? 0) then Er EINVAL
          else Ok (mkHO (ho_ifindex o) (ho_cgpath o) (ho_family o) (Some (Z.of_N a, Z.of_N b)))
    end.

(** hook.c:366-403 _bf_hookopts_ops, names. *)
Definition opt_name (k : optkind) : cstr :=
  lit match k with K_IFINDEX => "ifindex" | K_CGPATH => "cgpath" | K_FAMILY => "family" | K_PRIORITIES => "priorities" end.

(** hook.c:405-417 _bf_hookopts_get_ops. *)
Definition get_ops (key : cstr) : option optkind := find (fun k => streq (opt_name k) key) optkinds.

(** hook.c:578-605 bf_hookopts_parse_opt; 61 is '='. *)
Definition parse_opt (mem : bool) (o : hookopts) (raw : cstr) : res hookopts :=
  match split_at 61 raw with
  | None => Er ENOENT
  | Some (name, value) =>
      match get_ops name with
      | None => Er ENOTSUP
      | Some K_IFINDEX => parse_ifindex o value
      | Some K_CGPATH => parse_cgpath mem o value
      | Some K_FAMILY => parse_family o value
      | Some K_PRIORITIES => parse_priorities mem o value
      end
  end.

(** hook.c:607-625 bf_hookopts_parse_opts. *)
Fixpoint parse_opts (mem : nat -> bool) (i : nat) (o : hookopts) (l : list cstr) : res hookopts :=
  match l with
  | [] => Ok o
  | s :: r => o' <- parse_opt (mem i) o s ; parse_opts mem (S i) o' r
  end.

(** hook.c:376-403: required_by; supported_by is 0 everywhere. *)
Definition required (k : optkind) (f : flavor) : bool :=
  match k, f with
  | K_IFINDEX, (F_XDP | F_TC) => true
  | K_CGPATH, (F_CGROUP_SKB | F_SOCK_ADDR) => true
  | K_PRIORITIES, F_NF => true
  | _, _ => false
  end.
Definition supported_by (k : optkind) (f : flavor) : bool := false.
Definition supported (k : optkind) (f : flavor) : bool := supported_by k f || required k f.

(** hook.c:627-653 bf_hookopts_validate. *)
Fixpoint validate_from (l : list optkind) (o : hookopts) (f : flavor) : res unit :=
  match l with
  | [] => Ok tt
  | k :: r =>
      if required k f && negb (used o k) then Er EINVAL
      else if used o k && negb (supported k f || required k f) then Er ENOTSUP
      else validate_from r o f
  end.
Definition validate (o : hookopts) (h : hook) : res unit := validate_from optkinds o (hook_flavor h).

(** hook.c:523-553 bf_hookopts_pack. *)
Definition or_nil {A} (f : A -> node) (o : option A) : node := match o with Some a => f a | None => NNil end.
Definition hookopts_pack (o : hookopts) : node :=
  NMap [(key "ifindex", or_nil wr_int (ho_ifindex o));
        (key "cgpath", or_nil NStr (ho_cgpath o));
        (key "family", or_nil NUint (ho_family o));
        (key "priorities", or_nil (fun p => NArr [wr_int (fst p); wr_int (snd p)]) (ho_priorities o))].

(** hook.c:431-505 bf_hookopts_new_from_pack (allocations succeed). *)
Definition nil_or {A} (rd : node -> res A) (n : node) : res (option A) :=
  match n with NNil => Ok None | _ => a <- rd n ; Ok (Some a) end.
Definition rd_priorities (n : node) : res (Z * Z) :=
  l <- rd_arr n ;
  match l with
  | [a; b] => x <- rd_int a ; y <- rd_int b ; Ok (x, y)
  | _ => Er EINVAL
  end.
Definition hookopts_unpack (n : node) : res hookopts :=
  a <- kv (nil_or rd_int) n "ifindex" ;
  b <- kv (nil_or rd_str) n "cgpath" ;
  c <- kv (nil_or (rd_uint two32)) n "family" ;
  d <- kv (nil_or rd_priorities) n "priorities" ;
  Ok (mkHO a b c d).
