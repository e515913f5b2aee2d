(** The control plane: cgen/prog/link.c, cgen/prog/map.c, cgen/handle.c, cgen/cgen.c,
    the loader of cgen/program.c, ctx.c and cli.c.

    Conventions.  Automatic cleanup (_cleanup_..., _free_...) is written out at every
    return.  [C_alloc] stands for the allocations of a function; several in a row are
    one call.  Functions that parse or copy take [mem], the answers of the allocator
    inside the copy (PackModel.v).  A handle's descriptor is None when it is -1 or the
    map is NULL.  The list of set maps has no NULL entry (no function of the library
    stores one). *)
From Coq Require Import NArith ZArith List Bool.
From Verif Require Import Bytes Types World BpfModel GenModel ChainModel StrModel SetModel MapModel PackModel HookModel KernModel LockModel.
Import ListNotations.
Local Open Scope N_scope.

Definition ENODEV : N := 19.

(** Allocator answers during one parse of a chain or a set. *)
Record mem := mkMem { m_nd : nat -> nat -> option nat; m_tb : N -> bool }.

(** cgen/prog/link.h:20-46 struct bf_link. *)
Record link := mkLink { l_hook : hook; l_opts : hookopts; l_fd : fd; l_extra : option fd }.

(** cgen/handle.h struct bf_handle. *)
Record handle := mkH {
  h_prog : option fd;
  h_link : option link;
  h_cmap : option fd; h_pmap : option fd; h_lmap : option fd; h_smap : option fd;
  h_sets : list (pname * fd)
}.
Definition handle_new : handle := mkH None None None None None None [].

(** cgen/cgen.h struct bf_cgen. *)
Record cgen := mkCg { g_chain : nchain; g_handle : handle }.

Definition set_link (h : handle) (l : option link) : handle :=
  mkH (h_prog h) l (h_cmap h) (h_pmap h) (h_lmap h) (h_smap h) (h_sets h).

(** The maps of a handle with their pin names, in the order of handle.c:295-369
    (bf_handle_pin) and 371-402 (bf_handle_unpin). *)
Definition opt_map (p : pname) (o : option fd) : list (pname * fd) :=
  match o with Some f => [(p, f)] | None => [] end.
Definition h_maps (h : handle) : list (pname * fd) :=
  opt_map P_cmap (h_cmap h) ++ opt_map P_pmap (h_pmap h) ++ opt_map P_lmap (h_lmap h) ++
  opt_map P_smap (h_smap h) ++ h_sets h.

Fixpoint close_all (l : list fd) : prog unit :=
  match l with [] => Ret tt | f :: r => sys_ (C_close f) ;;; close_all r end.

(** ** cgen/prog/link.c *)

(** link.c:167-178 bf_link_free. *)
Definition link_free (o : option link) : prog unit :=
  match o with
  | None => Ret tt
  | Some l => sys_ (C_close (l_fd l)) ;;; close_opt (l_extra l)
  end.

(** link.c:225-245 _bf_link_try_attach_xdp: driver mode, then SKB mode. *)
Definition try_attach_xdp (pf : fd) (ifindex : Z) (h : hook) : prog (res fd) :=
  r <~ sys_fd (C_link_create pf h (T_if ifindex)) ;;
  match r with
  | Ok f => Ret (Ok f)
  | Er e => if e =? ENOTSUP then sys_fd (C_link_create pf h (T_if ifindex)) else Ret (Er e)
  end.

Definition opt_ifindex (o : hookopts) : Z := match ho_ifindex o with Some z => z | None => 0%Z end.
Definition opt_prios (o : hookopts) : Z * Z := match ho_priorities o with Some p => p | None => (0, 0)%Z end.
Definition PF_INET : N := 2.
Definition PF_INET6 : N := 10.

(** link.c:30-117 bf_link_new.  The result [Ok None] is the branch of link.c:78-84: when
    the cgroup directory cannot be opened the function returns the positive errno
    (bf_err_r(errno, ...)) and no link; every caller tests [r < 0]. *)
Definition link_new (h : hook) (opts : hookopts) (pf : fd) : prog (res (option link)) :=
  ra <~ sys_unit C_alloc ;;
  match ra with
  | Er _ => Ret (Er ENOMEM)
  | Ok _ =>
      match hook_flavor h with
      | F_XDP =>
          r <~ try_attach_xdp pf (opt_ifindex opts) h ;;
          match r with Er e => Ret (Er e) | Ok f => Ret (Ok (Some (mkLink h opts f None))) end
      | F_TC =>
          r <~ sys_fd (C_link_create pf h (T_if (opt_ifindex opts))) ;;
          match r with Er e => Ret (Er e) | Ok f => Ret (Ok (Some (mkLink h opts f None))) end
      | F_CGROUP_SKB | F_SOCK_ADDR =>
          match ho_cgpath opts with
          | None => Ret (Ok None)
          | Some path =>
              rc <~ sys_fd (C_open_cgroup path) ;;
              match rc with
              | Er _ => Ret (Ok None)
              | Ok cf =>
                  r <~ sys_fd (C_link_create pf h (T_cgroup path)) ;;
                  sys_ (C_close cf) ;;;
                  match r with Er e => Ret (Er e) | Ok f => Ret (Ok (Some (mkLink h opts f None))) end
              end
          end
      | F_NF =>
          r <~ sys_fd (C_link_create pf h (T_nf PF_INET (fst (opt_prios opts)))) ;;
          match r with
          | Er e => Ret (Er e)
          | Ok f =>
              r6 <~ sys_fd (C_link_create pf h (T_nf PF_INET6 (fst (opt_prios opts)))) ;;
              match r6 with
              | Er e => sys_ (C_close f) ;;; Ret (Er e)
              | Ok f6 => Ret (Ok (Some (mkLink h opts f (Some f6))))
              end
          end
      end
  end.

(** link.c:119-165 bf_link_new_from_pack. *)
Definition link_restore (d : fd) (hk : hook) (opts : hookopts) : prog (res link) :=
  ra <~ sys_unit C_alloc ;;
  match ra with
  | Er _ => Ret (Er ENOMEM)
  | Ok _ =>
      r <~ sys_fd (C_get d P_link) ;;
      match r with
      | Er e => Ret (Er e)
      | Ok f =>
          rx <~ sys_fd (C_get d P_link_extra) ;;
          match rx with
          | Ok fx => Ret (Ok (mkLink hk opts f (Some fx)))
          | Er e => if e =? ENOENT then Ret (Ok (mkLink hk opts f None))
                    else sys_ (C_close f) ;;; Ret (Er e)
          end
      end
  end.

Definition swap_prios (o : hookopts) : hookopts :=
  let '(a, b) := opt_prios o in mkHO (ho_ifindex o) (ho_cgpath o) (ho_family o) (Some (b, a)).

(** link.c:247-285 _bf_link_update_nf and 287-308 bf_link_update. *)
Definition link_update (l : link) (pf : fd) : prog (res link) :=
  match hook_flavor (l_hook l) with
  | F_NF =>
      let p1 := snd (opt_prios (l_opts l)) in
      r <~ sys_fd (C_link_create pf (l_hook l) (T_nf PF_INET p1)) ;;
      match r with
      | Er e => Ret (Er e)
      | Ok f =>
          r6 <~ sys_fd (C_link_create pf (l_hook l) (T_nf PF_INET6 p1)) ;;
          match r6 with
          | Er e => sys_ (C_close f) ;;; Ret (Er e)
          | Ok f6 =>
              sys_ (C_close (l_fd l)) ;;;
              close_opt (l_extra l) ;;;
              Ret (Ok (mkLink (l_hook l) (swap_prios (l_opts l)) f (Some f6)))
          end
      end
  | _ =>
      r <~ sys_unit (C_link_update (l_fd l) pf) ;;
      match r with Er e => Ret (Er e) | Ok _ => Ret (Ok l) end
  end.

(** link.c:332-354 bf_link_unpin. *)
Definition link_unpin (d : fd) : prog unit := sys_ (C_unlink d P_link) ;;; sys_ (C_unlink d P_link_extra).

(** link.c:310-330 bf_link_pin. *)
Definition link_pin (l : link) (d : fd) : prog (res unit) :=
  r <~ sys_unit (C_pin d P_link (l_fd l)) ;;
  match r with
  | Er e => Ret (Er e)
  | Ok _ =>
      match l_extra l with
      | None => Ret (Ok tt)
      | Some fx =>
          rx <~ sys_unit (C_pin d P_link_extra fx) ;;
          match rx with
          | Er e => link_unpin d ;;; Ret (Er e)
          | Ok _ => Ret (Ok tt)
          end
      end
  end.

(** ** cgen/handle.c *)

(** handle.c:145-163 bf_handle_free. *)
Definition handle_free (h : handle) : prog unit :=
  close_opt (h_prog h) ;;; link_free (h_link h) ;;; close_all (map snd (h_maps h)).

(** handle.c:295-369 bf_handle_pin and 371-402 bf_handle_unpin. *)
Fixpoint unpin_maps (d : fd) (l : list (pname * fd)) : prog unit :=
  match l with [] => Ret tt | (q, _) :: r => sys_ (C_unlink d q) ;;; unpin_maps d r end.

Definition handle_unpin (h : handle) (d : fd) : prog unit :=
  unpin_maps d (h_maps h) ;;;
  match h_link h with Some _ => link_unpin d | None => Ret tt end ;;;
  sys_ (C_unlink d P_prog).

Fixpoint pin_maps (d : fd) (l : list (pname * fd)) : prog (res unit) :=
  match l with
  | [] => Ret (Ok tt)
  | (q, f) :: r =>
      x <~ sys_unit (C_pin d q f) ;;
      match x with Er e => Ret (Er e) | Ok _ => pin_maps d r end
  end.

Definition pin_prog (h : handle) (d : fd) : prog (res unit) :=
  match h_prog h with
  | None => Ret (Er EBADF)          (* prog_fd == -1 *)
  | Some pf => sys_unit (C_pin d P_prog pf)
  end.

Definition handle_pin (h : handle) (d : fd) : prog (res unit) :=
  rp <~ pin_prog h d ;;
  match rp with
  | Er e => handle_unpin h d ;;; Ret (Er e)
  | Ok _ =>
      rm <~ pin_maps d (h_maps h) ;;
      match rm with
      | Er e => handle_unpin h d ;;; Ret (Er e)
      | Ok _ =>
          match h_link h with
          | None => Ret (Ok tt)
          | Some l =>
              rl <~ link_pin l d ;;
              match rl with
              | Er e => handle_unpin h d ;;; Ret (Er e)
              | Ok _ => Ret (Ok tt)
              end
          end
      end
  end.

(** handle.c:165-215 bf_handle_pack. *)
Definition is_some {A} (o : option A) : bool := match o with Some _ => true | None => false end.
Definition handle_desc (h : handle) : hdesc :=
  mkHD (match h_link h with Some l => Some (l_hook l, l_opts l) | None => None end)
       (is_some (h_cmap h)) (is_some (h_pmap h)) (is_some (h_lmap h)) (is_some (h_smap h))
       (map fst (h_sets h)).

(** map.c:241-295 bf_map_new_from_pack, for an optional map. *)
Definition map_restore (d : fd) (p : pname) (present : bool) : prog (res (option fd)) :=
  if present then
    ra <~ sys_unit C_alloc ;;
    match ra with
    | Er _ => Ret (Er ENOMEM)
    | Ok _ => r <~ sys_fd (C_get d p) ;;
              match r with Er e => Ret (Er e) | Ok f => Ret (Ok (Some f)) end
    end
  else Ret (Ok None).

Fixpoint sets_restore (d : fd) (l : list pname) (h : handle) : prog (res handle) :=
  match l with
  | [] => Ret (Ok h)
  | p :: r =>
      x <~ map_restore d p true ;;
      match x with
      | Ok (Some f) =>
          sets_restore d r (mkH (h_prog h) (h_link h) (h_cmap h) (h_pmap h) (h_lmap h) (h_smap h) (h_sets h ++ [(p, f)]))
      | Ok None => Ret (Ok h)
      | Er e => handle_free h ;;; Ret (Er e)
      end
  end.

(** handle.c:50-143 bf_handle_new_from_pack. *)
Definition handle_restore (d : fd) (hd : hdesc) : prog (res handle) :=
  ra <~ sys_unit C_alloc ;;
  match ra with
  | Er _ => Ret (Er ENOMEM)
  | Ok _ =>
  rp <~ sys_fd (C_get d P_prog) ;;
  match rp with
  | Er e => Ret (Er e)
  | Ok pf =>
  let h := mkH (Some pf) None None None None None [] in
  rl <~ match hd_link hd with
        | None => Ret (Ok None)
        | Some (hk, o) =>
            r <~ link_restore d hk o ;;
            match r with Er e => Ret (Er e) | Ok l => Ret (Ok (Some l)) end
        end ;;
  match rl with
  | Er e => handle_free h ;;; Ret (Er e)
  | Ok l =>
  let h := set_link h l in
  rc <~ map_restore d P_cmap (hd_cmap hd) ;;
  match rc with
  | Er e => handle_free h ;;; Ret (Er e)
  | Ok c =>
  let h := mkH (Some pf) l c None None None [] in
  rpm <~ map_restore d P_pmap (hd_pmap hd) ;;
  match rpm with
  | Er e => handle_free h ;;; Ret (Er e)
  | Ok pm =>
  let h := mkH (Some pf) l c pm None None [] in
  rlm <~ map_restore d P_lmap (hd_lmap hd) ;;
  match rlm with
  | Er e => handle_free h ;;; Ret (Er e)
  | Ok lm =>
  let h := mkH (Some pf) l c pm lm None [] in
  rsm <~ map_restore d P_smap (hd_smap hd) ;;
  match rsm with
  | Er e => handle_free h ;;; Ret (Er e)
  | Ok sm => sets_restore d (hd_sets hd) (mkH (Some pf) l c pm lm sm [])
  end end end end end end end.

(** handle.c:404-437 bf_handle_get_counter. *)
Definition sum_counters (l : list (N * N)) : N * N :=
  fold_left (fun a x => ((fst a + fst x) mod two64, (snd a + snd x) mod two64)) l (0, 0).

Definition handle_get_counter (h : handle) (i : N) : prog (res (N * N)) :=
  match h_cmap h with
  | None => Ret (Er ENOENT)
  | Some f =>
      rn <~ sys C_ncpus ;;
      match rn with
      | Er e => Ret (Er e)
      | Ok _ =>
      ra <~ sys_unit C_alloc ;;
      match ra with
      | Er _ => Ret (Er ENOMEM)
      | Ok _ =>
          Do (C_cnt_read f i) (fun r =>
            match r with
            | R_cnt l => Ret (Ok (sum_counters l))
            | R_err e => Ret (Er e)
            | _ => Ret (Er EINVAL)
            end)
      end end
  end.

(** handle.c:439-467 bf_handle_set_counter: CPU 0 gets the value, the others zero. *)
Definition handle_set_counter (h : handle) (i : N) (v : N * N) : prog (res unit) :=
  match h_cmap h with
  | None => Ret (Er ENOENT)
  | Some f =>
      Do C_ncpus (fun rn =>
        match rn with
        | R_n ncpu =>
            ra <~ sys_unit C_alloc ;;
            match ra with
            | Er _ => Ret (Er ENOMEM)
            | Ok _ => sys_unit (C_cnt_write f i (v :: repeat (0, 0) (ncpu - 1)))
            end
        | R_err e => Ret (Er e)
        | _ => Ret (Er EINVAL)
        end)
  end.

(** handle.c:469-486 bf_handle_attach; [Ok None]: see [link_new]. *)
Definition handle_attach (h : handle) (hk : hook) (opts : hookopts) : prog (res handle) :=
  match h_link h, h_prog h with
  | Some _, _ => Ret (Er EEXIST)
  | None, None => Ret (Er EBADF)
  | None, Some pf =>
      r <~ link_new hk opts pf ;;
      match r with
      | Er e => Ret (Er e)
      | Ok l => Ret (Ok (set_link h l))
      end
  end.

(** handle.c:488-499 bf_handle_detach. *)
Definition handle_detach (h : handle) : prog unit :=
  match h_link h with
  | None => Ret tt
  | Some l =>
      sys_ (C_link_detach (l_fd l)) ;;;
      match l_extra l with Some fx => sys_ (C_link_detach fx) | None => Ret tt end ;;;
      link_free (Some l)
  end.

(** handle.c:501-519 bf_handle_unload. *)
Definition handle_unload (h : handle) : prog unit :=
  close_opt (h_prog h) ;;; handle_detach h ;;; close_all (map snd (h_maps h)).

(** ** The loader, cgen/program.c *)

(** program.c:1025-1130 _bf_program_load_sets_maps; [i] is map_idx.  The result is the
    handle with the maps created so far, and the outcome. *)
Definition set_map_name (i : nat) : pname := P_set (N.of_nat i mod two16).
Fixpoint load_sets (sets : list bset) (i : nat) (gs : list (list nat)) (h : handle) : prog (handle * res unit) :=
  match gs with
  | [] => Ret (h, Ok tt)
  | g :: r =>
      ra <~ sys_unit C_alloc ;;
      match ra with
      | Er _ => Ret (h, Er ENOMEM)
      | Ok _ =>
          let m := load_map sets g in
          rm <~ sys_fd (C_map_create (O_set (fst m, []))) ;;
          match rm with
          | Er e => Ret (h, Er e)
          | Ok f =>
              rf <~ sys_unit (C_set_fill f m) ;;
              match rf with
              | Er e => sys_ (C_close f) ;;; Ret (h, Er e)
              | Ok _ =>
                  rb <~ sys_unit C_alloc ;;
                  match rb with
                  | Er _ => sys_ (C_close f) ;;; Ret (h, Er ENOMEM)
                  | Ok _ =>
                      load_sets sets (S i) r
                        (mkH (h_prog h) (h_link h) (h_cmap h) (h_pmap h) (h_lmap h) (h_smap h)
                             (h_sets h ++ [(set_map_name i, f)]))
                  end
              end
          end
      end
  end.

(** program.c:1132-1182 bf_program_load with 901-1001 (printer, counters, log and state
    maps).  [img] is the generated program. *)
Definition program_load (c : chain) (img : list insn) (h : handle) : prog (handle * res unit) :=
  rs <~ load_sets (c_sets c) 0 (build_groups (c_sets c)) h ;;
  match rs with
  | (h, Er e) => Ret (h, Er e)
  | (h, Ok _) =>
  rc <~ sys_fd (C_map_create (O_counters (n_rules c + 2) (fun _ => []))) ;;
  match rc with
  | Er e => Ret (h, Er e)
  | Ok cm =>
  let h := mkH (h_prog h) (h_link h) (Some cm) (h_pmap h) (h_lmap h) (h_smap h) (h_sets h) in
  ra <~ sys_unit C_alloc ;;
  match ra with
  | Er _ => Ret (h, Er ENOMEM)
  | Ok _ =>
  rp <~ sys_fd (C_map_create O_map) ;;
  match rp with
  | Er e => Ret (h, Er e)
  | Ok pm =>
  let h := mkH (h_prog h) (h_link h) (h_cmap h) (Some pm) (h_lmap h) (h_smap h) (h_sets h) in
  rk <~ sys_unit (C_map_poke pm) ;;
  match rk with
  | Er e => Ret (h, Er e)
  | Ok _ =>
  rl <~ (if c_log c then
           r <~ sys_fd (C_map_create O_map) ;;
           match r with Er e => Ret (Er e) | Ok f => Ret (Ok (Some f)) end
         else Ret (Ok None)) ;;
  match rl with
  | Er e => Ret (h, Er e)
  | Ok lm =>
  let h := mkH (h_prog h) (h_link h) (h_cmap h) (h_pmap h) lm (h_smap h) (h_sets h) in
  rt <~ (if c_ratelimit c && negb (n_rules c =? 0) then
           r <~ sys_fd (C_map_create O_map) ;;
           match r with Er e => Ret (Er e) | Ok f => Ret (Ok (Some f)) end
         else Ret (Ok None)) ;;
  match rt with
  | Er e => Ret (h, Er e)
  | Ok sm =>
  let h := mkH (h_prog h) (h_link h) (h_cmap h) (h_pmap h) (h_lmap h) sm (h_sets h) in
  rf <~ sys_fd (C_prog_load img (map snd (h_sets h)) cm) ;;
  match rf with
  | Er e => Ret (h, Er e)
  | Ok pf => Ret (mkH (Some pf) (h_link h) (h_cmap h) (h_pmap h) (h_lmap h) (h_smap h) (h_sets h), Ok tt)
  end end end end end end end end.

(** bf_program_new (allocations), bf_program_generate (GenModel.v), bf_program_load. *)
Definition build_program (c : nchain) (h : handle) : prog (handle * res unit) :=
  ra <~ sys_unit C_alloc ;;
  match ra with
  | Er _ => Ret (h, Er ENOMEM)
  | Ok _ =>
      match gen_program (nc_chain c) with
      | Er e => Ret (h, Er e)
      | Ok img => program_load (nc_chain c) img h
      end
  end.

(** ** cgen/cgen.c *)

(** cgen.c:52-99 _bf_cgen_persist. *)
Definition persist (g : cgen) (d : fd) : prog (res unit) :=
  ra <~ sys_unit C_alloc ;;
  match ra with
  | Er _ => Ret (Er ENOMEM)
  | Ok _ =>
  match chain_pack (g_chain g) with
  | Er e => Ret (Er e)
  | Ok t =>
  rm <~ sys_fd (C_map_create (O_ctx None)) ;;
  match rm with
  | Er e => Ret (Er e)
  | Ok mf =>
  rw <~ sys_unit (C_ctx_write mf (t, handle_desc (g_handle g))) ;;
  match rw with
  | Er e => sys_ (C_close mf) ;;; Ret (Er e)
  | Ok _ =>
  sys_ (C_unlink d P_ctx_tmp) ;;;
  rp <~ sys_unit (C_pin d P_ctx_tmp mf) ;;
  match rp with
  | Er e => sys_ (C_close mf) ;;; Ret (Er e)
  | Ok _ =>
  rr <~ sys_unit (C_rename_pin d P_ctx_tmp P_ctx) ;;
  match rr with
  | Er e => sys_ (C_unlink d P_ctx_tmp) ;;; sys_ (C_close mf) ;;; Ret (Er e)
  | Ok _ => sys_ (C_close mf) ;;; Ret (Ok tt)
  end end end end end end.

(** cgen.c:101-176: bf_cgen_new_from_dir_fd and _bf_cgen_new_from_pack. *)
Definition cgen_restore (mm : mem) (d : fd) : prog (res cgen) :=
  rg <~ sys_fd (C_get d P_ctx) ;;
  match rg with
  | Er e => Ret (Er e)
  | Ok mf =>
      Do (C_ctx_read mf) (fun r =>
        match r with
        | R_ctx (t, hd) =>
            ra <~ sys_unit C_alloc ;;
            match ra with
            | Er _ => sys_ (C_close mf) ;;; Ret (Er ENOMEM)
            | Ok _ =>
                match chain_unpack (m_nd mm) (m_tb mm) t with
                | Er e => sys_ (C_close mf) ;;; Ret (Er e)
                | Ok c =>
                    rh <~ handle_restore d hd ;;
                    sys_ (C_close mf) ;;;
                    match rh with
                    | Er e => Ret (Er e)
                    | Ok h => Ret (Ok (mkCg c h))
                    end
                end
            end
        | R_err e => sys_ (C_close mf) ;;; Ret (Er e)
        | _ => sys_ (C_close mf) ;;; Ret (Er EINVAL)
        end)
  end.

(** cgen.c:178-199 bf_cgen_new, 201-213 bf_cgen_free. *)
Definition cgen_new (c : nchain) : prog (res cgen) :=
  ra <~ sys_unit C_alloc ;;
  match ra with Er _ => Ret (Er ENOMEM) | Ok _ => Ret (Ok (mkCg c handle_new)) end.
Definition cgen_free (g : cgen) : prog unit := handle_free (g_handle g).

(** cgen.c:290-309 bf_cgen_get_counter.  cgen.h:189-193: BF_COUNTER_POLICY is -2,
    BF_COUNTER_ERRORS is -1. *)
Definition COUNTER_POLICY : Z := -2.
Definition COUNTER_ERRORS : Z := -1.
Definition counter_slot (g : cgen) (idx : Z) : res N :=
  let n := Z.of_N (n_rules (nc_chain (g_chain g))) in
  if (idx =? COUNTER_POLICY)%Z then Ok (Z.to_N n)
  else if (idx =? COUNTER_ERRORS)%Z then Ok (Z.to_N (n + 1))
  else if (idx <? 0)%Z || (n <=? idx)%Z then Er EINVAL
  else Ok (Z.to_N idx).
Definition cgen_get_counter (g : cgen) (idx : Z) : prog (res (N * N)) :=
  match counter_slot g idx with
  | Er e => Ret (Er e)
  | Ok i => handle_get_counter (g_handle g) i
  end.

(** cgen.c:254-288 bf_cgen_load_counters: the counters of the rules that have them, in
    order, then the policy's and the errors'. *)
Fixpoint load_rule_counters (g : cgen) (l : list rule) : prog (res (list (option (N * N)))) :=
  match l with
  | [] => Ret (Ok [])
  | r :: rest =>
      rc <~ (if r_counters r then
               x <~ cgen_get_counter g (Z.of_N (r_index r)) ;;
               match x with Er e => Ret (Er e) | Ok v => Ret (Ok (Some v)) end
             else Ret (Ok None)) ;;
      match rc with
      | Er e => Ret (Er e)
      | Ok v =>
          rr <~ load_rule_counters g rest ;;
          match rr with Er e => Ret (Er e) | Ok vs => Ret (Ok (v :: vs)) end
      end
  end.
Record counters := mkCnts { cs_rules : list (option (N * N)); cs_policy : N * N; cs_errors : N * N }.
Definition load_counters (g : cgen) : prog (res counters) :=
  rr <~ load_rule_counters g (c_rules (nc_chain (g_chain g))) ;;
  match rr with
  | Er e => Ret (Er e)
  | Ok vs =>
  rp <~ cgen_get_counter g COUNTER_POLICY ;;
  match rp with
  | Er e => Ret (Er e)
  | Ok p =>
  re <~ cgen_get_counter g COUNTER_ERRORS ;;
  match re with
  | Er e => Ret (Er e)
  | Ok e => Ret (Ok (mkCnts vs p e))
  end end end.

(** cgen.c:311-350 bf_cgen_set and 352-387 bf_cgen_load ([opts] is None for the latter).
    The handle that the caller must free is returned. *)
Definition cgen_set (g : cgen) (opts : option hookopts) (d : fd) : prog (cgen * res unit) :=
  rb <~ build_program (g_chain g) (g_handle g) ;;
  match rb with
  | (h, Er e) => Ret (mkCg (g_chain g) h, Er e)
  | (h, Ok _) =>
  ra <~ match opts with
        | None => Ret (Ok h)
        | Some o => handle_attach h (c_hook (nc_chain (g_chain g))) o
        end ;;
  match ra with
  | Er e => Ret (mkCg (g_chain g) h, Er e)
  | Ok h' =>
  let g' := mkCg (g_chain g) h' in
  rp <~ handle_pin h' d ;;
  match rp with
  | Er e => Ret (g', Er e)
  | Ok _ =>
  rs <~ persist g' d ;;
  match rs with
  | Er e => handle_unpin h' d ;;; Ret (g', Er e)
  | Ok _ => Ret (g', Ok tt)
  end end end end.

(** cgen.c:389-421 bf_cgen_attach.  [EABORT] is the assertion (or the null dereference)
    of bf_link_pin when bf_link_new returned a positive errno. *)
Definition cgen_attach (g : cgen) (opts : hookopts) (d : fd) : prog (cgen * res unit) :=
  ra <~ handle_attach (g_handle g) (c_hook (nc_chain (g_chain g))) opts ;;
  match ra with
  | Er e => Ret (g, Er e)
  | Ok h =>
  match h_link h with
  | None => Ret (mkCg (g_chain g) h, Er EABORT)
  | Some l =>
  let detached := mkCg (g_chain g) (set_link h None) in
  rp <~ link_pin l d ;;
  match rp with
  | Er e => handle_detach h ;;; Ret (detached, Er e)
  | Ok _ =>
  rs <~ persist (mkCg (g_chain g) h) d ;;
  match rs with
  | Er e => link_unpin d ;;; handle_detach h ;;; Ret (detached, Er e)
  | Ok _ => Ret (mkCg (g_chain g) h, Ok tt)
  end end end end.

(** cgen.c:435-464 _bf_cgen_transfer_counters; [n] slots are left, the next is [i]. *)
Fixpoint transfer_slots (ho hn : handle) (n : nat) (i : N) : prog (res unit) :=
  match n with
  | O => Ret (Ok tt)
  | S n' =>
      rg <~ handle_get_counter ho i ;;
      match rg with
      | Er e => Ret (Er e)
      | Ok (a, b) =>
          if (a =? 0) && (b =? 0) then transfer_slots ho hn n' (i + 1)
          else
            rw <~ handle_set_counter hn i (a, b) ;;
            match rw with Er e => Ret (Er e) | Ok _ => transfer_slots ho hn n' (i + 1) end
      end
  end.
Definition transfer_counters (ho hn : handle) (n : N) : prog (res unit) :=
  match h_cmap ho, h_cmap hn with
  | Some _, Some _ => transfer_slots ho hn (N.to_nat (n + 2)) 0
  | _, _ => Ret (Er ENOENT)
  end.

(** cgen.c:466-553 bf_cgen_update; [keep] is BF_CGEN_UPDATE_PRESERVE_COUNTERS. *)
Definition cgen_update (g : cgen) (c : nchain) (keep : bool) (d : fd) : prog (cgen * res unit) :=
  let ho := g_handle g in
  ra <~ sys_unit C_alloc ;;
  match ra with
  | Er _ => Ret (g, Er ENOMEM)
  | Ok _ =>
  rb <~ build_program c handle_new ;;
  match rb with
  | (hn, Er e) => handle_free hn ;;; Ret (g, Er e)
  | (hn, Ok _) =>
  rt <~ (if keep then
           if n_rules (nc_chain (g_chain g)) =? n_rules (nc_chain c)
           then transfer_counters ho hn (n_rules (nc_chain c)) else Ret (Er EINVAL)
         else Ret (Ok tt)) ;;
  match rt with
  | Er e => handle_free hn ;;; Ret (g, Er e)
  | Ok _ =>
  handle_unpin ho d ;;;
  rl <~ match h_link ho, h_prog hn with
        | None, _ => Ret (Ok None)
        | Some _, None => Ret (Er EBADF)
        | Some l, Some pf =>
            r <~ link_update l pf ;;
            match r with Er e => Ret (Er e) | Ok l' => Ret (Ok (Some l')) end
        end ;;
  match rl with
  | Er e => handle_pin ho d ;;; handle_free hn ;;; Ret (g, Er e)
  | Ok l =>
  let h' := set_link hn l in
  let old := set_link ho None in
  rp <~ handle_pin h' d ;;
  match rp with
  | Er e => handle_free old ;;; Ret (mkCg (g_chain g) h', Er e)
  | Ok _ =>
  r1 <~ persist (mkCg (g_chain g) h') d ;;
  match r1 with
  | Er e => handle_unpin h' d ;;; handle_free old ;;; Ret (mkCg (g_chain g) h', Er e)
  | Ok _ =>
  r2 <~ persist (mkCg c h') d ;;
  match r2 with
  | Er e => handle_unpin h' d ;;; handle_free old ;;; Ret (mkCg c h', Er e)
  | Ok _ => handle_free old ;;; Ret (mkCg c h', Ok tt)
  end end end end end end end.

(** cgen.c:562-572 bf_cgen_unload; afterwards the handle holds no descriptor. *)
Definition cgen_unload (g : cgen) (d : fd) : prog unit :=
  sys_ (C_unlink d P_ctx) ;;; handle_unpin (g_handle g) d ;;; handle_unload (g_handle g).

(** ** ctx.c *)

Definition chain_fd (lk : lock) : option fd := match lk_chain lk with Some (f, _, _) => Some f | None => None end.

(** ctx.c:304-323 bf_ctx_get_cgen. *)
Definition get_cgen (mm : mem) (lk : lock) : prog (res cgen) :=
  match chain_fd lk with Some d => cgen_restore mm d | None => Ret (Er EBADFD) end.

(** ctx.c:325-407 bf_ctx_get_cgens: the loop over the entries.  [i] numbers them. *)
Fixpoint restore_entries (mm : nat -> mem) (lk : lock) (i : nat) (l : list name) (acc : list cgen) : prog (list cgen) :=
  match l with
  | [] => Ret acc
  | n :: r =>
      if is_staging n then restore_entries mm lk (S i) r acc
      else
        ra <~ acquire_chain lk n L_READ false ;;
        match ra with
        | Er _ => restore_entries mm lk (S i) r acc
        | Ok lk' =>
            rg <~ get_cgen (mm i) lk' ;;
            release_chain lk' ;;;
            match rg with
            | Er _ => restore_entries mm lk (S i) r acc
            | Ok g =>
                rp <~ sys_unit C_alloc ;;
                match rp with
                | Er _ => cgen_free g ;;; restore_entries mm lk (S i) r acc
                | Ok _ => restore_entries mm lk (S i) r (acc ++ [g])
                end
            end
        end
  end.

Definition get_cgens (mm : nat -> mem) (lk : lock) : prog (res (list cgen)) :=
  ra <~ sys_unit C_alloc ;;
  match ra with
  | Er _ => Ret (Er ENOMEM)
  | Ok _ =>
      match lk_pin lk with
      | None => Ret (Er EBADFD)
      | Some p =>
          Do (C_readdir p) (fun r =>
            match r with
            | R_names l => gs <~ restore_entries mm lk 0 l [] ;; Ret (Ok gs)
            | R_err e => Ret (Er e)
            | _ => Ret (Er EINVAL)
            end)
      end
  end.

(** ** cli.c *)

Fixpoint free_cgens (l : list cgen) : prog unit :=
  match l with [] => Ret tt | g :: r => cgen_free g ;;; free_cgens r end.

(** cli.c:57-86 _bf_ruleset_flush: the loop; then the list is freed. *)
Fixpoint unload_all (lk : lock) (l : list cgen) : prog unit :=
  match l with
  | [] => Ret tt
  | g :: r =>
      ra <~ acquire_chain lk (nc_name (g_chain g)) L_WRITE false ;;
      match ra with
      | Er _ => unload_all lk r ;;; cgen_free g
      | Ok lk' =>
          match chain_fd lk' with Some d => cgen_unload g d | None => Ret tt end ;;;
          release_chain lk' ;;;
          unload_all lk r
      end
  end.

Definition flush_all (mm : nat -> mem) (lk : lock) : prog (res unit) :=
  rg <~ get_cgens mm lk ;;
  match rg with
  | Er e => Ret (Er e)
  | Ok gs => unload_all lk gs ;;; Ret (Ok tt)
  end.

(** bf_chain_new_from_copy: allocations, then PackModel's copy. *)
Definition copy_chain (mm : mem) (c : nchain) : prog (res nchain) :=
  ra <~ sys_unit C_alloc ;;
  match ra with Er _ => Ret (Er ENOMEM) | Ok _ => Ret (chain_copy (m_nd mm) (m_tb mm) c) end.

(** cli.c:27-47 copy_hookopts. *)
Definition copy_hookopts (o : option hookopts) : prog (res unit) :=
  match o with None => Ret (Ok tt) | Some _ => ra <~ sys_unit C_alloc ;; match ra with Er _ => Ret (Er ENOMEM) | Ok _ => Ret (Ok tt) end end.

(** The hook options a restored chain reports. *)
Definition cgen_opts (g : cgen) : option hookopts :=
  match h_link (g_handle g) with Some l => Some (l_opts l) | None => None end.

(** cli.c:88-134 bf_ruleset_get. *)
Fixpoint get_rules (l : list cgen) : prog (res (list (nchain * counters * option hookopts))) :=
  match l with
  | [] => Ret (Ok [])
  | g :: r =>
      rc <~ load_counters g ;;
      match rc with
      | Er e => Ret (Er e)
      | Ok cs =>
      ra <~ sys_unit C_alloc ;;
      match ra with
      | Er _ => Ret (Er ENOMEM)
      | Ok _ =>
          rr <~ get_rules r ;;
          match rr with
          | Er e => Ret (Er e)
          | Ok xs => Ret (Ok ((g_chain g, cs, cgen_opts g) :: xs))
          end
      end end
  end.

Definition ruleset_get (mm : nat -> mem) : prog (res (list (nchain * counters * option hookopts))) :=
  rl <~ lock_init L_READ ;;
  match rl with
  | Er e => Ret (Er e)
  | Ok lk =>
      rg <~ get_cgens mm lk ;;
      match rg with
      | Er e => lock_cleanup lk ;;; Ret (Er e)
      | Ok gs =>
          x <~ get_rules gs ;;
          free_cgens gs ;;;
          lock_cleanup lk ;;;
          Ret x
      end
  end.

(** cli.c:154-190 bf_ruleset_set: the body of the loop over the two lists. *)
Definition set_one (mm : mem) (lk : lock) (c : nchain) (o : option hookopts) : prog (res unit) :=
  rc <~ copy_chain mm c ;;
  match rc with
  | Er e => Ret (Er e)
  | Ok c' =>
  rh <~ copy_hookopts o ;;
  match rh with
  | Er e => Ret (Er e)
  | Ok _ =>
  rn <~ cgen_new c' ;;
  match rn with
  | Er e => Ret (Er e)
  | Ok g =>
  ra <~ acquire_chain lk (nc_name (g_chain g)) L_WRITE true ;;
  match ra with
  | Er e => cgen_free g ;;; Ret (Er e)
  | Ok lk' =>
  match chain_fd lk' with
  | None => Ret (Er EBADFD)
  | Some d =>
  rs <~ cgen_set g o d ;;
  release_chain lk' ;;;
  cgen_free (fst rs) ;;;
  Ret (snd rs)
  end end end end end.

(** cli.c:154-194 bf_ruleset_set: the loop. *)
Fixpoint set_chains (mm : nat -> mem) (lk : lock) (i : nat) (l : list (nchain * option hookopts)) : prog (res unit) :=
  match l with
  | [] => Ret (Ok tt)
  | (c, o) :: r =>
      rs <~ set_one (mm i) lk c o ;;
      match rs with
      | Er e => Ret (Er e)
      | Ok _ => set_chains mm lk (S i) r
      end
  end.

(** cli.c:136-202 bf_ruleset_set. *)
Definition ruleset_set (m1 m2 m3 : nat -> mem) (chains : list nchain) (opts : list (option hookopts)) : prog (res unit) :=
  if negb (length chains =? length opts)%nat then Ret (Er EINVAL)
  else
    rl <~ lock_init L_WRITE ;;
    match rl with
    | Er e => Ret (Er e)
    | Ok lk =>
        rf <~ flush_all m1 lk ;;
        match rf with
        | Er e => lock_cleanup lk ;;; Ret (Er e)
        | Ok _ =>
            rs <~ set_chains m2 lk 0 (combine chains opts) ;;
            match rs with
            | Er e => flush_all m3 lk ;;; lock_cleanup lk ;;; Ret (Er e)
            | Ok _ => lock_cleanup lk ;;; Ret (Ok tt)
            end
        end
    end.

(** cli.c:204-214 bf_ruleset_flush. *)
Definition ruleset_flush (mm : nat -> mem) : prog (res unit) :=
  rl <~ lock_init L_WRITE ;;
  match rl with
  | Er e => Ret (Er e)
  | Ok lk => r <~ flush_all mm lk ;; lock_cleanup lk ;;; Ret r
  end.

(** cli.c:216-273 bf_chain_set. *)
Definition install (mm : mem) (lk : lock) (c : nchain) (o : option hookopts) : prog (res unit) :=
  rc <~ copy_chain mm c ;;
  match rc with
  | Er e => lock_cleanup lk ;;; Ret (Er e)
  | Ok c' =>
  rh <~ copy_hookopts o ;;
  match rh with
  | Er e => lock_cleanup lk ;;; Ret (Er e)
  | Ok _ =>
  rn <~ cgen_new c' ;;
  match rn with
  | Er e => lock_cleanup lk ;;; Ret (Er e)
  | Ok g =>
  ra <~ acquire_chain lk (nc_name c) L_WRITE true ;;
  match ra with
  | Er e => cgen_free g ;;; lock_cleanup lk ;;; Ret (Er e)
  | Ok lk' =>
  match chain_fd lk' with
  | None => Ret (Er EBADFD)
  | Some d =>
  rs <~ cgen_set g o d ;;
  cgen_free (fst rs) ;;;
  lock_cleanup lk' ;;;
  Ret (snd rs)
  end end end end end.

Definition chain_set (m1 m2 : mem) (c : nchain) (o : option hookopts) : prog (res unit) :=
  rl <~ lock_init L_WRITE ;;
  match rl with
  | Er e => Ret (Er e)
  | Ok lk =>
  ra <~ acquire_chain lk (nc_name c) L_WRITE false ;;
  match ra with
  | Ok lk' =>
      rg <~ get_cgen m1 lk' ;;
      match rg with
      | Er e =>
          if e =? ENOENT then lk2 <~ release_chain lk' ;; install m2 lk2 c o
          else lk2 <~ release_chain lk' ;; lock_cleanup lk2 ;;; Ret (Er e)
      | Ok g =>
          match chain_fd lk' with Some d => cgen_unload g d | None => Ret tt end ;;;
          lk2 <~ release_chain lk' ;;
          install m2 lk2 c o
      end
  | Er e =>
      if e =? ENOENT then install m2 lk c o else lock_cleanup lk ;;; Ret (Er e)
  end end.

(** The common start of the operations on one existing chain: lock, restore. *)
Definition with_chain {A} (mm : mem) (n : name) (pm cm : lmode)
  (body : lock -> fd -> cgen -> prog (cgen * res A)) : prog (res A) :=
  rl <~ lock_init_for_chain n pm cm false ;;
  match rl with
  | Er e => Ret (Er e)
  | Ok lk =>
  rg <~ get_cgen mm lk ;;
  match rg with
  | Er e => lock_cleanup lk ;;; Ret (Er e)
  | Ok g =>
  match chain_fd lk with
  | None => Ret (Er EBADFD)
  | Some d =>
      rb <~ body lk d g ;;
      cgen_free (fst rb) ;;;
      lock_cleanup lk ;;;
      Ret (snd rb)
  end end end.

(** cli.c:275-315 bf_chain_get. *)
Definition chain_get (mm : mem) (n : name) : prog (res (nchain * counters * option hookopts)) :=
  with_chain mm n L_READ L_READ (fun _ _ g =>
    rc <~ load_counters g ;;
    match rc with
    | Er e => Ret (g, Er e)
    | Ok cs =>
        rh <~ copy_hookopts (cgen_opts g) ;;
        match rh with
        | Er e => Ret (g, Er e)
        | Ok _ => Ret (g, Ok (g_chain g, cs, cgen_opts g))
        end
    end).

(** cli.c:317-337 bf_chain_prog_fd and 339-359 bf_chain_logs_fd. *)
Definition chain_prog_fd (mm : mem) (n : name) : prog (res fd) :=
  with_chain mm n L_READ L_READ (fun _ _ g =>
    match h_prog (g_handle g) with
    | None => Ret (g, Er ENODEV)
    | Some f => r <~ sys_fd (C_dup f) ;; Ret (g, r)
    end).
Definition chain_logs_fd (mm : mem) (n : name) : prog (res fd) :=
  with_chain mm n L_READ L_READ (fun _ _ g =>
    match h_lmap (g_handle g) with
    | None => Ret (g, Er ENOENT)
    | Some f => r <~ sys_fd (C_dup f) ;; Ret (g, r)
    end).

(** cli.c:361-388 bf_chain_load. *)
Definition chain_load (mm : mem) (c : nchain) : prog (res unit) :=
  rl <~ lock_init_for_chain (nc_name c) L_WRITE L_WRITE true ;;
  match rl with
  | Er e => Ret (Er e)
  | Ok lk =>
  rc <~ copy_chain mm c ;;
  match rc with
  | Er e => lock_cleanup lk ;;; Ret (Er e)
  | Ok c' =>
  rn <~ cgen_new c' ;;
  match rn with
  | Er e => lock_cleanup lk ;;; Ret (Er e)
  | Ok g =>
  match chain_fd lk with
  | None => Ret (Er EBADFD)
  | Some d =>
  rs <~ cgen_set g None d ;;
  cgen_free (fst rs) ;;;
  lock_cleanup lk ;;;
  Ret (snd rs)
  end end end end.

(** cli.c:390-424 bf_chain_attach. *)
Definition chain_attach (mm : mem) (n : name) (o : hookopts) : prog (res unit) :=
  with_chain mm n L_READ L_WRITE (fun _ d g =>
    match h_link (g_handle g) with
    | Some _ => Ret (g, Er EBUSY)
    | None =>
        match validate o (c_hook (nc_chain (g_chain g))) with
        | Er e => Ret (g, Er e)
        | Ok _ =>
            rh <~ copy_hookopts (Some o) ;;
            match rh with
            | Er e => Ret (g, Er e)
            | Ok _ => cgen_attach g o d
            end
        end
    end).

(** cli.c:426-449 bf_chain_update. *)
Definition chain_update (m1 m2 : mem) (c : nchain) : prog (res unit) :=
  with_chain m1 (nc_name c) L_READ L_WRITE (fun _ d g =>
    rc <~ copy_chain m2 c ;;
    match rc with
    | Er e => Ret (g, Er e)
    | Ok c' => cgen_update g c' false d
    end).

(** chain.c:467-480 bf_chain_get_set_by_name: the first set with that name. *)
Definition name_eqb (a b : option cstr) : bool :=
  match a, b with Some x, Some y => bytes_eqb x y | _, _ => false end.
Fixpoint find_set (nm : option cstr) (i : nat) (l : list uset) : option (nat * uset) :=
  match l with
  | [] => None
  | u :: r => if name_eqb (u_name u) nm then Some (i, u) else find_set nm (S i) r
  end.

Fixpoint replace_nth {A} (i : nat) (x : A) (l : list A) : list A :=
  match l, i with
  | [], _ => []
  | _ :: r, O => x :: r
  | y :: r, S j => y :: replace_nth j x r
  end.

(** The chain object after one of its sets was changed in place. *)
Definition with_set (c : nchain) (i : nat) (u : uset) (b : bset) : nchain :=
  let ch := nc_chain c in
  mkNC (nc_name c) (replace_nth i u (nc_sets c))
       (mkC (c_hook ch) (c_policy ch) (replace_nth i b (c_sets ch)) (c_rules ch)
            (c_log ch) (c_nexthdr ch) (c_ratelimit ch)).

(** cli.c:451-483 copy_set. *)
Definition copy_set (mm : mem) (u : uset) : prog (res uset) :=
  ra <~ sys_unit C_alloc ;;
  match ra with
  | Er _ => Ret (Er ENOMEM)
  | Ok _ => Ret (bind (set_pack u) (fun t => set_unpack (m_nd mm O) (m_tb mm) t))
  end.

(** cli.c:527-533: the new contents of the set. *)
Definition set_edit (nd : nat -> option nat) (tb : N -> bool) (u a r : uset) : res uset :=
  bind (set_add_many nd tb u a) (fun x =>
    let '(u1, _, rc) := x in
    if negb (rc =? 0) then Er rc
    else bind (set_remove_many u1 r) (fun y =>
      let '(u2, _, rc2) := y in
      if negb (rc2 =? 0) then Er rc2 else Ok u2)).

(** cli.c:485-541 bf_chain_update_set.  [m1] is used to restore the chain, [m2] to copy
    it, [m3] and [m4] for the copies of the sets, [m5] by bf_set_add_many. *)
Definition chain_update_set (m1 m2 m3 m4 m5 : mem) (n : name) (add del : uset) : prog (res unit) :=
  if negb (name_eqb (u_name add) (u_name del)) then Ret (Er EINVAL)
  else
    with_chain m1 n L_READ L_WRITE (fun _ d g =>
      rc <~ copy_chain m2 (g_chain g) ;;
      match rc with
      | Er e => Ret (g, Er e)
      | Ok c' =>
      match find_set (u_name add) 0 (nc_sets c') with
      | None => Ret (g, Er ENOENT)
      | Some (i, u) =>
      ra <~ copy_set m3 add ;;
      match ra with
      | Er e => Ret (g, Er e)
      | Ok a =>
      rd <~ copy_set m4 del ;;
      match rd with
      | Er e => Ret (g, Er e)
      | Ok r =>
      match set_edit (m_nd m5 O) (m_tb m5) u a r with
      | Er e => Ret (g, Er e)
      | Ok u' =>
      match bset_of u' with
      | Er e => Ret (g, Er e)
      | Ok b => cgen_update g (with_set c' i u' b) true d
      end end end end end end).

(** cli.c:543-565 bf_chain_flush. *)
Definition chain_flush (mm : mem) (n : name) : prog (res unit) :=
  with_chain mm n L_WRITE L_WRITE (fun _ d g =>
    cgen_unload g d ;;; Ret (mkCg (g_chain g) handle_new, Ok tt)).
