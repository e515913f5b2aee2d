(** core/lock.c and io.c: locks on the pin directory and on chain directories. *)
From Coq Require Import NArith ZArith List Bool.
From Verif Require Import Bytes Types World BpfModel GenModel StrModel PackModel HookModel KernModel.
Import ListNotations.
Local Open Scope N_scope.

(** core/lock.h:128-147 struct bf_lock; a descriptor is None when -1. *)
Record lock := mkLk {
  lk_bpffs : option fd;
  lk_pin : option fd;
  lk_pinmode : lmode;
  lk_chain : option (fd * name * lmode)
}.

(** core/lock.h:157-165 bf_lock_default. *)
Definition lock_default : lock := mkLk None None L_NONE None.

(** helper.c closep. *)
Definition close_opt (o : option fd) : prog unit :=
  match o with Some f => sys_ (C_close f) | None => Ret tt end.

(** core/lock.c:55-74 _bf_flock, on a valid descriptor. *)
Definition flock (f : fd) (m : lmode) : prog (res unit) :=
  match m with L_NONE => Ret (Ok tt) | _ => sys_unit (C_flock f m) end.

(** core/lock.c:148-163: the creation loop of the staging directory; [n] attempts are
    left. *)
Fixpoint make_staging (n : nat) (p : fd) : prog (res name) :=
  match n with
  | O => Ret (Er EAGAIN)
  | S n' =>
      Do C_staging_name (fun r =>
        match r with
        | R_name s =>
            r <~ sys_unit (C_mkdir p s) ;;
            match r with
            | Ok _ => Ret (Ok s)
            | Er e => if e =? EEXIST then make_staging n' p else Ret (Er e)
            end
        | _ => Ret (Er EINVAL)
        end)
  end.

(** core/lock.c:137-191 _bf_lock_stage_and_publish. *)
Definition stage_and_publish (p : fd) (n : name) : prog (res fd) :=
  rs <~ make_staging 4 p ;;
  match rs with
  | Er e => Ret (Er e)
  | Ok s =>
      ro <~ sys_fd (C_opendir p s) ;;
      match ro with
      | Er e => sys_ (C_rmdir p s) ;;; Ret (Er e)
      | Ok f =>
          rf <~ flock f L_WRITE ;;
          match rf with
          | Er e => sys_ (C_rmdir p s) ;;; sys_ (C_close f) ;;; Ret (Er e)
          | Ok _ =>
              rr <~ sys_unit (C_rename p s n) ;;
              match rr with
              | Er e => sys_ (C_rmdir p s) ;;; sys_ (C_close f) ;;; Ret (Er e)
              | Ok _ => Ret (Ok f)
              end
          end
      end
  end.

(** core/lock.c:210-251 _bf_lock_open_existing; [n] attempts are left. *)
Fixpoint open_existing (n : nat) (p : fd) (nm : name) (m : lmode) : prog (res fd) :=
  match n with
  | O => Ret (Er EAGAIN)
  | S n' =>
      ro <~ sys_fd (C_opendir p nm) ;;
      match ro with
      | Er e => Ret (Er e)
      | Ok f =>
          rl <~ flock f m ;;
          match rl with
          | Er e => sys_ (C_close f) ;;; Ret (Er e)
          | Ok _ =>
              Do (C_fstat f) (fun rs =>
                match rs with
                | R_ino i =>
                    Do (C_stat p nm) (fun rt =>
                      match rt with
                      | R_ino j => if i =? j then Ret (Ok f)
                                   else sys_ (C_close f) ;;; open_existing n' p nm m
                      | _ => sys_ (C_close f) ;;; open_existing n' p nm m
                      end)
                | R_err e => sys_ (C_close f) ;;; Ret (Er e)
                | _ => sys_ (C_close f) ;;; Ret (Er EINVAL)
                end)
          end
      end
  end.

(** io.c:56-77 bf_opendir_at(bpffs, "bpfilter", true).  The C code loops; the pin
    directory is never removed, so a second successful mkdirat cannot happen and two
    rounds are enough ([n] rounds are left). *)
Fixpoint opendir_pindir (n : nat) (b : fd) : prog (res fd) :=
  match n with
  | O => Ret (Er EUB)
  | S n' =>
      r <~ sys_fd (C_open_pindir b) ;;
      match r with
      | Ok f => Ret (Ok f)
      | Er e =>
          if e =? ENOENT then
            rm <~ sys_unit (C_mk_pindir b) ;;
            match rm with Ok _ => opendir_pindir n' b | Er e' => Ret (Er e') end
          else Ret (Er e)
      end
  end.

(** core/lock.c:395-422 bf_lock_release_chain; returns the lock without its chain. *)
Definition release_chain (lk : lock) : prog lock :=
  match lk_bpffs lk, lk_pin lk, lk_chain lk with
  | Some _, Some p, Some (f, n, m) =>
      match m with L_WRITE => sys_ (C_rmdir p n) | _ => Ret tt end ;;;
      sys_ (C_close f) ;;;
      Ret (mkLk (lk_bpffs lk) (lk_pin lk) (lk_pinmode lk) None)
  | _, _, _ => Ret lk
  end.

(** core/lock.c:319-335 bf_lock_cleanup. *)
Definition lock_cleanup (lk : lock) : prog unit :=
  match lk_bpffs lk with
  | None => Ret tt
  | Some b =>
      lk' <~ release_chain lk ;;
      close_opt (lk_pin lk') ;;;
      sys_ (C_close b)
  end.

(** core/lock.c:253-288 bf_lock_init.  The context is set up (ctx.c:433-439). *)
Definition lock_init (m : lmode) : prog (res lock) :=
  rb <~ sys_fd C_open_bpffs ;;
  match rb with
  | Er e => Ret (Er e)
  | Ok b =>
      rp <~ opendir_pindir 2 b ;;
      match rp with
      | Er e => lock_cleanup (mkLk (Some b) None L_NONE None) ;;; Ret (Er e)
      | Ok p =>
          rl <~ flock p m ;;
          match rl with
          | Er e => lock_cleanup (mkLk (Some b) (Some p) L_NONE None) ;;; Ret (Er e)
          | Ok _ => Ret (Ok (mkLk (Some b) (Some p) m None))
          end
      end
  end.

Definition is_write (m : lmode) : bool := match m with L_WRITE => true | _ => false end.

(** core/lock.c:337-393 bf_lock_acquire_chain. *)
Definition acquire_chain (lk : lock) (n : name) (m : lmode) (create : bool) : prog (res lock) :=
  match lk_bpffs lk, lk_pin lk with
  | Some b, Some p =>
      match lk_chain lk with
      | Some _ => Ret (Er EINVAL)
      | None =>
          if create && negb (is_write m) then Ret (Er EINVAL)
          else if create && negb (is_write (lk_pinmode lk)) then Ret (Er EINVAL)
          else
            ra <~ sys_unit C_alloc ;;
            match ra with
            | Er e => Ret (Er ENOMEM)
            | Ok _ =>
                rf <~ (if create then stage_and_publish p n else open_existing 8 p n m) ;;
                match rf with
                | Er e => Ret (Er e)
                | Ok f => Ret (Ok (mkLk (lk_bpffs lk) (lk_pin lk) (lk_pinmode lk) (Some (f, n, m))))
                end
            end
      end
  | _, _ => Ret (Er EBADFD)
  end.

(** core/lock.c:290-317 bf_lock_init_for_chain. *)
Definition lock_init_for_chain (n : name) (pm cm : lmode) (create : bool) : prog (res lock) :=
  if create && negb (is_write pm) then Ret (Er EINVAL)
  else
    rl <~ lock_init pm ;;
    match rl with
    | Er e => Ret (Er e)
    | Ok lk =>
        rc <~ acquire_chain lk n cm create ;;
        match rc with
        | Er e => lock_cleanup lk ;;; Ret (Er e)
        | Ok lk' => Ret (Ok lk')
        end
    end.

(** io.c:90-145 bf_rmdir_at(parent, name, true): a chain directory contains pins only,
    so the recursion is one level deep (bpffs has no other files; a chain directory
    never has sub-directories). *)
Fixpoint unlink_all (d : fd) (l : list pname) : prog (res unit) :=
  match l with
  | [] => Ret (Ok tt)
  | q :: r =>
      x <~ sys_unit (C_unlink d q) ;;
      match x with Er e => Ret (Er e) | Ok _ => unlink_all d r end
  end.

Definition rmdir_recursive (p : fd) (n : name) : prog unit :=
  ro <~ sys_fd (C_opendir p n) ;;
  match ro with
  | Er e => Ret tt
  | Ok d =>
      Do (C_listdir d) (fun r =>
        match r with
        | R_pnames l =>
            x <~ unlink_all d l ;;
            match x with
            | Er _ => sys_ (C_close d)
            | Ok _ => sys_ (C_close d) ;;; sys_ (C_rmdir p n)
            end
        | _ => sys_ (C_close d)
        end)
  end.

(** ctx.c:216-267 _bf_ctx_sweep_staging: the loop over the entries. *)
Fixpoint sweep_entries (p : fd) (l : list name) : prog unit :=
  match l with
  | [] => Ret tt
  | n :: r =>
      (if is_staging n then
         ro <~ sys_fd (C_opendir p n) ;;
         match ro with
         | Er _ => Ret tt
         | Ok s =>
             rf <~ sys_unit (C_flock s L_WRITE) ;;
             match rf with
             | Er _ => sys_ (C_close s)
             | Ok _ => rmdir_recursive p n ;;; sys_ (C_close s)
             end
         end
       else Ret tt) ;;;
      sweep_entries p r
  end.

(** ctx.c:216-267; bf_ctx_setup (ctx.c:269-284) runs it once the context exists. *)
Definition sweep_staging : prog unit :=
  rl <~ lock_init L_WRITE ;;
  match rl with
  | Er _ => Ret tt
  | Ok lk =>
      match lk_pin lk with
      | None => Ret tt
      | Some p =>
          Do (C_readdir p) (fun r =>
            match r with
            | R_names l => sweep_entries p l ;;; lock_cleanup lk
            | _ => lock_cleanup lk
            end)
      end
  end.
