(** Model of bfcli's commands: the options of a command (opts.c), the chain that a
    source means (chain.c) and the calls of the library that follow (chain.c,
    ruleset.c).  argp's splitting of argv into options and their arguments, the
    options that print and exit (--help, --usage, --version), and bf_ctx_setup are not
    modelled.  What a source says is LexModel and RulesTextModel, what the library does
    CtlModel. *)
From Coq Require Import String NArith ZArith List Bool Arith.
From Verif Require Import Bytes Types GenModel StrModel EnumModel ParseModel HashModel SetModel SetTextModel RulesTextModel LexModel PackModel HookModel KernModel CtlModel.
Import ListNotations.
Local Open Scope N_scope.

(** What argp_error exits with (sysexits.h EX_USAGE). *)
Definition EUSAGE : N := 64.

(** opts.c:138-156 enum bfc_opts_option_id.  --from-str and --from-file have one id for
    rulesets and one for chains, no command takes both. *)
Inductive option_id := O_from_str | O_from_file | O_name | O_option | O_set_name | O_add | O_remove | O_dry_run | O_no_set_content.
Definition oid_eq_dec (a b : option_id) : {a = b} + {a <> b}.
Proof. decide equality. Defined.
Definition has (l : list option_id) (k : option_id) : bool := if in_dec oid_eq_dec k l then true else false.

(** opts.c:158-299 _bfc_opts_cmds: the commands, with valid_opts and required_opts. *)
Inductive cmd :=
| C_ruleset_set | C_ruleset_get | C_ruleset_flush
| C_chain_set | C_chain_get | C_chain_logs | C_chain_load | C_chain_attach | C_chain_update | C_chain_update_set | C_chain_flush.
Definition valid_opts (c : cmd) : list option_id :=
  match c with
  | C_ruleset_set => [O_from_str; O_from_file; O_dry_run]
  | C_ruleset_get => [O_no_set_content]
  | C_ruleset_flush => []
  | C_chain_set | C_chain_load | C_chain_update => [O_from_str; O_from_file; O_name; O_dry_run]
  | C_chain_get => [O_name; O_no_set_content]
  | C_chain_logs => [O_name]
  | C_chain_attach => [O_option; O_name]
  | C_chain_update_set => [O_name; O_set_name; O_add; O_remove]
  | C_chain_flush => [O_name]
  end.
Definition required_opts (c : cmd) : list option_id :=
  match c with
  | C_ruleset_set | C_chain_set | C_chain_load | C_chain_update => [O_from_str; O_from_file]
  | C_ruleset_get | C_ruleset_flush => []
  | C_chain_get | C_chain_logs | C_chain_attach | C_chain_flush => [O_name]
  | C_chain_update_set => [O_name; O_set_name]
  end.
(** opts.c:519-609, the rejects of _bfc_options. *)
Definition rejects (k : option_id) : list option_id :=
  match k with O_from_str => [O_from_file] | O_from_file => [O_from_str] | _ => [] end.

(** opts.h:62-88 struct bfc_opts; [o_given] is set_opts. *)
Record opts := mkOpts {
  o_given : list option_id;
  o_str : option cstr; o_file : option cstr; o_name : option cstr; o_hook : hookopts;
  o_set_name : option cstr; o_adds : list cstr; o_removes : list cstr;
  o_dry : bool; o_brief : bool }.
(** opts.h:104-109 bfc_opts_default. *)
Definition opts_default : opts := mkOpts [] None None None hookopts_new None [] [] false false.

(** opts.c:407-496, the parsers of the options; opts.c:689-691.  strdup and malloc
    succeed. *)
Definition take_option (o : opts) (k : option_id) (arg : cstr) : res opts :=
  let g := o_given o ++ [k] in
  match k with
  | O_from_str => Ok (mkOpts g (Some arg) (o_file o) (o_name o) (o_hook o) (o_set_name o) (o_adds o) (o_removes o) (o_dry o) (o_brief o))
  | O_from_file => Ok (mkOpts g (o_str o) (Some arg) (o_name o) (o_hook o) (o_set_name o) (o_adds o) (o_removes o) (o_dry o) (o_brief o))
  | O_name =>
      match arg with [] => Er EUSAGE | _ =>
      Ok (mkOpts g (o_str o) (o_file o) (Some arg) (o_hook o) (o_set_name o) (o_adds o) (o_removes o) (o_dry o) (o_brief o)) end
  | O_option =>
      match parse_opt true (o_hook o) arg with Er _ => Er EUSAGE | Ok h =>
      Ok (mkOpts g (o_str o) (o_file o) (o_name o) h (o_set_name o) (o_adds o) (o_removes o) (o_dry o) (o_brief o)) end
  | O_set_name =>
      match arg with [] => Er EUSAGE | _ =>
      Ok (mkOpts g (o_str o) (o_file o) (o_name o) (o_hook o) (Some arg) (o_adds o) (o_removes o) (o_dry o) (o_brief o)) end
  | O_add =>
      match arg with [] => Er EUSAGE | _ =>
      Ok (mkOpts g (o_str o) (o_file o) (o_name o) (o_hook o) (o_set_name o) (o_adds o ++ [arg]) (o_removes o) (o_dry o) (o_brief o)) end
  | O_remove =>
      match arg with [] => Er EUSAGE | _ =>
      Ok (mkOpts g (o_str o) (o_file o) (o_name o) (o_hook o) (o_set_name o) (o_adds o) (o_removes o ++ [arg]) (o_dry o) (o_brief o)) end
  | O_dry_run => Ok (mkOpts g (o_str o) (o_file o) (o_name o) (o_hook o) (o_set_name o) (o_adds o) (o_removes o) true (o_brief o))
  | O_no_set_content => Ok (mkOpts g (o_str o) (o_file o) (o_name o) (o_hook o) (o_set_name o) (o_adds o) (o_removes o) (o_dry o) true)
  end.
(** opts.c:680-695: an option that the command does not take is refused by argp. *)
Fixpoint take_options (c : cmd) (o : opts) (l : list (option_id * cstr)) : res opts :=
  match l with
  | [] => Ok o
  | (k, a) :: r => if has (valid_opts c) k then bind (take_option o k a) (fun o' => take_options c o' r) else Er EUSAGE
  end.
(** opts.c:621-678: at the end, required options that are missing, then options that
    exclude each other. *)
Definition missing (c : cmd) (g : list option_id) : bool :=
  existsb (fun k => negb (has g k) && negb (existsb (has g) (rejects k))) (required_opts c).
Definition clashing (g : list option_id) : bool := existsb (fun k => existsb (has g) (rejects k)) g.
Definition read_options (c : cmd) (l : list (option_id * cstr)) : res opts :=
  bind (take_options c opts_default l) (fun o =>
    if missing c (o_given o) then Er EUSAGE
    else if clashing (o_given o) then Er EUSAGE
    else Ok o).

(** chain.c:33-77 _bfc_get_chain_from_ruleset. *)
Definition parsed := (nchain * option hookopts)%type.
Definition pick (name : option cstr) (l : list parsed) : res parsed :=
  match l with
  | [] => Er ENOENT
  | x :: r =>
      match name with
      | None => match r with [] => Ok x | _ => Er E2BIG end
      | Some n => match find (fun y => bytes_eqb (nc_name (fst y)) n) l with Some y => Ok y | None => Er ENOENT end
      end
  end.

(** helper.c:33-88 bfc_parse_str and bfc_parse_file: [files] is what can be read, None a
    file that cannot.  The file is read to its end: LexModel's end at a NUL applies. *)
Definition parse_file (ce : cli_env) (files : cstr -> option cstr) (f : cstr) : res (list parsed) :=
  match files f with Some s => parse_text ce s | None => Er ENOENT end.
(** chain.c:83-88, 169-174, 210-215: --from-str, otherwise --from-file. *)
Definition chain_source (ce : cli_env) (files : cstr -> option cstr) (o : opts) : res (list parsed) :=
  match o_str o with
  | Some s => parse_text ce s
  | None => match o_file o with Some f => parse_file ce files f | None => Er EUB end
  end.
(** ruleset.c:29-32: --from-file, otherwise --from-str. *)
Definition ruleset_source (ce : cli_env) (files : cstr -> option cstr) (o : opts) : res (list parsed) :=
  match o_file o with
  | Some f => parse_file ce files f
  | None => match o_str o with Some s => parse_text ce s | None => Er EUB end
  end.
Definition with_source (ce : cli_env) (files : cstr -> option cstr) (o : opts) (call : parsed -> prog (res unit)) : prog (res unit) :=
  match bind (chain_source ce files o) (pick (o_name o)) with
  | Er e => Ret (Er e)
  | Ok x => if o_dry o then Ret (Ok tt) else call x
  end.

(** chain.c:268-314, the loops over --add and --remove: [h], [nd] and [tb] are the
    allocator's answers. *)
Fixpoint add_texts (pe : penv) (h : nat -> option (list N)) (nd : nat -> option nat) (tb : N -> bool) (i : nat) (u : uset) (l : list cstr)
  : res uset :=
  match l with
  | [] => Ok u
  | t :: r => bind (add_elem_raw pe (h i) (nd i) tb u t) (fun u' => add_texts pe h nd tb (S i) u' r)
  end.
Record cli_mem := mkCM {
  cm_a : nat -> mem; cm_heap : bool -> nat -> option (list N); cm_node : bool -> nat -> option nat; cm_table : N -> bool }.
Definition delta (pe : penv) (m : cli_mem) (b : bool) (name : option cstr) (key : list mtype) (l : list cstr) : res uset :=
  bind (set_new name key) (fun u => add_texts pe (cm_heap m b) (cm_node m b) (cm_table m) 0 u l).

(** chain.c:263-324 bfc_chain_update_set. *)
Definition cli_update_set (pe : penv) (m : cli_mem) (o : opts) : prog (res unit) :=
  match o_adds o, o_removes o with
  | [], [] => Ret (Er EINVAL)
  | _, _ =>
  match o_name o with
  | None => Ret (Er EUB)
  | Some n =>
  rc <~ chain_get (cm_a m 0) n ;;
  match rc with
  | Er e => Ret (Er e)
  | Ok (c, _, _) =>
  match find_set (o_set_name o) 0 (nc_sets c) with
  | None => Ret (Er ENOENT)
  | Some (_, dest) =>
  match bind (delta pe m true (o_set_name o) (u_key dest) (o_adds o)) (fun a =>
        bind (delta pe m false (o_set_name o) (u_key dest) (o_removes o)) (fun r => Ok (a, r))) with
  | Er e => Ret (Er e)
  | Ok (a, r) => chain_update_set (cm_a m 1) (cm_a m 2) (cm_a m 3) (cm_a m 4) (cm_a m 5) n a r
  end end end end end.

(** opts.c:158-299, the functions of the commands, in chain.c and ruleset.c; what a
    command prints is left out.  With --dry-run nothing is called. *)
Definition named (o : opts) (f : name -> prog (res unit)) : prog (res unit) :=
  match o_name o with Some n => f n | None => Ret (Er EUB) end.
Definition quiet {A} (m : prog (res A)) : prog (res unit) := r <~ m ;; Ret (bind r (fun _ => Ok tt)).
Definition run_cmd (ce : cli_env) (files : cstr -> option cstr) (m : cli_mem) (ms : nat -> nat -> mem) (c : cmd) (o : opts) : prog (res unit) :=
  match c with
  | C_ruleset_set =>
      match ruleset_source ce files o with
      | Er e => Ret (Er e)
      | Ok l => if o_dry o then Ret (Ok tt) else ruleset_set (ms 0%nat) (ms 1%nat) (ms 2%nat) (map fst l) (map snd l)
      end
  | C_ruleset_get => quiet (ruleset_get (ms 0%nat))
  | C_ruleset_flush => ruleset_flush (ms 0%nat)
  | C_chain_set => with_source ce files o (fun x => chain_set (cm_a m 0) (cm_a m 1) (fst x) (snd x))
  | C_chain_load => with_source ce files o (fun x => chain_load (cm_a m 0) (fst x))
  | C_chain_update => with_source ce files o (fun x => chain_update (cm_a m 0) (cm_a m 1) (fst x))
  | C_chain_get => named o (fun n => quiet (chain_get (cm_a m 0) n))
  | C_chain_logs => named o (fun n => quiet (chain_logs_fd (cm_a m 0) n))
  | C_chain_attach => named o (fun n => chain_attach (cm_a m 0) n (o_hook o))
  | C_chain_update_set => cli_update_set (ce_pe ce) m o
  | C_chain_flush => named o (fun n => chain_flush (cm_a m 0) n)
  end.

(** main.c:36-61 and opts.c:698-854. *)
Definition bfcli (ce : cli_env) (files : cstr -> option cstr) (m : cli_mem) (ms : nat -> nat -> mem) (c : cmd) (args : list (option_id * cstr))
  : prog (res unit) :=
  match read_options c args with Er e => Ret (Er e) | Ok o => run_cmd ce files m ms c o end.
