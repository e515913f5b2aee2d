(** What a command line asks for, said without the loops of opts.c and chain.c. *)
From Coq Require Import String NArith ZArith List Bool Arith.
From Verif Require Import Bytes Types StrModel HookModel PackModel CliModel.
Import ListNotations.
Local Open Scope N_scope.

(** The arguments of an option, in order; the last one counts. *)
Definition args_of (k : option_id) (l : list (option_id * cstr)) : list cstr :=
  map snd (filter (fun a => if oid_eq_dec (fst a) k then true else false) l).
Definition last_arg (k : option_id) (l : list (option_id * cstr)) : option cstr := nth_error (rev (args_of k l)) 0.
Definition given (k : option_id) (l : list (option_id * cstr)) : Prop := exists a, In (k, a) l.

(** Which options go with which command. *)
Definition takes_source (c : cmd) : bool := match c with C_ruleset_set | C_chain_set | C_chain_load | C_chain_update => true | _ => false end.
Definition needs_name (c : cmd) : bool :=
  match c with C_chain_get | C_chain_logs | C_chain_attach | C_chain_flush | C_chain_update_set => true | _ => false end.
Definition on_chain (c : cmd) : bool := match c with C_ruleset_set | C_ruleset_get | C_ruleset_flush => false | _ => true end.
Definition taken (c : cmd) (k : option_id) : bool :=
  match k with
  | O_from_str | O_from_file | O_dry_run => takes_source c
  | O_name => on_chain c
  | O_option => match c with C_chain_attach => true | _ => false end
  | O_set_name | O_add | O_remove => match c with C_chain_update_set => true | _ => false end
  | O_no_set_content => match c with C_ruleset_get | C_chain_get => true | _ => false end
  end.
Definition acceptable (c : cmd) (l : list (option_id * cstr)) : Prop :=
  (forall k a, In (k, a) l -> taken c k = true) /\
  (forall k, In k [O_name; O_set_name; O_add; O_remove] -> ~ In (k, []) l) /\
  (exists h, parse_opts (fun _ => true) 0 hookopts_new (args_of O_option l) = Ok h) /\
  (takes_source c = true -> given O_from_str l \/ given O_from_file l) /\
  (needs_name c = true -> given O_name l) /\
  (c = C_chain_update_set -> given O_set_name l) /\
  ~ (given O_from_str l /\ given O_from_file l).
Record means_opts (l : list (option_id * cstr)) (o : opts) : Prop := mkMO {
  mo_given : forall k, In k (o_given o) <-> given k l;
  mo_str : o_str o = last_arg O_from_str l;
  mo_file : o_file o = last_arg O_from_file l;
  mo_name : o_name o = last_arg O_name l;
  mo_hook : parse_opts (fun _ => true) 0 hookopts_new (args_of O_option l) = Ok (o_hook o);
  mo_set : o_set_name o = last_arg O_set_name l;
  mo_adds : o_adds o = args_of O_add l;
  mo_removes : o_removes o = args_of O_remove l;
  mo_dry : o_dry o = true <-> given O_dry_run l;
  mo_brief : o_brief o = true <-> given O_no_set_content l }.

(** The chain that is meant: the only one, or the first one of that name. *)
Definition meant (name : option cstr) (l : list parsed) (x : parsed) : Prop :=
  match name with
  | None => l = [x]
  | Some n => exists before after, l = before ++ x :: after /\ nc_name (fst x) = n /\ forall y, In y before -> nc_name (fst y) <> n
  end.
(** The source of a command, and what it says. *)
Definition source_says (ce : RulesTextModel.cli_env) (files : cstr -> option cstr) (o : opts) (l : list parsed) : Prop :=
  exists s, (o_str o = Some s \/ (o_str o = None /\ exists f, o_file o = Some f /\ files f = Some s)) /\ LexModel.parse_text ce s = Ok l.
