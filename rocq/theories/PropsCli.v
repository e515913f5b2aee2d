(** C64: what a bfcli command does. *)
From Coq Require Import String NArith ZArith List Bool Arith Lia.
From Verif Require Import Bytes BytesFacts Types World GenModel StrModel StrSpec ParseModel HashModel SetModel SetSpec PackModel PackSpec NewFacts HookModel KernModel LockModel CtlModel SysSpec SeqFacts
  CtlSpec HistSpec UpdSpec SetTextModel SetTextSpec RulesTextModel RulesTextSpec LexModel LexSpec CliModel CliSpec CliFacts CliFacts2
  PropsPack PropsConc PropsSetText PropsRulesText PropsLex PropsCtl.
Import ListNotations.
Local Open Scope string_scope.
Local Open Scope list_scope.
Local Open Scope N_scope.

(** The command lines that are accepted, and what is made of them. *)
Theorem C64_options : forall c l, (exists o, read_options c l = Ok o) <-> acceptable c l.
Proof. intros c l. split; [intros (o & H); exact (proj1 (options_iff _ _ _ H))|apply options_accepted]. Qed.
Print Assumptions C64_options.
Theorem C64_fields : forall c l o, read_options c l = Ok o -> means_opts l o.
Proof. intros c l o H. exact (proj2 (options_iff _ _ _ H)). Qed.
Print Assumptions C64_fields.
(** The chain a source means. *)
Theorem C64_meant : forall n l x, pick n l = Ok x <-> meant n l x.
Proof. intros n l x. apply pick_iff. Qed.
Print Assumptions C64_meant.

(** A command line that is refused does nothing. *)
Theorem C64_refused : forall F p ce files m ms c args k r k', ~ acceptable c args -> ends F p (bfcli ce files m ms c args) k r k' ->
  k' = k /\ exists e, r = Er e.
Proof. intros *. apply refused_cmd. Qed.
Print Assumptions C64_refused.
(** chain set, load and update: the library is called once, on the chain that is meant;
    with --dry-run, or if there is no such chain, it is not called. *)
Theorem C64_source : forall F p ce files m ms c args k r k', (exists x, library_call m c x <> None) -> acceptable c args ->
  ends F p (bfcli ce files m ms c args) k r k' ->
  exists o, means_opts args o /\
  ((exists l x call, source_says ce files o l /\ meant (o_name o) l x /\ library_call m c x = Some call /\
      ((given O_dry_run args /\ r = Ok tt /\ k' = k) \/ (~ given O_dry_run args /\ ends F p call k r k'))) \/
   (k' = k /\ (exists e, r = Er e) /\ ~ exists l x, source_says ce files o l /\ meant (o_name o) l x)).
Proof. intros *. apply source_cmd. Qed.
Print Assumptions C64_source.
(** ruleset set: on all the chains of the source. *)
Theorem C64_ruleset : forall F p ce files m ms args k r k', acceptable C_ruleset_set args ->
  ends F p (bfcli ce files m ms C_ruleset_set args) k r k' ->
  exists o, means_opts args o /\
  ((exists l, source_says ce files o l /\
      ((given O_dry_run args /\ r = Ok tt /\ k' = k) \/
       (~ given O_dry_run args /\ ends F p (ruleset_set (ms 0%nat) (ms 1%nat) (ms 2%nat) (map fst l) (map snd l)) k r k'))) \/
   (k' = k /\ (exists e, r = Er e) /\ ~ exists l, source_says ce files o l)).
Proof. intros *. apply ruleset_cmd. Qed.
Print Assumptions C64_ruleset.
(** chain get, logs, attach and flush: the library is called on the chain of the last
    --name, with the options of all the --option. *)
Definition named_call (ce : cli_env) (m : cli_mem) (c : cmd) (n : name) (h : hookopts) : option (prog (res unit)) :=
  match c with
  | C_chain_get => Some (quiet (chain_get (cm_a m 0) n))
  | C_chain_logs => Some (quiet (chain_logs_fd (cm_a m 0) n))
  | C_chain_attach => Some (chain_attach (cm_a m 0) n h)
  | C_chain_flush => Some (chain_flush (cm_a m 0) n)
  | _ => None
  end.
Theorem C64_named : forall F p ce files m ms c args k r k', (exists n h, named_call ce m c n h <> None) -> acceptable c args ->
  ends F p (bfcli ce files m ms c args) k r k' ->
  exists n h call, last_arg O_name args = Some n /\ n <> [] /\ parse_opts (fun _ => true) 0 hookopts_new (args_of O_option args) = Ok h /\
    named_call ce m c n h = Some call /\ ends F p call k r k'.
Proof.
  intros F p ce files m ms c args k r k' NC AC H. destruct (options_accepted _ _ AC) as (o & RO). destruct (options_iff _ _ _ RO) as (_ & MO).
  unfold bfcli in H. rewrite RO in H. destruct AC as (_ & NE & _ & _ & A & _).
  assert (NN : needs_name c = true) by (destruct NC as (n0 & h0 & NC); destruct c; try reflexivity; cbn in NC; congruence).
  specialize (A NN). apply last_given in A. destruct (last_arg O_name args) as [n|] eqn:L; [|congruence].
  assert (NZ : n <> []).
  { intros ->. apply (NE O_name (or_introl eq_refl)). unfold last_arg in L. apply nth_error_In in L. apply in_rev in L.
    unfold args_of in L. apply in_map_iff in L. destruct L as ((j & b) & Q & L). apply filter_In in L. cbn in *. destruct L as (L & D). subst b.
    destruct (oid_eq_dec j O_name); [subst; exact L|discriminate]. }
  exists n, (o_hook o). pose proof (mo_name _ _ MO) as MN. rewrite L in MN. pose proof (mo_hook _ _ MO) as MH.
  destruct NC as (n0 & h0 & NC). destruct c; cbn in NC; try congruence; cbn [run_cmd named named_call] in *; unfold named in H; rewrite MN in H;
    (eexists; split; [reflexivity|]; split; [exact NZ|]; split; [exact MH|]; split; [reflexivity|exact H]).
Qed.
Print Assumptions C64_named.
(** chain update-set: the chain is read; the first set of that name gives the key in which
    the elements are read; the library is called with the two sets of them. *)
Theorem C64_update_set : forall F p ce files m ms args k r k', acceptable C_chain_update_set args -> penv_ok (ce_pe ce) -> (forall b, heap_ok (cm_heap m b)) ->
  ends F p (bfcli ce files m ms C_chain_update_set args) k r k' ->
  exists n s, last_arg O_name args = Some n /\ last_arg O_set_name args = Some s /\
  ((k' = k /\ r = Er EINVAL /\ args_of O_add args = [] /\ args_of O_remove args = []) \/
   (exists rc k1, ends F p (chain_get (cm_a m 0) n) k rc k1 /\
     ((k' = k1 /\ exists e, r = Er e) \/
      exists c cs ho j dest add del ea er, rc = Ok (c, cs, ho) /\
        nth_error (nc_sets c) j = Some dest /\ u_name dest = Some s /\
        (forall i u, (i < j)%nat -> nth_error (nc_sets c) i = Some u -> u_name u <> Some s) /\
        Forall2 (element (ce_pe ce) (u_key dest)) (args_of O_add args) ea /\ set_is add (Some s) (u_key dest) ea /\
        Forall2 (element (ce_pe ce) (u_key dest)) (args_of O_remove args) er /\ set_is del (Some s) (u_key dest) er /\
        ends F p (chain_update_set (cm_a m 1) (cm_a m 2) (cm_a m 3) (cm_a m 4) (cm_a m 5) n add del) k1 r k'))).
Proof. intros *. apply update_set_cmd. Qed.
Print Assumptions C64_update_set.

(** From the characters of the argument to what the kernel filters with: chain set
    --from-str. *)
Theorem C64_set_from_text_partial : forall F p ce files m ms args k k' s asts, history no_update k -> ce_ok ce -> acceptable C_chain_set args ->
  ~ given O_dry_run args -> last_arg O_from_str args = Some s -> Forall chain_spelled asts -> laid_out (concat (map s_chain asts)) s ->
  ends F p (bfcli ce files m ms C_chain_set args) k (Ok tt) k' ->
  exists before a after c opt, asts = before ++ a :: after /\ chain_written (ce_pe ce) a (c, opt) /\ nc_name c = ac_name a /\
    match last_arg O_name args with
    | None => before = [] /\ after = []
    | Some n => ac_name a = n /\ forall b, In b before -> ac_name b <> n
    end /\
    (usual c -> hook_flavor (c_hook (nc_chain c)) <> F_CGROUP_SKB -> hook_flavor (c_hook (nc_chain c)) <> F_SOCK_ADDR ->
     exists i hd, ent_find (ac_name a) (k_ents k') = Some i /\ holds_chain k' i c hd /\ desc_opts hd = opt).
Proof.
  intros F p ce files m ms args k k' s asts HI CE AC ND LS SP LO H.
  assert (LC0 : exists x, library_call m C_chain_set x <> None) by (exists (mkNC [] [] (mkC H_XDP V_ACCEPT [] [] false false false), None); discriminate).
  destruct (source_cmd F p ce files m ms C_chain_set args k (Ok tt) k' LC0 AC H) as (o & MO & [(l & x & call & SS & ME & LC & C)|(_ & (e & Q) & _)]); [|discriminate Q].
  destruct C as [(D & _)|(_ & E)]; [contradiction|]. cbn [library_call] in LC. injection LC as <-.
  assert (PT : parse_text ce s = Ok l).
  { destruct SS as (t & [Q|(Q & _)] & P); rewrite (mo_str _ _ MO), LS in Q; [injection Q as ->; exact P|discriminate Q]. }
  pose proof (C62_reads ce asts s l CE SP LO PT) as CW.
  assert (NM : forall a y, chain_written (ce_pe ce) a y -> nc_name (fst y) = ac_name a).
  { intros a y (h & v & sets & rules & _ & _ & _ & _ & N & _). unfold nchain_new in N. binv N. binv N. apply Ok_inj in N. rewrite <- N. reflexivity. }
  assert (SPLIT : forall b z aft, l = b ++ z :: aft -> exists B a A, asts = B ++ a :: A /\ Forall2 (chain_written (ce_pe ce)) B b /\
            chain_written (ce_pe ce) a z /\ Forall2 (chain_written (ce_pe ce)) A aft).
  { intros b z aft ->. apply Forall2_app_inv_r in CW. destruct CW as (B & R & F1 & F2 & ->). inversion F2; subst. eauto 10. }
  destruct x as (c, opt). cbn [fst snd] in *.
  assert (FIN : forall B a A, asts = B ++ a :: A -> chain_written (ce_pe ce) a (c, opt) ->
    match last_arg O_name args with None => B = [] /\ A = [] | Some n => ac_name a = n /\ forall b, In b B -> ac_name b <> n end ->
    exists before a after c opt, asts = before ++ a :: after /\ chain_written (ce_pe ce) a (c, opt) /\ nc_name c = ac_name a /\
    match last_arg O_name args with
    | None => before = [] /\ after = []
    | Some n => ac_name a = n /\ forall b, In b before -> ac_name b <> n
    end /\
    (usual c -> hook_flavor (c_hook (nc_chain c)) <> F_CGROUP_SKB -> hook_flavor (c_hook (nc_chain c)) <> F_SOCK_ADDR ->
     exists i hd, ent_find (ac_name a) (k_ents k') = Some i /\ holds_chain k' i c hd /\ desc_opts hd = opt)).
  { intros B a A Q W M. exists B, a, A, c, opt. split; [exact Q|]. split; [exact W|]. split; [exact (NM _ _ W)|]. split; [exact M|].
    intros U H1 H2. pose proof (NM _ _ W) as N. cbn [fst] in N. rewrite <- N. exact (C50_set_attaches_partial _ _ _ _ _ _ _ _ HI U E H1 H2). }
  unfold meant in ME. rewrite (mo_name _ _ MO) in ME. destruct (last_arg O_name args) as [n|] eqn:LN.
  - destruct ME as (b & aft & -> & N & NB). destruct (SPLIT b (c, opt) aft eq_refl) as (B & a & A & Q & F1 & W & F2). cbn [fst] in N.
    apply (FIN B a A Q W). split; [rewrite <- (NM _ _ W); exact N|].
    intros a' I. apply In_nth_error in I. destruct I as (j & I).
    assert (exists y, nth_error b j = Some y /\ chain_written (ce_pe ce) a' y) as (y & Y1 & Y2).
    { clear -F1 I. revert j I. induction F1; intros [|j] I; cbn in *; try discriminate; [injection I as ->; eauto|eauto]. }
    rewrite <- (NM _ _ Y2). apply NB. eapply nth_error_In; exact Y1.
  - subst l. destruct (SPLIT [] (c, opt) [] eq_refl) as (B & a & A & Q & F1 & W & F2). apply (FIN B a A Q W).
    inversion F1; inversion F2; subst; auto.
Qed.
Print Assumptions C64_set_from_text_partial.

(** *** Examples *)
Definition ex_cm : cli_mem := mkCM (fun n => mkMem (fun i j => Some (1000 * n + 10 * i + j)%nat) (fun _ => true)) (fun _ => ex_heap) (fun _ i => Some i) (fun _ => true).
Definition ex_cli (c : cmd) (args : list (option_id * cstr)) : prog (res unit) := bfcli ex_ce (fun f => if bytes_eqb f (lit "rules") then Some ex_source else None) ex_cm (fun _ _ => ex_mem) c args.
Definition ex_set_args : list (option_id * cstr) := [(O_from_str, ex_source); (O_name, lit "web")].
Definition ex_cli1 : kst := snd (solo 1 (ex_cli C_chain_set ex_set_args) ex_k0).
Definition ex_edit_args : list (option_id * cstr) := [(O_add, lit "81"); (O_name, lit "web"); (O_remove, lit "80"); (O_set_name, lit "ports")].
Definition ex_cli2 : kst := snd (solo 1 (ex_cli C_chain_update_set ex_edit_args) (closed 1 ex_cli1)).
Example C64_ex_set : acceptable C_chain_set ex_set_args /\ ends no_fault 1 (ex_cli C_chain_set ex_set_args) ex_k0 (Ok tt) ex_cli1 /\
  map fst (k_ents ex_cli1) = [lit "web"].
Proof.
  split; [apply C64_options; eexists; vm_compute; reflexivity|]. split; [|vm_compute; reflexivity].
  assert (Y : fst (solo 1 (ex_cli C_chain_set ex_set_args) ex_k0) = Ok tt) by (vm_compute; reflexivity).
  rewrite <- Y. unfold ex_cli1. apply solo_ends.
Qed.
Example C64_ex_edit : acceptable C_chain_update_set ex_edit_args /\
  ends no_fault 1 (ex_cli C_chain_update_set ex_edit_args) (closed 1 ex_cli1) (Ok tt) ex_cli2 /\
  match fst (solo 2 (chain_get ex_mem (lit "web")) (closed 1 ex_cli2)) with
  | Ok (c, _, _) => map set_read (nc_sets c) = [Ok [[1; 187]; [0; 81]]; Ok [[10; 0; 0; 2]]]
  | Er _ => False
  end.
Proof.
  split; [apply C64_options; eexists; vm_compute; reflexivity|]. split; [|vm_compute; reflexivity].
  assert (Y : fst (solo 1 (ex_cli C_chain_update_set ex_edit_args) (closed 1 ex_cli1)) = Ok tt) by (vm_compute; reflexivity).
  rewrite <- Y. unfold ex_cli2. apply solo_ends.
Qed.
(** A dry run, a file, a file that is not there, a chain that is not in the source. *)
Example C64_ex_more :
  solo 1 (ex_cli C_chain_set ((O_dry_run, []) :: ex_set_args)) ex_k0 = (Ok tt, ex_k0) /\
  fst (solo 1 (ex_cli C_ruleset_set [(O_from_file, lit "rules")]) ex_k0) = Ok tt /\
  solo 1 (ex_cli C_chain_load [(O_from_file, lit "rule")]) ex_k0 = (Er ENOENT, ex_k0) /\
  solo 1 (ex_cli C_chain_load [(O_from_file, lit "rules"); (O_name, lit "ssh")]) ex_k0 = (Er ENOENT, ex_k0).
Proof. repeat split; vm_compute; reflexivity. Qed.
Example C64_ex_refused : ~ acceptable C_chain_set [(O_from_file, lit "rules"); (O_from_str, ex_source)] /\ ~ acceptable C_chain_flush [] /\
  ~ acceptable C_chain_set [(O_name, lit "web")] /\ ~ acceptable C_ruleset_flush [(O_name, lit "web")] /\ ~ acceptable C_chain_get [(O_name, [])].
Proof. repeat split; rewrite <- C64_options; intros (o & H); vm_compute in H; discriminate H. Qed.
