(** chain.c: construction and validation of chains. *)
From Coq Require Import NArith ZArith List Bool.
From Verif Require Import Bytes Types World BpfModel GenModel.
Import ListNotations.
Local Open Scope N_scope.
Local Open Scope res_scope.

(** enum values, hook.h:31-48 and verdict.h:45-63; None: not a value of the enum. *)
Definition hooks : list hook :=
  [H_XDP; H_TC_INGRESS; H_NF_PRE_ROUTING; H_NF_LOCAL_IN; H_NF_FORWARD; H_CGROUP_SKB_INGRESS; H_CGROUP_SKB_EGRESS;
   H_NF_LOCAL_OUT; H_NF_POST_ROUTING; H_TC_EGRESS; H_CONNECT4; H_CONNECT6; H_SENDMSG4; H_SENDMSG6].
Definition hook_of_id (n : N) : option hook := nth_error hooks (N.to_nat n).

Definition verdicts : list verdict := [V_ACCEPT; V_DROP; V_CONTINUE; V_REDIRECT; V_NEXT].
Definition verdict_of_id (n : N) : option verdict := nth_error verdicts (N.to_nat n).

(** verdict.c:71-81 bf_verdict_is_valid_policy. *)
Definition valid_policy (v : verdict) : bool :=
  match v with V_ACCEPT | V_DROP | V_NEXT => true | _ => false end.

(** chain.c:33-61 _bf_rule_references_empty_set. *)
Fixpoint references_empty (sets : list bset) (ms : list matcher) : res bool :=
  match ms with
  | [] => Ok false
  | m :: r =>
      match m_type m with
      | M_SET =>
          match set_of sets m with
          | None => Er EINVAL
          | Some s => match s_elems s with [] => Ok true | _ => references_empty sets r end
          end
      | _ => references_empty sets r
      end
  end.

(** chain.c:70-97 _bf_rule_check_layer.  The tracking array has one slot per layer;
    UINT32_MAX is None.  The result tells whether the type is incompatible. *)
Definition check_layer (t : mtype) (tr : option N * option N) : bool * (option N * option N) :=
  let mt := meta_of t in
  match mt_layer mt with
  | L_NONE => (false, tr)
  | L_3 => match fst tr with
           | None => (false, (Some (mt_hdr mt), snd tr))
           | Some h => (negb (h =? mt_hdr mt), tr)
           end
  | L_4 => match snd tr with
           | None => (false, (fst tr, Some (mt_hdr mt)))
           | Some h => (negb (h =? mt_hdr mt), tr)
           end
  end.

(** The component loop, chain.c:139-140. *)
Fixpoint check_layers (ts : list mtype) (tr : option N * option N) : bool * (option N * option N) :=
  match ts with
  | [] => (false, tr)
  | t :: r => let '(b, tr') := check_layer t tr in if b then (true, tr') else check_layers r tr'
  end.

(** chain.c:113-157 _bf_rule_has_incompatible_matchers. *)
Fixpoint has_incompatible (sets : list bset) (ms : list matcher) (tr : option N * option N) : res bool :=
  match ms with
  | [] => Ok false
  | m :: r =>
      ts <- match m_type m with
            | M_SET => match set_of sets m with Some s => Ok (s_key s) | None => Er ENOENT end
            | t => Ok [t]
            end ;
      let '(b, tr') := check_layers ts tr in
      if b then Ok true else has_incompatible sets r tr'
  end.

Record cflags := mkF { f_log : bool; f_nexthdr : bool; f_rate : bool }.

Definition with_disabled (r : rule) (b : bool) : rule :=
  mkR (r_index r) (r_matchers r) (r_log r) (r_log_rate r) (r_mark r) (r_counters r) b
      (r_verdict r) (r_rd_ifindex r) (r_rd_dir r).
Definition with_index (r : rule) (i : N) : rule :=
  mkR i (r_matchers r) (r_log r) (r_log_rate r) (r_mark r) (r_counters r) (r_disabled r)
      (r_verdict r) (r_rd_ifindex r) (r_rd_dir r).

(** chain.c:199-250: the matcher loop of _bf_chain_check_rule. *)
Fixpoint check_matchers (h : hook) (sets : list bset) (disabled : bool) (ms : list matcher) (nh : bool) : res bool :=
  match ms with
  | [] => Ok nh
  | m :: r =>
      let nh := nh || (match m_type m with M_IP6_NEXTHDR => negb disabled | _ => false end) in
      if unsupported (m_type m) h then Er ENOTSUP
      else
        match m_type m with
        | M_SET =>
            match set_of sets m with
            | None => Er ENOENT
            | Some s => if existsb (fun t => unsupported t h) (s_key s) then Er ENOTSUP
                        else check_matchers h sets disabled r nh
            end
        | _ => check_matchers h sets disabled r nh
        end
  end.

(** runtime.h:96 BF_LOG_OPT_DEFAULT. *)
Definition LOG_OPT_DEFAULT : N := 255.

(** chain.c:159-253 _bf_chain_check_rule. *)
Definition check_rule (h : hook) (sets : list bset) (fl : cflags) (r : rule) : res (rule * cflags) :=
  e <- references_empty sets (r_matchers r) ;
  d <- (if e then Ok true else has_incompatible sets (r_matchers r) (None, None)) ;
  let r := with_disabled r d in
  if negb (r_log r =? 0) && negb (r_log r =? LOG_OPT_DEFAULT) && is_sock_addr h then Er ENOTSUP
  else
    let flog := f_log fl || (negb (r_log r =? 0) && negb d) in
    let frate := f_rate fl || (negb (r_log r =? 0) && negb (r_log_rate r =? 0) && negb d) in
    if mark_is_set r && negb (match hook_flavor h with F_TC | F_CGROUP_SKB => true | _ => false end) then Er EINVAL
    else
      nh <- check_matchers h sets d (r_matchers r) (f_nexthdr fl) ;
      Ok (r, mkF flog nh frate).

(** chain.c:286-294: the rule loop of bf_chain_new. *)
Fixpoint check_rules (h : hook) (sets : list bset) (fl : cflags) (idx : N) (rs : list rule) : res (list rule * cflags) :=
  match rs with
  | [] => Ok ([], fl)
  | r :: rest =>
      a <- check_rule h sets fl (with_index r idx) ;
      b <- check_rules h sets (snd a) (idx + 1) rest ;
      Ok (fst a :: fst b, snd b)
  end.

(** chain.c:255-299 bf_chain_new (without the name and the allocations). *)
Definition chain_new (hook_id policy_id : N) (sets : list bset) (rs : list rule) : res chain :=
  match hook_of_id hook_id with
  | None => Er EINVAL
  | Some h =>
      match verdict_of_id policy_id with
      | None => Er EINVAL
      | Some p =>
          if valid_policy p then
            a <- check_rules h sets (mkF false false false) 0 rs ;
            Ok (mkC h p sets (fst a) (f_log (snd a)) (f_nexthdr (snd a)) (f_rate (snd a)))
          else Er EINVAL
      end
  end.

(** chain.c:428-441 bf_chain_add_rule. *)
Definition chain_add_rule (c : chain) (r : rule) : res chain :=
  a <- check_rule (c_hook c) (c_sets c) (mkF (c_log c) (c_nexthdr c) (c_ratelimit c)) (with_index r (n_rules c)) ;
  Ok (mkC (c_hook c) (c_policy c) (c_sets c) (c_rules c ++ [fst a]) (f_log (snd a)) (f_nexthdr (snd a)) (f_rate (snd a))).

(** chain.c:443-448 bf_chain_add_set. *)
Definition chain_add_set (c : chain) (s : bset) : chain :=
  mkC (c_hook c) (c_policy c) (c_sets c ++ [s]) (c_rules c) (c_log c) (c_nexthdr c) (c_ratelimit c).
