(** C13, C36-C39: set maps and pieces of generated code. *)
From Coq Require Import NArith ZArith List Bool Lia.
From Verif Require Import Bytes Types World BpfModel GenModel PktSpec ViewSpec Wf WfDec ViewModel ProgThm EvalSpec Deploy ChainSpec
  MapModel MapFacts JumpSpec JumpFacts FitsFacts LongRule CodeSpec CodeFacts DeployFacts ChainFacts Fixtures.
Import ListNotations.
Local Open Scope N_scope.

(** *** C13: sets sharing a map do not interfere *)
(** Set number [i] of the chain gets a map and a bit.  That bit of the value stored for
    a key is set exactly for the elements of set [i], whatever the other sets; keys are
    stored once. *)
Theorem C13_bits_are_membership : forall sets i s,
  Forall wf_set sets -> nth_error sets i = Some s -> s_elems s <> [] ->
  exists g b grp els,
    find_set i (build_groups sets) 0 = Some (g, b) /\ nth_error (build_groups sets) g = Some grp /\ nth_error grp b = Some i /\
    load_map sets grp = (s_trie s, s_esize s, els) /\ NoDup (map fst els) /\
    (forall key v, In (key, v) els -> (b / 8 < length v)%nat) /\
    (forall key, In key (s_elems s) <->
       exists v, In (key, v) els /\ N.testbit (nth (b / 8)%nat v 0) (N.of_nat (b mod 8)%nat) = true).
Proof. exact map_bits. Qed.
Print Assumptions C13_bits_are_membership.

(** No two sets share a bit of a map. *)
Theorem C13_one_bit_per_set : forall sets i j g b,
  find_set i (build_groups sets) 0 = Some (g, b) -> find_set j (build_groups sets) 0 = Some (g, b) -> i = j.
Proof. exact slots_differ. Qed.
Print Assumptions C13_one_bit_per_set.

(** The maps the packet theorems (C11, C12) assume are the ones the loader builds. *)
Theorem C13_loader_builds_the_maps : forall sets g, load_map sets g = group_map sets g.
Proof. exact load_map_is_group_map. Qed.
Print Assumptions C13_loader_builds_the_maps.

Definition ex_sets9 : list bset :=
  map (fun k => mkS [M_TCP_DPORT] 2 false [[0; k]; [1; k]; [2; 2]]) [1;2;3;4;5;6;7;8;9].
Example C13_case : forallb wf_setb ex_sets9 = true /\
  find_set 8 (build_groups ex_sets9) 0 = Some (0, 8)%nat /\
  load_map ex_sets9 [0;1;2;3;4;5;6;7;8]%nat =
  (false, 2%nat, [([0;1],[1;0]); ([1;1],[1;0]); ([2;2],[255;1]); ([0;2],[2;0]); ([1;2],[2;0]); ([0;3],[4;0]); ([1;3],[4;0]);
    ([0;4],[8;0]); ([1;4],[8;0]); ([0;5],[16;0]); ([1;5],[16;0]); ([0;6],[32;0]); ([1;6],[32;0]); ([0;7],[64;0]); ([1;7],[64;0]);
    ([0;8],[128;0]); ([1;8],[128;0]); ([0;9],[0;1]); ([1;9],[0;1])]).
Proof. vm_compute. auto. Qed.

(** *** C36: the protocol switch *)
(** In any program, a switch on a register holding [x] runs the chosen body, then goes
    on after the switch.  Proved for switches with a default body; missing: switches
    without one, for which the property fails (next theorem).  All the switches of the
    generator have a default. *)
Theorem C36_switch_partial : forall e pre post r opts d x b s s',
  rg s r = VN x -> Forall (fun o => fst o < two31) opts -> (Z.of_nat (length (swich r opts (Some d))) < 32768)%Z ->
  chosen x d opts b -> straight e b s s' ->
  exists n, forall fuel,
    run e (pre ++ resolve (swich r opts (Some d)) ++ post) (n + fuel) (Z.of_nat (length pre)) s =
    run e (pre ++ resolve (swich r opts (Some d)) ++ post) fuel (Z.of_nat (length pre + length (swich r opts (Some d)))) s'.
Proof. exact swich_run. Qed.
Print Assumptions C36_switch_partial.

Definition ex_opts : list (N * list insn) := [(6, [Alu true AMov R4 (Im 20)]); (17, [Alu true AMov R4 (Im 8)])].
Example C36_case : chosen 17 [Alu true AMov R8 (Im 0)] ex_opts [Alu true AMov R4 (Im 8)] /\
  chosen 5 [Alu true AMov R8 (Im 0)] ex_opts [Alu true AMov R8 (Im 0)] /\
  Forall (fun o => fst o < two31) ex_opts /\
  (forall e s, straight e [Alu true AMov R4 (Im 8)] s (setr s R4 (VN 8))).
Proof.
  split; [|split; [|split]].
  - apply ch_later; [discriminate|]. apply ch_here.
  - apply ch_later; [discriminate|]. apply ch_later; [discriminate|]. apply ch_default.
  - repeat constructor.
  - intros e s. eapply st_cons; [reflexivity|]. apply st_nil.
Qed.

(** Without a default body, a value that no option has runs the first option's body
    (swich.c:168-208 emits nothing between the tests and the first body). *)
Theorem C36_switch_without_default_refuted : exists e r opts x s s', rg s r = VN x /\
  (forall o, In o opts -> fst o <> x) /\ s' <> s /\ rg s' R4 <> rg s R4 /\
  forall fuel, run e (resolve (swich r opts None)) (5 + fuel) 0 s = run e (resolve (swich r opts None)) (2 + fuel) (Z.of_nat (length (swich r opts None))) s'.
Proof.
  exists (ex_env ex_chain ex_pkt 3 0), R8, ex_opts, 5, (setr (start w_nil) R8 (VN 5)), (setr (setr (start w_nil) R8 (VN 5)) R4 (VN 20)).
  split; [reflexivity|]. split.
  { intros o [<-|[<-|[]]]; discriminate. }
  assert (D : rg (setr (setr (start w_nil) R8 (VN 5)) R4 (VN 20)) R4 <> rg (setr (start w_nil) R8 (VN 5)) R4) by (cbn; discriminate).
  split; [intros E; apply D; rewrite E; reflexivity|]. split; [exact D|]. intros fuel. reflexivity.
Qed.
Print Assumptions C36_switch_without_default_refuted.

(** *** C37: termination, jumps *)
Theorem C37_terminates : forall c prog e, deployed c prog e -> forall w,
  exists k w3, run e prog (length prog) 0 (start w) = Done k w3.
Proof. intros c prog e D w. destruct (deployed_run c prog e D w) as (k & w3 & R & _). exists k, w3. exact R. Qed.
Print Assumptions C37_terminates.

(** Proved for rules of at most 100 matchers; missing: longer rules, for which the
    property fails (next theorem). *)
Theorem C37_jumps_inside_partial : forall c prog,
  wf_chain c -> (forall r, In r (c_rules c) -> (length (r_matchers r) <= 100)%nat) -> gen_program c = Ok prog ->
  jumps_inside prog.
Proof. intros c prog W L G. apply (program_jumps c); auto. apply fits_100; auto. apply (wc_sets _ W). Qed.
Print Assumptions C37_jumps_inside_partial.

Example C37_case : wf_chain ex_chain /\ (forall r, In r (c_rules ex_chain) -> (length (r_matchers r) <= 100)%nat) /\
  gen_program ex_chain = Ok ex_prog /\ (length ex_prog > 100)%nat /\ existsb (fun i => match jump_offset i with Some _ => true | None => false end) ex_prog = true.
Proof.
  pose proof ex_is_deployed as D. split; [exact (dp_chain _ _ _ D)|]. split; [exact (dp_small _ _ _ D)|]. split; [exact (dp_gen _ _ _ D)|].
  split; [|vm_compute; reflexivity]. apply Nat.ltb_lt. vm_compute. reflexivity.
Qed.

(** Finding F7: in a rule with 9001 matchers, the first guard jumps backwards. *)
Theorem C37_jumps_of_long_rules_refuted : exists c prog, wf_chain c /\ gen_program c = Ok prog /\ ~ jumps_inside prog.
Proof. exact long_jump. Qed.
Print Assumptions C37_jumps_of_long_rules_refuted.

(** *** C38: byte-exact copies into the key *)
(** In any program, the code that copies [size] bytes found at [src] in a header (R6
    points to [ln] bytes of the packet, from [a] on) to byte [o] of the key changes
    these [size] bytes of the stack and register R1, and nothing else. *)
Theorem C38_copy : forall e s a ln src size o pre post,
  bytes (e_pkt e) -> (N.to_nat a + N.to_nat ln <= length (e_pkt e))%nat -> (src + size <= N.to_nat ln)%nat ->
  (0 <= o)%Z -> (o + Z.of_nat size <= 64)%Z -> rg s R6 = VPkt a ln -> rg s R10 = VStk 0 ->
  let code := stub_load size (Z.of_nat src) (scr_off o) size in
  exists n s', (forall fuel, run e (pre ++ resolve code ++ post) (n + fuel) (Z.of_nat (length pre)) s =
                             run e (pre ++ resolve code ++ post) fuel (Z.of_nat (length pre + length code)) s') /\
    (forall i, (i < size)%nat -> stk s' (scr_off o + Z.of_nat i)%Z = MB (nth (N.to_nat a + src + i) (e_pkt e) 0)) /\
    (forall z, (z < scr_off o \/ scr_off o + Z.of_nat size <= z)%Z -> stk s' z = stk s z) /\
    wd s' = wd s /\ (forall r, r <> R1 -> rg s' r = rg s r).
Proof. exact copy_packet. Qed.
Print Assumptions C38_copy.

(** Every matcher type that may be part of a set key is copied by that code. *)
Example C38_key_code : forall t rest o, gen_set_key (t :: rest) o =
  bind (load_header (meta_of t) R6) (fun h =>
  bind (gen_set_key rest (o + mt_size (meta_of t))) (fun r =>
  Ok (h ++ stub_load (mt_size (meta_of t)) (Z.of_nat (mt_off (meta_of t))) (scr_off (Z.of_nat o)) (mt_size (meta_of t)) ++ r))).
Proof. reflexivity. Qed.

Example C38_case : bytes (e_pkt (ex_env ex_chain ex_pkt 3 0)) /\ (N.to_nat 14 + N.to_nat 20 <= length (e_pkt (ex_env ex_chain ex_pkt 3 0)))%nat /\
  length (stub_load 7 12 (scr_off 2) 7) = 8%nat /\ length (stub_load 16 8 (scr_off 0) 16) = 4%nat.
Proof.
  split; [|split; [|split]]; try (vm_compute; reflexivity).
  - apply bytesb_ok. vm_compute. reflexivity.
  - apply Nat.leb_le. vm_compute. reflexivity.
Qed.

(** *** C39: flow probability *)
(** The decision is a threshold on a 32-bit hash of the packet's flow. *)
Theorem C39_threshold : forall c prog e m v,
  deployed c prog e -> tests c m -> view_of e c = Some v -> m_type m = M_FLOW_PROBABILITY ->
  exists t, prob_threshold (m_pay m) = Some t /\ forall w,
    drops_when c e prog w (present v M_FLOW_PROBABILITY && xorb (m_neg m) (v_fhash v <=? t)).
Proof. exact one_flow. Qed.
Print Assumptions C39_threshold.

(** Packets of the same flow get the same decision, whatever else differs in them, at
    any time, in any environment. *)
Theorem C39_stable_per_flow : forall c prog e e' m v v',
  deployed c prog e -> deployed c prog e' -> tests c m -> view_of e c = Some v -> view_of e' c = Some v' ->
  m_type m = M_FLOW_PROBABILITY -> same_flow v v' ->
  exists b, forall w w', drops_when c e prog w b /\ drops_when c e' prog w' b.
Proof. exact flow_stable. Qed.
Print Assumptions C39_stable_per_flow.

(** Two TCP segments of one flow that differ in TOS, flags and interface. *)
Definition ex_flow_m : matcher := mkM M_FLOW_PROBABILITY OP_EQ false [0;0;72;66].
Definition ex_seg : list N := ex_eth [8;0] ++ ex_ip4 0 6 [10;0;0;1] [192;168;7;7] ++ ex_tcp [4;0] [1;187] 16.
Example C39_case : one_case H_XDP [] ex_flow_m ex_pkt 3 0 1 /\ one_case H_XDP [] ex_flow_m ex_seg 9 0 1 /\
  one_case H_XDP [] ex_flow_m (ex_tcp4 [10;0;0;1] [192;168;7;7] [4;0] [1;189] 2) 3 0 2 /\
  exists v v', view_of (ex_env (ex_one H_XDP [] ex_flow_m) ex_pkt 3 0) (ex_one H_XDP [] ex_flow_m) = Some v /\
    view_of (ex_env (ex_one H_XDP [] ex_flow_m) ex_seg 9 0) (ex_one H_XDP [] ex_flow_m) = Some v' /\ same_flow v v'.
Proof.
  split; [apply one_case_ok; vm_compute; reflexivity|]. split; [apply one_case_ok; vm_compute; reflexivity|].
  split; [apply one_case_ok; vm_compute; reflexivity|].
  destruct (view_of (ex_env (ex_one H_XDP [] ex_flow_m) ex_pkt 3 0) (ex_one H_XDP [] ex_flow_m)) as [v|] eqn:E; [|vm_compute in E; discriminate].
  destruct (view_of (ex_env (ex_one H_XDP [] ex_flow_m) ex_seg 9 0) (ex_one H_XDP [] ex_flow_m)) as [v'|] eqn:E'; [|vm_compute in E'; discriminate].
  exists v, v'. split; [reflexivity|]. split; [reflexivity|].
  vm_compute in E, E'. injection E as <-. injection E' as <-. constructor; try reflexivity.
  - intros t [<-|[<-|[<-|[<-|[]]]]] H; try discriminate H; reflexivity.
  - intros H. discriminate H.
Qed.
