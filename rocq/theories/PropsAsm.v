(** C63: everything a program refers to is what the reference was written for. *)
From Coq Require Import ZArith NArith String List Lia Bool.
From Verif Require Import Bytes Types World BpfModel GenModel Frag AsmModel AsmSpec AsmFacts AsmFacts2 AsmFacts3 AsmFacts4 AsmFacts5 AsmFacts6 AsmFacts7 Fixtures.
Import ListNotations.
Open Scope res_scope.

(** Whatever was emitted, in whatever order: every instruction of the image is
    itself, the jump to the end of its own rule, the load of its own map, a call
    of the first instruction of its own stub - which is there in full - or the
    place or length of its own message. *)
Theorem C63_linked : forall E junk l img buf, link E junk l = Ok (img, buf) ->
  (forall id st, e_stub E id = Some st -> loads_apart st) ->
  (Z.of_nat (length img) < 2147483648)%Z -> (Z.of_nat (length buf) < 2147483648)%Z ->
  forall i r, nth_error (layout l) i = Some r ->
    exists w, nth_error img i = Some w /\ means E buf img i r w.
Proof. exact linked_means. Qed.
Print Assumptions C63_linked.

(** The program of C01 to C13 is, instruction for instruction, what the kernel
    is given. *)
Theorem C63_program : forall enc c prog E junk l img buf,
  jumps_encoded enc -> gen_program c = Ok prog -> chain_script enc c = Ok l ->
  link E junk l = Ok (img, buf) ->
  (forall id st, e_stub E id = Some st -> loads_apart st) ->
  (Z.of_nat (length img) < 2147483648)%Z -> (Z.of_nat (length buf) < 2147483648)%Z ->
  forall i x, nth_error prog i = Some x ->
    exists w, nth_error img i = Some w /\ carried E enc buf img i x w.
Proof. exact program_linked. Qed.
Print Assumptions C63_program.

(** A stub that is called is there once: the image is its own instructions and
    one copy of each, and all calls of a stub go to that copy. *)
Theorem C63_once : forall E junk l img buf, link E junk l = Ok (img, buf) ->
  (forall id st, e_stub E id = Some st -> loads_apart st) ->
  (Z.of_nat (length img) < 2147483648)%Z -> (Z.of_nat (length buf) < 2147483648)%Z ->
  (exists ids, NoDup ids /\ (forall id, In id ids <-> In (R_call id) (layout l))
     /\ length img = length (layout l) + list_sum (map (stub_size E) ids))
  /\ (exists place, forall i id, nth_error (layout l) i = Some (R_call id) ->
        nth_error img i = Some (set_imm call_rel (Z.of_nat (place id) - Z.of_nat i - 1))
        /\ length (layout l) <= place id
        /\ exists st, e_stub E id = Some st /\ stub_at E buf img (place id) st).
Proof. exact link_once. Qed.
Print Assumptions C63_once.

(** It is put together whenever the references exist and the jumps fit, and is
    then no longer than its own instructions and a stub per call. *)
Theorem C63_links : forall E junk l,
  (forall r, In r (layout l) -> ready E r) ->
  (forall id st, e_stub E id = Some st -> loads_apart st) ->
  e_fd E M_printer <> None ->
  (Z.of_nat (at_most E l) < 2147483648)%Z ->
  exists img buf, link E junk l = Ok (img, buf) /\ (length img <= at_most E l)%nat.
Proof. exact link_total. Qed.
Print Assumptions C63_links.

(** What memory held before never shows in the printer map. *)
Theorem C63_memory : forall E junk junk' l, link E junk l = link E junk' l.
Proof. exact link_junk. Qed.
Print Assumptions C63_memory.

(** A rule whose code is longer than 32767 instructions is not refused: with
    assertions the daemon aborts. *)
Theorem C63_far_refuted :
  ~ (forall E junk l, (forall r, In r (layout l) -> match r with R_skip w _ => w_off w = 0%Z | _ => ready E r end) ->
       (forall id st, e_stub E id = Some st -> loads_apart st) -> e_fd E M_printer <> None ->
       (Z.of_nat (at_most E l) < 2147483648)%Z -> link E junk l <> Er EABORT).
Proof.
  intros H.
  set (ws := repeat (mkW 183 0 0 0 0) (N.to_nat 32767)).
  assert (L : Z.of_nat (length ws) = 32767%Z) by (unfold ws; rewrite repeat_length; lia).
  pose (E := mkEnv true (fun _ => None) (fun _ => Some 3%Z)).
  assert (LI : forall us r, layout (map E_ins us ++ r) = map R_ins us ++ layout r).
  { clear. induction us as [|w us IH]; intros r; [reflexivity|]. cbn [map app layout]. rewrite IH. reflexivity. }
  set (l := E_next (mkW 5 0 0 0 0) :: map E_ins ws ++ [E_end]).
  assert (IN : forall r, In r (layout l) -> (exists w, r = R_ins w) \/ (exists n, r = R_skip (mkW 5 0 0 0 0) n) \/ r = R_open (mkW 5 0 0 0 0)).
  { intros r R. cbn [l layout] in R. destruct R as [R|R].
    - destruct (to_end _); subst r; [right; left; eauto|right; right; reflexivity].
    - rewrite LI in R. cbn [layout] in R. rewrite app_nil_r in R. apply in_map_iff in R. destruct R as (w & <- & _). left. eauto. }
  apply (H E (fun _ => []) l).
  - intros r R. destruct (IN _ R) as [(w & ->)|[(n & ->)| ->]]; cbn; auto.
  - intros id st C. discriminate C.
  - discriminate.
  - unfold at_most. assert (Z0 : list_sum (map (call_size E) (layout l)) = 0).
    { assert (G : forall rs, (forall r, In r rs -> call_size E r = 0) -> list_sum (map (call_size E) rs) = 0).
      { clear. induction rs as [|r rs IH]; intros G; [reflexivity|]. cbn [map]. change (list_sum (?x :: ?y)) with (x + list_sum y).
        rewrite (G r) by (left; reflexivity). apply IH. intros q Q. apply G. right. exact Q. }
      apply G. intros r R. destruct (IN _ R) as [(w & ->)|[(n & ->)| ->]]; reflexivity. }
    rewrite Z0. unfold l. cbn [layout length]. rewrite LI, app_length, map_length. cbn [layout length]. lia.
  - apply link_far; [reflexivity|lia].
Qed.
Print Assumptions C63_far_refuted.

(** Without them a program is made whose jump goes back instead. *)
Theorem C63_jump_refuted :
  ~ (forall E junk l img buf i w n, e_debug E = false -> link E junk l = Ok (img, buf) ->
       nth_error (layout l) i = Some (R_skip w n) ->
       exists o, nth_error img i = Some (set_off w o) /\ (0 <= o)%Z).
Proof.
  intros H.
  pose (E := mkEnv false (fun _ => None) (fun m => match m with M_printer => Some 3%Z | _ => None end)).
  set (ws := repeat (mkW 183 0 0 0 0) (N.to_nat 40000)).
  assert (L : Z.of_nat (length ws) = 40000%Z) by (unfold ws; rewrite repeat_length; lia).
  assert (TE : to_end (map E_ins ws ++ [E_end]) = Some (length ws)).
  { clear. induction ws as [|w us IH]; [reflexivity|]. cbn [map app to_end width length]. rewrite IH. reflexivity. }
  destruct (H E (fun _ => []) (E_next (mkW 5 0 0 0 0) :: map E_ins ws ++ [E_end]) _ _ 0 (mkW 5 0 0 0 0) (length ws) eq_refl
              (link_wrong E (fun _ => []) (mkW 5 0 0 0 0) ws eq_refl eq_refl eq_refl ltac:(lia))) as (o & O1 & O2).
  - cbn [layout nth_error]. rewrite TE. reflexivity.
  - rewrite L in O1. cbn [nth_error] in O1. inversion O1. subst o. vm_compute in O2. apply O2. reflexivity.
Qed.
Print Assumptions C63_jump_refuted.

(** ** Examples *)
(** Two stubs, one printing; two rules; a message printed twice. *)
Definition ex_stub2 : stub := mkStub [mkW 1 1 0 0 0; mkW 24 1 2 0 7; mkW 0 0 0 0 0; mkW 149 0 0 0 0] [(1, [104; 105]%N)].
Definition ex_stub5 : stub := mkStub [mkW 149 0 0 0 0] [].
Definition ex_lenv : env :=
  mkEnv true (fun id => if Nat.eqb id 2 then Some ex_stub2 else if Nat.eqb id 5 then Some ex_stub5 else None)
        (fun k => match k with M_counters => Some 11%Z | M_printer => Some 12%Z | M_log => Some 13%Z | M_set 0 => Some 14%Z | _ => None end).
Definition ex_lscript : list step :=
  [E_ins (mkW 183 7 0 0 0); E_map M_log (mkW 24 2 1 0 0); E_ins (mkW 0 0 0 0 0);
   E_next (mkW 85 1 0 0 9); E_print [104; 105]%N; E_call 2; E_next (mkW 21 1 0 0 8); E_ins (mkW 149 0 0 0 0); E_end;
   E_next (mkW 5 0 0 0 0); E_map (M_set 0) (mkW 24 1 1 0 0); E_ins (mkW 0 0 0 0 0); E_print [111]%N; E_call 5; E_call 2; E_end;
   E_ins (mkW 149 0 0 0 0)].
Example C63_ex_linked : link ex_lenv (fun _ => [9; 9]%N) ex_lscript =
  Ok ([mkW 183 7 0 0 0; mkW 24 2 1 0 13; mkW 0 0 0 0 0;
       mkW 85 1 0 7 9; mkW 24 1 2 0 12; mkW 0 0 0 0 0; mkW 183 2 0 0 3; mkW 133 0 0 0 6; mkW 133 0 1 0 12; mkW 21 1 0 1 8; mkW 149 0 0 0 0;
       mkW 5 0 0 8 0; mkW 24 1 1 0 14; mkW 0 0 0 0 0; mkW 24 1 2 0 12; mkW 0 0 0 0 3; mkW 183 2 0 0 2; mkW 133 0 0 0 6;
       mkW 133 0 1 0 6; mkW 133 0 1 0 1; mkW 149 0 0 0 0;
       mkW 1 1 0 0 0; mkW 24 1 2 0 12; mkW 0 0 0 0 0; mkW 149 0 0 0 0; mkW 149 0 0 0 0], [104; 105; 0; 111; 0]%N).
Proof. vm_compute. reflexivity. Qed.
Example C63_ex_ready : (forall r, In r (layout ex_lscript) -> ready ex_lenv r) /\ (forall id st, e_stub ex_lenv id = Some st -> loads_apart st).
Proof.
  split.
  - intros r R. cbn in R. repeat destruct R as [<-|R]; try exact Logic.I; try (cbn; intuition (congruence || lia)).
  - intros id st H. cbn in H. destruct (Nat.eqb id 2); [inversion H; subst|destruct (Nat.eqb id 5); [inversion H; subst|discriminate]].
    + split; cbn; [constructor; [constructor|constructor]|constructor; [cbn; lia|constructor]].
    + split; constructor.
Qed.
(** The chain of the fixtures, with an encoding that shows the jumps and maps. *)
Definition ex_enc (i : insn) : word :=
  match i with
  | Jmp _ _ _ _ o => mkW 21 0 0 o 0
  | Ja o => mkW 5 0 0 o 0
  | LdMap _ _ => mkW 24 0 1 0 0
  | Exit => mkW 149 0 0 0 0
  | _ => mkW 183 0 0 0 0
  end.
Example C63_ex_enc : jumps_encoded ex_enc.
Proof. intros [] o H; try discriminate; reflexivity. Qed.
Definition ex_lenv2 : env := mkEnv true (fun id => Some (if Nat.eqb id 2 then ex_stub2 else ex_stub5)) (fun _ => Some 15%Z).
Example C63_ex_program :
  exists l img buf, gen_program ex_chain = Ok ex_prog /\ chain_script ex_enc ex_chain = Ok l
    /\ link ex_lenv2 (fun _ => []) l = Ok (img, buf)
    /\ (Nat.leb 100 (length ex_prog) && Nat.leb (length ex_prog + 5) (length img))%bool = true.
Proof.
  eexists. eexists. eexists. split; [vm_compute; reflexivity|]. split; [vm_compute; reflexivity|]. split; vm_compute; reflexivity.
Qed.
