(** The switch generator runs exactly the selected body (proofs only). *)
From Coq Require Import NArith ZArith List Bool Lia Arith.
From Verif Require Import Bytes Types World BpfModel GenModel Frag BytesFacts StepFacts.
Import ListNotations.
Local Open Scope N_scope.

(** The body selected for register value [x]. *)
Definition swich_pick (x : N) (opts : list (N * list insn)) (d : list insn) : list insn :=
  match find (fun o => x =? fst o) opts with Some o => snd o | None => d end.

Lemma bodies_cons n b opts d :
  swich_bodies ((n, b) :: opts) d =
  map I b ++ I (Ja (i16 (Z.of_nat (length (swich_bodies opts d))))) :: swich_bodies opts d.
Proof. reflexivity. Qed.

Lemma frun_ja e n r s : (Z.of_nat n < 32768)%Z ->
  frun e (I (Ja (i16 (Z.of_nat n))) :: r) 0 s = frun e r n s.
Proof.
  intros H. cbn [frun exec]. rewrite i16_small by lia.
  rewrite (proj2 (Z.leb_le _ _)) by lia. rewrite Nat2Z.id. reflexivity.
Qed.

Lemma tests_length r opts d n : length (swich_tests r opts d n) = (length opts + (if d then 1 else 0))%nat.
Proof.
  revert n. induction opts as [|[i b] o IH]; intros n; cbn [swich_tests].
  - destruct d; reflexivity.
  - cbn [length]. rewrite IH. lia.
Qed.

(** Running a body that does not fault, then the jump over the remaining bodies. *)
Lemma run_body e b o d rest s n : (Z.of_nat (length (swich_bodies o d)) < 32768)%Z ->
  frun e (map I b) 0 s <> FErr ->
  frun e (swich_bodies ((n, b) :: o) d ++ rest) 0 s =
  fbind (frun e (map I b) 0 s) (fun s' => frun e rest 0 s').
Proof.
  intros Hl Hne. rewrite bodies_cons, <- app_assoc. rewrite frun_app by auto.
  destruct (frun e (map I b) 0 s) as [s'| | |]; cbn [fbind]; auto. cbn [app].
  rewrite frun_ja by auto. apply frun_skip.
Qed.

Lemma frun_swich_aux e r x d rest s : rg s r = VN x -> forall opts done,
  Forall (fun o => fst o < two31) opts ->
  (Z.of_nat (length opts + 1 + length done + length (swich_bodies opts d)) < 32768)%Z ->
  frun e (map I (swich_pick x opts d)) 0 s <> FErr ->
  frun e (swich_tests r opts true (length done) ++ done ++ swich_bodies opts d ++ rest) 0 s =
  fbind (frun e (map I (swich_pick x opts d)) 0 s) (fun s' => frun e rest 0 s').
Proof.
  intros Hx. induction opts as [|[n b] o IH]; intros done Ho Hl Hne.
  - cbn [swich_tests swich_pick find app]. cbn [length] in Hl. rewrite frun_ja by lia. rewrite frun_skip.
    cbn [swich_bodies]. apply frun_app. exact Hne.
  - inversion Ho as [|? ? Hn Ho']; subst. cbn [fst] in Hn.
    cbn [swich_tests app]. rewrite bodies_cons in Hl.
    rewrite app_length, map_length in Hl. cbn [length] in Hl.
    assert (J : do_jmp s true JEQ r (Im (i32 n)) = Some (x =? n)).
    { erewrite do_jmp_num64; [|exact Hx|reflexivity]. cbn [jtest]. rewrite imm64_i32 by auto. reflexivity. }
    rewrite i16_small by lia. rewrite (fr_I _ _ _ _ _ _ _ _ _ J).
    unfold swich_pick in *. cbn [find fst] in *. destruct (x =? n).
    + cbn [snd] in *.
      assert (E : (length o + 1 + length done = length (swich_tests r o true (length done + length b + 1) ++ done))%nat).
      { rewrite app_length, tests_length. reflexivity. }
      rewrite E, !app_assoc, <- (app_assoc (_ ++ done)). rewrite frun_skip.
      apply run_body; auto. lia.
    + specialize (IH (done ++ map I b ++ [I (Ja (i16 (Z.of_nat (length (swich_bodies o d)))))]) Ho').
      rewrite !app_length, map_length in IH. cbn [length] in IH.
      replace (length done + (length b + 1))%nat with (length done + length b + 1)%nat in IH by lia.
      rewrite <- IH; [|lia|exact Hne]. rewrite bodies_cons. rewrite <- !app_assoc. cbn [app]. reflexivity.
Qed.

Lemma frun_swich e r x opts d rest s : rg s r = VN x ->
  Forall (fun o => fst o < two31) opts -> small (swich r opts (Some d)) ->
  frun e (map I (swich_pick x opts d)) 0 s <> FErr ->
  frun e (swich r opts (Some d) ++ rest) 0 s =
  fbind (frun e (map I (swich_pick x opts d)) 0 s) (fun s' => frun e rest 0 s').
Proof.
  intros Hx Ho Hs Hne. unfold swich, small in *. rewrite app_length, tests_length in Hs.
  rewrite <- app_assoc. apply (frun_swich_aux e r x d rest s Hx opts []); auto.
  cbn [length]. lia.
Qed.
