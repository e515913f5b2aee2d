(** Execution of code fragments: a structural semantics for straight-line code with
    forward jumps, and its agreement with the program-counter machine. *)
From Coq Require Import NArith ZArith List Bool Lia.
From Verif Require Import Bytes Types World BpfModel GenModel.
Import ListNotations.
Local Open Scope nat_scope.

Inductive fres :=
| FNext (s : st)           (* fell through the end *)
| FRule (s : st)           (* took a jump to the next rule *)
| FHalt (r : N) (s : st)   (* executed EXIT *)
| FErr.

(** [k] is the number of items to skip (pending forward jump). *)
Fixpoint frun (e : env) (l : code) (k : nat) (s : st) : fres :=
  match l with
  | [] => match k with O => FNext s | S _ => FErr end
  | it :: r =>
      match k with
      | S k' => frun e r k' s
      | O =>
          match it with
          | I i =>
              match exec e i s with
              | XNext s' => frun e r 0 s'
              | XJump z s' => if (0 <=? z)%Z then frun e r (Z.to_nat z) s' else FErr
              | XExit v s' => FHalt v s'
              | XErr => FErr
              end
          | J i =>
              match exec e i s with
              | XNext s' => frun e r 0 s'
              | XJump z s' => FRule s'
              | _ => FErr
              end
          end
      end
  end.

Definition fbind (r : fres) (f : st -> fres) : fres :=
  match r with FNext s => f s | x => x end.

Lemma frun_app e a : forall b k s, frun e a k s <> FErr ->
  frun e (a ++ b) k s = fbind (frun e a k s) (fun s' => frun e b 0 s').
Proof.
  induction a as [|it a IH]; intros b k s H; cbn [app].
  - cbn in *. destruct k; [reflexivity | congruence].
  - cbn [frun] in *. destruct k.
    + destruct it as [i|i]; destruct (exec e i s) as [s'|z s'|v s'|]; try reflexivity; auto.
      destruct (0 <=? z)%Z; auto.
    + auto.
Qed.

Lemma frun_skip e a : forall b s, frun e (a ++ b) (length a) s = frun e b 0 s.
Proof. induction a; intros; cbn; auto. Qed.

Lemma frun_skip_all e a s : frun e a (length a) s = FNext s.
Proof. rewrite <- (app_nil_r a) at 1. rewrite frun_skip. reflexivity. Qed.

Lemma i16_small z : (0 <= z < 32768)%Z -> i16 z = z.
Proof. intros. unfold i16. rewrite Z.mod_small; lia. Qed.

Definition small (l : code) : Prop := (Z.of_nat (length l) < 32768)%Z.

Lemma frun_jover e w op d src body rest s b :
  do_jmp s w op d src = Some b -> small body ->
  frun e (jover (Jmp w op d src) body ++ rest) 0 s =
  if b then frun e rest 0 s else frun e (body ++ rest) 0 s.
Proof.
  intros H Hs. unfold small in Hs. unfold jover. cbn [app frun exec]. rewrite H. destruct b; [|reflexivity].
  rewrite i16_small by lia.
  rewrite (proj2 (Z.leb_le _ _)) by lia. rewrite Nat2Z.id. apply frun_skip.
Qed.

Lemma frun_jover_nil e w op d src body s b :
  do_jmp s w op d src = Some b -> small body ->
  frun e (jover (Jmp w op d src) body) 0 s =
  if b then FNext s else frun e body 0 s.
Proof.
  intros. rewrite <- (app_nil_r (jover _ _)). rewrite frun_jover with (b := b) by auto.
  rewrite app_nil_r. reflexivity.
Qed.

Lemma frun_jover_ja e body rest s : small body ->
  frun e (jover Ja body ++ rest) 0 s = frun e rest 0 s.
Proof.
  intros Hs. unfold small in Hs. unfold jover. cbn [app frun exec].
  rewrite i16_small by lia. rewrite (proj2 (Z.leb_le _ _)) by lia. rewrite Nat2Z.id. apply frun_skip.
Qed.

(** Jump instructions are the only ones that need a fixup. *)
Definition jumpish (i : insn) : bool :=
  match i with Jmp _ _ _ _ _ | Ja _ => true | _ => false end.

Definition well_fixed (l : code) : Prop :=
  forall i, In (J i) l -> jumpish i = true.

Lemma exec_set_off e i o s : jumpish i = true ->
  exec e (set_off i o) s =
  match exec e i s with XJump _ s' => XJump o s' | x => x end.
Proof.
  destruct i; try discriminate; intros _; cbn.
  - destruct (do_jmp s w64 op dst src) as [[]|]; reflexivity.
  - reflexivity.
Qed.

Lemma resolve_length l : length (resolve l) = length l.
Proof. induction l as [|[i|i] l IH]; cbn; auto. Qed.

Lemma resolve_app a b : Forall (fun it => match it with I _ => True | J _ => False end) a ->
  resolve (a ++ b) = resolve a ++ resolve b.
Proof.
  induction 1 as [|[i|i] a H Ha IH]; cbn; auto; [f_equal; auto | contradiction].
Qed.

Lemma fetch_at pre i post pc :
  pc = Z.of_nat (length pre) -> fetch (pre ++ i :: post) pc = Some i.
Proof.
  intros ->. unfold fetch. rewrite (proj2 (Z.ltb_ge _ _)) by lia. rewrite Nat2Z.id.
  rewrite nth_error_app2 by lia. rewrite Nat.sub_diag. reflexivity.
Qed.

(** What the machine does after fragment [l] placed at [p]. *)
Definition after (e : env) (prog : list insn) (fuel : nat) (nxt : Z) (r : fres) : outcome :=
  match r with
  | FNext s' | FRule s' => run e prog fuel nxt s'
  | FHalt v s' => Done v (wd s')
  | FErr => Fault
  end.

(** The machine follows the fragment semantics: at most one step per item, and both
    falling through and jumping to the next rule end at the end of the fragment. *)
Lemma run_frag_aux e prog : forall l pre post k s,
  prog = pre ++ resolve l ++ post -> well_fixed l -> small l ->
  frun e l k s <> FErr ->
  exists n, n <= length l - k /\ forall fuel,
    run e prog (n + fuel) (Z.of_nat (length pre + k)) s =
    after e prog fuel (Z.of_nat (length pre + length l)) (frun e l k s).
Proof.
  induction l as [|it l IH]; intros pre post k s Hp Hw Hs Hne.
  - cbn in *. destruct k; [|congruence]. exists 0. split; [lia|]. intros. cbn.
    rewrite ?Nat.add_0_r. reflexivity.
  - assert (Hw' : well_fixed l) by (intros i Hi; apply Hw; right; exact Hi).
    assert (Hs' : small l) by (unfold small in *; cbn [length] in Hs; lia).
    destruct k as [|k].
    + cbn [frun] in Hne |- *.
      assert (Hstep : forall j, (match it with I i => i | J i => set_off i (i16 (Z.of_nat (length l))) end) = j ->
        forall fuel, run e prog (S fuel) (Z.of_nat (length pre + 0)) s =
          match exec e j s with
          | XNext s' => run e prog fuel (Z.of_nat (length pre) + 1) s'
          | XJump z s' => run e prog fuel (Z.of_nat (length pre) + 1 + z) s'
          | XExit r s' => Done r (wd s')
          | XErr => Fault end).
      { intros j Hj fuel. cbn [run]. rewrite Nat.add_0_r.
        rewrite (fetch_at pre j (resolve l ++ post)); [reflexivity | reflexivity |
          rewrite Hp; destruct it; cbn; subst j; reflexivity]
        || (assert (Hf : fetch prog (Z.of_nat (length pre)) = Some j)
             by (rewrite Hp; destruct it; cbn; rewrite Hj; apply fetch_at; reflexivity);
            rewrite Hf; reflexivity). }
      assert (Hp' : prog = (pre ++ [match it with I i => i | J i => set_off i (i16 (Z.of_nat (length l))) end]) ++ resolve l ++ post).
      { rewrite Hp. destruct it; cbn; rewrite <- !app_assoc; reflexivity. }
      assert (Hlen : length (pre ++ [match it with I i => i | J i => set_off i (i16 (Z.of_nat (length l))) end]) = S (length pre)).
      { rewrite app_length; cbn; lia. }
      destruct it as [i|i].
      * specialize (Hstep _ eq_refl).
        destruct (exec e i s) as [s'|z s'|v s'|] eqn:Hx; try congruence.
        -- destruct (IH _ post 0 s' Hp' Hw' Hs' Hne) as [n [Hn Hr]].
           exists (S n). split; [cbn [length]; lia|]. intros fuel.
           cbn [Nat.add]. rewrite Hstep.
           replace (Z.of_nat (length pre) + 1)%Z with (Z.of_nat (S (length pre) + 0)) by lia.
           rewrite Hlen in Hr. rewrite Hr. f_equal. cbn [length]. lia.
        -- destruct (0 <=? z)%Z eqn:Hz; [|congruence]. apply Z.leb_le in Hz.
           destruct (IH _ post (Z.to_nat z) s' Hp' Hw' Hs' Hne) as [n [Hn Hr]].
           exists (S n). split; [cbn [length]; lia|]. intros fuel.
           cbn [Nat.add]. rewrite Hstep.
           replace (Z.of_nat (length pre) + 1 + z)%Z with (Z.of_nat (S (length pre) + Z.to_nat z)) by lia.
           rewrite Hlen in Hr. rewrite Hr. f_equal. cbn [length]. lia.
        -- exists 1. split; [cbn [length]; lia|]. intros fuel. cbn [Nat.add]. rewrite Hstep. reflexivity.
      * assert (Hj : jumpish i = true) by (apply Hw; left; reflexivity).
        specialize (Hstep _ eq_refl). rewrite (exec_set_off _ _ _ _ Hj) in Hstep.
        destruct (exec e i s) as [s'|z s'|v s'|] eqn:Hx; try congruence.
        -- destruct (IH _ post 0 s' Hp' Hw' Hs' Hne) as [n [Hn Hr]].
           exists (S n). split; [cbn [length]; lia|]. intros fuel.
           cbn [Nat.add]. rewrite Hstep.
           replace (Z.of_nat (length pre) + 1)%Z with (Z.of_nat (S (length pre) + 0)) by lia.
           rewrite Hlen in Hr. rewrite Hr. f_equal. cbn [length]. lia.
        -- exists 1. split; [cbn [length]; lia|]. intros fuel. cbn [Nat.add]. rewrite Hstep.
           cbn [after]. unfold small in Hs'. rewrite i16_small by lia.
           f_equal. cbn [length]. lia.
    + cbn [frun] in Hne |- *.
      assert (Hp' : prog = (pre ++ [match it with I i => i | J i => set_off i (i16 (Z.of_nat (length l))) end]) ++ resolve l ++ post).
      { rewrite Hp. destruct it; cbn; rewrite <- !app_assoc; reflexivity. }
      destruct (IH _ post k s Hp' Hw' Hs' Hne) as [n [Hn Hr]].
      exists n. split; [cbn [length]; lia|]. intros fuel.
      rewrite app_length in Hr. cbn [length] in Hr.
      replace (length pre + S k) with (length pre + 1 + k) by lia. rewrite Hr. f_equal. cbn [length]. lia.
Qed.

Lemma run_frag e l pre post s :
  well_fixed l -> small l -> frun e l 0 s <> FErr ->
  exists n, n <= length l /\ forall fuel,
    run e (pre ++ resolve l ++ post) (n + fuel) (Z.of_nat (length pre)) s =
    after e (pre ++ resolve l ++ post) fuel (Z.of_nat (length pre + length l)) (frun e l 0 s).
Proof.
  intros. destruct (run_frag_aux e _ l pre post 0 s eq_refl) as [n [Hn Hr]]; auto.
  exists n. split; [lia|]. intros. rewrite <- Hr. rewrite Nat.add_0_r. reflexivity.
Qed.

(** More fuel does not change a finished run. *)
Lemma run_more e prog : forall n pc s o, run e prog n pc s = o -> o <> OutOfFuel ->
  forall m, n <= m -> run e prog m pc s = o.
Proof.
  induction n as [|n IH]; intros pc s o H Hne m Hm.
  - cbn in H. congruence.
  - destruct m as [|m]; [lia|]. cbn [run] in *. destruct (fetch prog pc) as [i|]; auto.
    destruct (exec e i s); auto; eapply IH; eauto; lia.
Qed.
