(** Texts that go on, and one way to lay out a sentence. *)
From Coq Require Import String NArith List Bool Arith Lia.
From Verif Require Import Bytes Types GenModel BytesFacts StrModel StrFacts EnumModel PrintFacts2 RulesTextModel RulesTextSpec LexModel LexSpec LexFacts LexFacts2 LexFacts3 LexFacts4.
Import ListNotations.
Local Open Scope string_scope.
Local Open Scope list_scope.
Local Open Scope N_scope.

(** As [runs_lexed], with something after. *)
Lemma runs_lexed_more st l ts st2 x tail : In x [32; 9; 10; 35] -> runs st l ts st2 -> forall s, laid_out l s ->
  lexed st (s ++ x :: tail) = ts ++ lexed st2 (x :: tail).
Proof.
  intros IX.
  induction 1 as [st|st w t st' l ts st3 T Q R IH|st l ts st3 C _ IH|c l ts st3 I _ IH|l ts st3 _ IH]; intros s LO.
  - inversion LO as [g G| |]; subst. rewrite lexed_gap by exact G. cbn [app]. reflexivity.
  - inversion LO as [| |w' l' g u G LO' SEP E1 E2]; subst. rewrite <- !app_assoc, lexed_gap by exact G. rewrite (tok_lexed _ _ _ _ _ T); [cbn [app]; f_equal; apply IH; exact LO'|].
    destruct l as [|[w'|c'] l].
    + inversion LO' as [g' G'| |]; subst. pose proof (gap_head _ G') as H. destruct u as [|y u]; cbn [ends_word app]; unfold stops_of; apply in_or_app; left; assumption.
    + destruct SEP as (y & u' & -> & IY). cbn [ends_word app]. unfold stops_of. apply in_or_app. left. exact IY.
    + assert (PC : In c' [44; 123; 125]) by (inversion R; subst; cbn [In] in *; tauto).
      inversion LO' as [|c2 l2 g' u' G' LO2 E1 E2|]; subst. unfold ends_word, stops_of. rewrite Q. pose proof (gap_head _ G') as H. destruct g' as [|y g']; cbn [app].
      * cbn [In] in PC |- *. tauto.
      * cbn [In] in H |- *. tauto.
  - inversion LO as [|c2 l2 g' u' G' LO2 E1 E2|]; subst. rewrite <- app_assoc, lexed_gap by exact G'. cbn [app]. rewrite (comma_lexed _ _ C). f_equal. apply IH. exact LO2.
  - inversion LO as [|c2 l2 g' u' G' LO2 E1 E2|]; subst. rewrite <- app_assoc, lexed_gap by exact G'. cbn [app]. rewrite (ignore_lexed _ _ I). apply IH. exact LO2.
  - inversion LO as [|c2 l2 g' u' G' LO2 E1 E2|]; subst. rewrite <- app_assoc, lexed_gap by exact G'. cbn [app]. rewrite close_lexed. apply IH. exact LO2.
Qed.

(** A character that the parser takes for the end. *)
Lemma live_end : forallb (fun st =>
  forallb (fun c => match filter (live st c) lrules with [r] => match lr_act r with A_char => is_cls (lr_re r) | _ => false end | _ => false end) (0 :: map (N.add 128) (below 128))) all_states = true.
Proof. vm_compute. reflexivity. Qed.
Lemma end_lexed st c s : c = 0 \/ 128 <= c < 256 -> lexed st (c :: s) = [].
Proof.
  intros H. pose proof (proj1 (forallb_forall _ _) live_end st (all_states_in st)) as K. cbv beta in K.
  rewrite forallb_forall in K. assert (I : In c (0 :: map (N.add 128) (below 128))).
  { destruct H as [ -> |H]; [left; reflexivity|right]. apply in_map_iff. exists (c - 128). split; [lia|]. apply below_in. lia. }
  specialize (K c I). destruct (some_rule st c s) as (k & a & B); [destruct H; lia|]. pose proof B as B2. rewrite best_lrules in B2.
  destruct (filter (live st c) lrules) as [|r [|? ?]] eqn:F; try discriminate K. destruct (lr_act r) eqn:A; try discriminate K.
  assert (EA : a = A_char).
  { cbn [best] in B2. destruct (if active st r then longest (lr_re r) (c :: s) else None); [|discriminate]. injection B2 as _ <-. exact A. }
  subst a. rewrite (lexed_step _ _ _ _ _ B). destruct H as [ -> |(H & _)]; [reflexivity|]. apply N.leb_le in H. rewrite H, orb_true_r. reflexivity.
Qed.
Lemma cut_lexed l s c rest : Forall chain_spelled l -> laid_out (concat (map s_chain l)) s -> c = 0 \/ 128 <= c < 256 ->
  lex (s ++ 32 :: c :: rest) = lex s.
Proof.
  intros F LO H. rewrite (chains_lexed l s F LO). rewrite Forall_forall in F.
  destruct (list_runs (fun st => quiet st = true) s_chain w_chain l) with (st := L_INITIAL) as (st' & _ & R);
    [intros b st I Q; apply chain_runs; [exact Q|exact (F b I)]|intros b; exact Logic.I|reflexivity|].
  change (lex (s ++ 32 :: c :: rest)) with (lexed L_INITIAL (s ++ 32 :: c :: rest)).
  rewrite (runs_lexed_more _ _ _ _ 32 (c :: rest) (or_introl eq_refl) R s LO).
  assert (G : gap [32]) by (constructor; [left; reflexivity|constructor]).
  rewrite (lexed_gap [32] G st' (c :: rest) : lexed st' (32 :: c :: rest) = _). rewrite end_lexed by exact H. apply app_nil_r.
Qed.

(** One space between words. *)
Fixpoint spaced (l : list lexeme) : cstr := match l with [] => [] | Wd w :: l' => w ++ 32 :: spaced l' | Pn c :: l' => c :: spaced l' end.
Lemma laid_out_blank l s : laid_out l s -> laid_out l (32 :: s).
Proof.
  assert (G : forall g, gap g -> gap (32 :: g)) by (intros g; constructor; [left; reflexivity|assumption]).
  intros LO. destruct LO as [g H|c l g t H LO|w l g t H LO S].
  - constructor. auto.
  - exact (Lo_punct c l (32 :: g) t (G g H) LO).
  - exact (Lo_word w l (32 :: g) t (G g H) LO S).
Qed.
Lemma spaced_laid_out l : laid_out l (spaced l).
Proof.
  induction l as [|[w|c] l IH]; cbn [spaced]; [constructor; constructor| |].
  - apply (Lo_word w l [] (32 :: spaced l)); [constructor|apply laid_out_blank; exact IH|]. destruct l as [|[?|?] ?]; auto. exists 32. eexists. split; [reflexivity|left; reflexivity].
  - apply (Lo_punct c l [] (spaced l)); [constructor|exact IH].
Qed.
