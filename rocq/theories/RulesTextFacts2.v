(** The grammar has one reading, and the parser accepts it. *)
From Coq Require Import String NArith List Bool Arith Lia.
From Verif Require Import Bytes Types GenModel ChainModel BytesFacts StrModel StrSpec EnumModel EnumFacts ParseModel ParseFacts2 HashModel SetModel SetSpec
  PackSpec PackModel NewFacts HookModel SetTextModel SetTextSpec SetTextFacts RateModel RulesTextModel RulesTextSpec RulesTextFacts.
Import ListNotations.
Local Open Scope string_scope.
Local Open Scope list_scope.
Local Open Scope N_scope.
Local Open Scope res_scope.

(** ** One reading. *)
Definition hd_is (p : token -> bool) (l : list token) : bool := match l with t :: _ => p t | [] => false end.

Lemma codes {A} (f : A -> list token) (start : token -> bool) (good : list token -> Prop) :
  (forall a r, hd_is start (f a ++ r) = true) -> (forall a r, good (f a ++ r)) ->
  (forall a a' r r', good r -> good r' -> f a ++ r = f a' ++ r' -> a = a' /\ r = r') ->
  forall l l' r r', good r -> good r' -> hd_is start r = false -> hd_is start r' = false ->
  concat (map f l) ++ r = concat (map f l') ++ r' -> l = l' /\ r = r'.
Proof.
  intros ST GO CO. induction l as [|a l IH]; intros [|a' l'] r r' G G' N N' E; cbn [map concat app] in E; rewrite <- ?app_assoc in E.
  - auto.
  - exfalso. rewrite E, ST in N. discriminate N.
  - exfalso. rewrite <- E, ST in N'. discriminate N'.
  - assert (GC : forall l r, good r -> good (concat (map f l) ++ r)).
    { intros k x X. destruct k; [exact X|]. cbn [map concat]. rewrite <- app_assoc. apply GO. }
    apply CO in E; [|apply GC; assumption|apply GC; assumption]. destruct E as (-> & E). apply IH in E; auto. destruct E as (-> & ->). auto.
Qed.

Definition is_start (t : token) : bool := match t with T_MATCHER_TYPE _ | T_SET_TYPE _ => true | _ => false end.
Lemma matcher_code a a' r r' : w_matcher a ++ r = w_matcher a' ++ r' -> a = a' /\ r = r'.
Proof.
  destruct a as [t [] [o|] p|k [] p|k [] n], a' as [t' [] [o'|] p'|k' [] p'|k' [] n']; cbn; intros E; try discriminate E;
    injection E; intros; subst; auto.
Qed.
Lemma matchers_code l l' r r' : hd_is is_start r = false -> hd_is is_start r' = false ->
  concat (map w_matcher l) ++ r = concat (map w_matcher l') ++ r' -> l = l' /\ r = r'.
Proof.
  apply (codes w_matcher is_start (fun _ => True)); auto; [intros [] x; reflexivity|]. intros a a' x x' _ _. apply matcher_code.
Qed.

Definition is_more (t : token) : bool := match t with T_STRING _ | T_COMMA | T_EVERY => true | _ => false end.
Definition is_option (t : token) : bool := match t with T_LOG | T_COUNTER | T_MARK => true | _ => false end.
Definition is_word (t : token) : bool := match t with T_STRING _ | T_COMMA => true | _ => false end.
Lemma w_headers_cons h hs : w_headers (h :: hs) = T_STRING h :: match hs with [] => [] | _ => T_COMMA :: w_headers hs end.
Proof. destruct hs; reflexivity. Qed.
Lemma headers_code l : forall l' r r', hd_is is_word r = false -> hd_is is_word r' = false -> w_headers l ++ r = w_headers l' ++ r' -> l = l' /\ r = r'.
Proof.
  induction l as [|h l IH]; intros [|h' l'] r r' N N' E.
  - auto.
  - exfalso. rewrite w_headers_cons in E. cbn in E. rewrite E in N. discriminate N.
  - exfalso. rewrite w_headers_cons in E. cbn in E. rewrite <- E in N'. discriminate N'.
  - rewrite !w_headers_cons in E. cbn [app] in E. injection E as <- E. destruct l as [|x l], l' as [|y l']; cbn [app] in E.
    + auto.
    + exfalso. rewrite E in N. discriminate N.
    + exfalso. rewrite <- E in N'. discriminate N'.
    + injection E as E. apply (IH (y :: l')) in E; auto. destruct E as (Q & ->). injection Q as -> ->. auto.
Qed.
Lemma option_code a a' r r' : hd_is is_more r = false -> hd_is is_more r' = false -> w_option a ++ r = w_option a' ++ r' -> a = a' /\ r = r'.
Proof.
  intros N N'.
  assert (W : forall e x, hd_is is_more x = false -> hd_is is_word (match e with Some s => [T_EVERY; T_STRING s] | None => [] end ++ x) = false).
  { intros [s|] x X; [reflexivity|]. destruct x as [|[] x]; cbn in *; auto. }
  destruct a as [hs e| |s], a' as [hs' e'| |s']; cbn [w_option app]; intros E; try discriminate E.
  - injection E as E. rewrite <- !app_assoc in E. apply headers_code in E; auto. destruct E as (-> & E). destruct e as [s|], e' as [s'|]; cbn [app] in E.
    + injection E as -> ->. auto.
    + exfalso. rewrite <- E in N'. discriminate N'.
    + exfalso. rewrite E in N. discriminate N.
    + subst. auto.
  - injection E as ->. auto.
  - injection E as -> ->. auto.
Qed.
Lemma options_code l l' r r' : hd_is is_more r = false -> hd_is is_more r' = false -> hd_is is_option r = false -> hd_is is_option r' = false ->
  concat (map w_option l) ++ r = concat (map w_option l') ++ r' -> l = l' /\ r = r'.
Proof.
  apply (codes w_option is_option (fun x => hd_is is_more x = false)); [intros [] x; reflexivity|intros [] x; reflexivity|].
  intros a a' x x'. apply option_code.
Qed.
Lemma verdict_code a a' r r' : w_verdict a ++ r = w_verdict a' ++ r' -> a = a' /\ r = r'.
Proof. destruct a, a'; cbn; intros E; try discriminate E; injection E; intros; subst; auto. Qed.

Lemma verdict_hd a r : hd_is is_more (w_verdict a ++ r) = false /\ hd_is is_option (w_verdict a ++ r) = false /\ hd_is is_start (w_verdict a ++ r) = false.
Proof. destruct a; auto. Qed.
Lemma tail_hd os v r : hd_is is_start (concat (map w_option os) ++ w_verdict v ++ r) = false.
Proof. destruct os as [|o os]; [apply verdict_hd|]. destruct o; reflexivity. Qed.

Lemma rule_code a a' r r' : w_rule a ++ r = w_rule a' ++ r' -> a = a' /\ r = r'.
Proof.
  destruct a as [m ms os v], a' as [m' ms' os' v']. unfold w_rule, ar_matchers. cbn [ar_first ar_more ar_options ar_verdict app]. intros E. injection E as E.
  rewrite <- !app_assoc in E.
  change (w_matcher m ++ concat (map w_matcher ms) ++ concat (map w_option os) ++ w_verdict v ++ r =
          w_matcher m' ++ concat (map w_matcher ms') ++ concat (map w_option os') ++ w_verdict v' ++ r') in E.
  apply matcher_code in E. destruct E as (-> & E). apply matchers_code in E; [|apply tail_hd|apply tail_hd]. destruct E as (-> & E).
  apply options_code in E; try apply verdict_hd. destruct E as (-> & E). apply verdict_code in E. destruct E as (-> & ->). auto.
Qed.
Lemma set_code a a' r r' : w_set a ++ r = w_set a' ++ r' -> a = a' /\ r = r'.
Proof. destruct a, a'. cbn. intros E. injection E; intros; subst. auto. Qed.
Definition is_rule (t : token) : bool := match t with T_RULE => true | _ => false end.
Definition is_setw (t : token) : bool := match t with T_SET => true | _ => false end.
Definition is_opt (t : token) : bool := match t with T_HOOKOPT _ => true | _ => false end.
Definition is_chain (t : token) : bool := match t with T_CHAIN => true | _ => false end.
Lemma rules_code l l' r r' : hd_is is_rule r = false -> hd_is is_rule r' = false ->
  concat (map w_rule l) ++ r = concat (map w_rule l') ++ r' -> l = l' /\ r = r'.
Proof. apply (codes w_rule is_rule (fun _ => True)); auto. intros a a' x x' _ _. apply rule_code. Qed.
Lemma sets_code l l' r r' : hd_is is_setw r = false -> hd_is is_setw r' = false ->
  concat (map w_set l) ++ r = concat (map w_set l') ++ r' -> l = l' /\ r = r'.
Proof. apply (codes w_set is_setw (fun _ => True)); auto. intros a a' x x' _ _. apply set_code. Qed.
Lemma opts_code l : forall l' r r', hd_is is_opt r = false -> hd_is is_opt r' = false ->
  map T_HOOKOPT l ++ r = map T_HOOKOPT l' ++ r' -> l = l' /\ r = r'.
Proof.
  induction l as [|x l IH]; intros [|y l'] r r' N N' E; cbn in E.
  - auto.
  - exfalso. rewrite E in N. discriminate N.
  - exfalso. rewrite <- E in N'. discriminate N'.
  - injection E as -> E. apply IH in E; auto. destruct E as (-> & ->). auto.
Qed.

Definition stops (r : list token) : Prop := hd_is is_rule r = false /\ hd_is is_setw r = false.
Lemma rules_hd l r : stops r -> hd_is is_setw (concat (map w_rule l) ++ r) = false.
Proof. intros (_ & N). destruct l; [exact N|reflexivity]. Qed.
Lemma chain_code a a' r r' : stops r -> stops r' -> w_chain a ++ r = w_chain a' ++ r' -> a = a' /\ r = r'.
Proof.
  intros N N'. destruct a as [n h o p ss rs], a' as [n' h' o' p' ss' rs']. unfold w_chain. cbn [ac_name ac_hook ac_opts ac_policy ac_sets ac_rules app]. intros E.
  injection E as -> -> E. rewrite <- !app_assoc in E. cbn [app] in E. rewrite <- !app_assoc in E. apply opts_code in E; [|reflexivity|reflexivity].
  destruct E as (-> & E). injection E as -> E. apply sets_code in E; [|apply rules_hd; assumption|apply rules_hd; assumption].
  destruct E as (-> & E). apply rules_code in E; [|apply N|apply N']. destruct E as (-> & ->). auto.
Qed.
Theorem chains_code l l' : concat (map w_chain l) = concat (map w_chain l') -> l = l'.
Proof.
  intros E. rewrite <- (app_nil_r (concat (map w_chain l))), <- (app_nil_r (concat (map w_chain l'))) in E.
  apply (codes w_chain is_chain stops) in E; [apply E| | | |split; reflexivity|split; reflexivity|reflexivity|reflexivity].
  - intros a r. reflexivity.
  - intros a r. split; reflexivity.
  - apply chain_code.
Qed.
