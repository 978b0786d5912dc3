(** Lemmas about policies with the rules of one effect first. *)
From Verif Require Import Eval SpecEval SpecPieces EvalFacts EvalFacts2 PiecesFacts PropertiesEval.

Definition given (e : effect) : decision := match e with EffPermit => Permit | EffDeny => Deny end.

Lemma given_effect : forall E c r e, rule_eval E c r = Ok (given e) -> rl_effect r = Some e.
Proof.
  intros E c r e H. destruct e; cbn in H.
  - apply rule_eval_permit_iff in H. exact (proj1 H).
  - apply rule_eval_deny_iff in H. exact (proj1 H).
Qed.

Lemma of_effect_in : forall e rules r, In r (of_effect e rules) <-> In r rules /\ rl_effect r = Some e.
Proof.
  intros e rules r. unfold of_effect. rewrite filter_In. destruct (rl_effect r) as [[|]|], e; intuition congruence.
Qed.

(** What rules of one effect come to under first-applicable. *)
Lemma fa_one : forall E c e l, (forall r, In r l -> answers E c r /\ rl_effect r = Some e) ->
  (rules_first_applicable (rule_eval E c) l = Ok NotApplicable /\ forall r, In r l -> rule_eval E c r = Ok NotApplicable) \/
  (rules_first_applicable (rule_eval E c) l = Ok (given e) /\ exists r, In r l /\ rule_eval E c r = Ok (given e)) \/
  (rules_first_applicable (rule_eval E c) l = Ok Indeterminate /\ exists r, In r l /\ rule_eval E c r = Ok Indeterminate).
Proof.
  intros E c e. induction l as [|x l IH]; intros H; [left; split; [reflexivity|intros r []]|].
  destruct (H x (or_introl eq_refl)) as [[_ (d & Hd)] Hx]. cbn [rules_first_applicable]. rewrite Hd. cbn [bind].
  assert (G : d = Permit \/ d = Deny -> d = given e).
  { intros [-> | ->]; [apply (given_effect E c x EffPermit) in Hd|apply (given_effect E c x EffDeny) in Hd];
      rewrite Hd in Hx; injection Hx as <-; reflexivity. }
  destruct d.
  - right. left. rewrite <- (G (or_introl eq_refl)). split; [reflexivity|]. exists x. split; [left; reflexivity|exact Hd].
  - right. left. rewrite <- (G (or_intror eq_refl)). split; [reflexivity|]. exists x. split; [left; reflexivity|exact Hd].
  - right. right. split; [reflexivity|]. exists x. split; [left; reflexivity|exact Hd].
  - destruct IH as [[-> K]|[[-> (r & K1 & K2)]|[-> (r & K1 & K2)]]].
    + intros r Hr. apply H. right. exact Hr.
    + left. split; [reflexivity|]. intros r [<-|Hr]; auto.
    + right. left. split; [reflexivity|]. exists r. split; [right; exact K1|exact K2].
    + right. right. split; [reflexivity|]. exists r. split; [right; exact K1|exact K2].
Qed.

Section First.
  Variable E : env.
  Variable c : context.
  Variable rules : list rule.
  Hypothesis HA : forall r, In r rules -> answers E c r.

  Lemma one_effect : forall e r, In r (of_effect e rules) -> answers E c r /\ rl_effect r = Some e.
  Proof using HA. intros e r Hr. apply of_effect_in in Hr. destruct Hr as [H1 H2]. auto. Qed.

  Lemma rules_all : forall r, In r rules -> rl_effect r <> None /\ is_ok (rule_eval E c r) = true.
  Proof using HA. exact (rules_hyp E c rules HA rules (fun r H => H)). Qed.

  (** The rules with the effect [e] first. *)
  Lemma two_effects : forall e e' d, e <> e' ->
    rules_first_applicable (rule_eval E c) (of_effect e rules ++ of_effect e' rules) = Ok d ->
    (d = NotApplicable /\ forall r, In r rules -> rule_eval E c r = Ok NotApplicable) \/
    (d = given e /\ exists r, In r rules /\ rule_eval E c r = Ok (given e)) \/
    (d = given e' /\ (exists r, In r rules /\ rule_eval E c r = Ok (given e')) /\
       forall r, In r rules -> rl_effect r = Some e -> rule_eval E c r = Ok NotApplicable) \/
    (d = Indeterminate /\ exists r, In r rules /\ rule_eval E c r = Ok Indeterminate).
  Proof using HA.
    intros e e' d N H. rewrite rules_fa_app in H.
    destruct (fa_one E c e _ (one_effect e)) as [[F K]|[[F (r & K1 & K2)]|[F (r & K1 & K2)]]]; rewrite F in H; cbn [bind] in H.
    - destruct (fa_one E c e' _ (one_effect e')) as [[F' K']|[[F' (r & K1 & K2)]|[F' (r & K1 & K2)]]]; rewrite F' in H; injection H as <-.
      + left. split; [reflexivity|]. intros r Hr. destruct (HA r Hr) as [Hn _]. destruct (rl_effect r) as [x|] eqn:X; [|congruence].
        assert (x = e \/ x = e') as [-> | ->] by (destruct x, e, e'; auto; congruence).
        * apply K, of_effect_in. auto.
        * apply K', of_effect_in. auto.
      + right. right. left. split; [reflexivity|]. apply of_effect_in in K1. split; [exists r; split; [exact (proj1 K1)|exact K2]|].
        intros r' Hr' He'. apply K, of_effect_in. auto.
      + right. right. right. split; [reflexivity|]. apply of_effect_in in K1. exists r. split; [exact (proj1 K1)|exact K2].
    - right. left. apply of_effect_in in K1. split; [destruct e; injection H as <-; reflexivity|]. exists r. split; [exact (proj1 K1)|exact K2].
    - right. right. right. injection H as <-. apply of_effect_in in K1. split; [reflexivity|]. exists r. split; [exact (proj1 K1)|exact K2].
  Qed.

  Lemma two_ok : forall l, (forall r, In r l -> In r rules) -> exists d, rules_first_applicable (rule_eval E c) l = Ok d.
  Proof using HA.
    induction l as [|x l IH]; intros H; cbn [rules_first_applicable]; [eauto|].
    destruct (HA x (H x (or_introl eq_refl))) as [_ (d & ->)]. cbn [bind]. destruct d; eauto. apply IH. intros r Hr. apply H. right. exact Hr.
  Qed.
  Lemma both_in : forall e e' r, In r (of_effect e rules ++ of_effect e' rules) -> In r rules.
  Proof using. intros e e' r H. apply in_app_or in H. destruct H as [H|H]; apply of_effect_in in H; exact (proj1 H). Qed.

  Variables (m m' : pmeta) (t : option target).
  Hypothesis HT : target_accepts E c t.

  Lemma first_eq : forall l, (forall r, In r l -> In r rules) -> policy_eval E c (PPolicy m t (Some FirstApplicable) l) =
    rules_first_applicable (rule_eval E c) l.
  Proof using HA HT.
    intros l Hl. destruct (two_ok l Hl) as (d & Hd). cbn [policy_eval combine_rules]. rewrite Hd.
    unfold with_target. destruct t as [t0|]; [rewrite (HT t0 eq_refl)|]; reflexivity.
  Qed.

  Lemma deny_first : forall d, d <> Indeterminate ->
    policy_eval E c (PPolicy m t (Some FirstApplicable) (of_effect EffDeny rules ++ of_effect EffPermit rules)) = Ok d ->
    policy_eval E c (PPolicy m' t (Some DenyOverrides) rules) = Ok d.
  Proof using HA HT.
    intros d N H. rewrite first_eq in H by apply both_in.
    destruct (C01_deny_overrides_rules_table E c m' t rules HT rules_all) as (P1 & P2 & _ & P4).
    apply two_effects in H; [|discriminate]. destruct H as [[-> K]|[[-> K]|[(-> & K1 & K2)|[-> _]]]].
    - apply P4, K.
    - apply P1, K.
    - apply P2. split; [exact K1|]. split.
      + intros (r & Hr & Rr). rewrite (K2 r Hr (given_effect E c r EffDeny Rr)) in Rr. discriminate.
      + intros (r & Hr & Er & Rr). rewrite (K2 r Hr Er) in Rr. discriminate.
    - congruence.
  Qed.
  Lemma permit_first : forall d, d <> Indeterminate ->
    policy_eval E c (PPolicy m t (Some FirstApplicable) (of_effect EffPermit rules ++ of_effect EffDeny rules)) = Ok d ->
    policy_eval E c (PPolicy m' t (Some PermitOverrides) rules) = Ok d.
  Proof using HA HT.
    intros d N H. rewrite first_eq in H by apply both_in.
    destruct (C02_permit_overrides_rules_table E c m' t rules HT rules_all) as (P1 & P2 & _ & P4).
    apply two_effects in H; [|discriminate]. destruct H as [[-> K]|[[-> K]|[(-> & K1 & K2)|[-> _]]]].
    - apply P4, K.
    - apply P1, K.
    - apply P2. split; [exact K1|]. split.
      + intros (r & Hr & Rr). rewrite (K2 r Hr (given_effect E c r EffPermit Rr)) in Rr. discriminate.
      + intros (r & Hr & Er & Rr). rewrite (K2 r Hr Er) in Rr. discriminate.
    - congruence.
  Qed.

  Lemma first_decides : forall e e', e <> e' -> (forall r, In r rules -> rule_eval E c r <> Ok Indeterminate) ->
    exists d, d <> Indeterminate /\
      policy_eval E c (PPolicy m t (Some FirstApplicable) (of_effect e rules ++ of_effect e' rules)) = Ok d.
  Proof using HA HT.
    intros e e' N HN. rewrite first_eq by apply both_in. destruct (two_ok _ (both_in e e')) as (d & Hd). exists d. split; [|exact Hd].
    apply two_effects in Hd; [|exact N]. intros ->.
    destruct Hd as [[X _]|[[X _]|[[X _]|[_ (r & Hr & Rr)]]]]; [discriminate|destruct e; discriminate|destruct e'; discriminate|].
    exact (HN r Hr Rr).
  Qed.
  Lemma first_none : forall e e', e <> e' -> (forall r, In r rules -> rule_eval E c r = Ok NotApplicable) ->
    policy_eval E c (PPolicy m t (Some FirstApplicable) (of_effect e rules ++ of_effect e' rules)) = Ok NotApplicable.
  Proof using HA HT.
    intros e e' N HN. rewrite first_eq by apply both_in. destruct (two_ok _ (both_in e e')) as (d & Hd). rewrite Hd.
    apply two_effects in Hd; [|exact N].
    destruct Hd as [[-> _]|[[_ (r & Hr & Rr)]|[[_ [(r & Hr & Rr) _]]|[_ (r & Hr & Rr)]]]]; [reflexivity| | |];
      rewrite (HN r Hr) in Rr; [destruct e|destruct e'|]; discriminate.
  Qed.
End First.

(** ** Policies *)
Lemma policies_fa_app : forall ev l1 l2, policies_first_applicable ev (l1 ++ l2) =
  let* d := policies_first_applicable ev l1 in
  match d with NotApplicable => policies_first_applicable ev l2 | _ => Ok d end.
Proof.
  intros ev l1 l2. induction l1 as [|r l1 IH]; [reflexivity|]. cbn [app policies_first_applicable].
  destruct (ev r) as [[| | |]|e]; cbn [bind]; auto.
Qed.

Lemma policies_two : forall E c l d,
  (forall p, In p l -> policy_eval E c p = Ok d \/ policy_eval E c p = Ok NotApplicable) ->
  (policies_first_applicable (policy_eval E c) l = Ok NotApplicable /\ forall p, In p l -> policy_eval E c p = Ok NotApplicable) \/
  (policies_first_applicable (policy_eval E c) l = Ok d /\ exists p, In p l /\ policy_eval E c p = Ok d).
Proof.
  intros E c l d. induction l as [|x l IH]; intros H; [left; split; [reflexivity|intros p []]|].
  cbn [policies_first_applicable].
  destruct IH as [[-> K]|[-> (p & K1 & K2)]]; [intros p Hp; apply H; right; exact Hp| |];
    destruct (H x (or_introl eq_refl)) as [Hx|Hx]; rewrite Hx; cbn [bind].
  - right. split; [destruct d; reflexivity|]. exists x. split; [left; reflexivity|exact Hx].
  - left. split; [reflexivity|]. intros p [<-|Hp]; auto.
  - right. split; [destruct d; reflexivity|]. exists x. split; [left; reflexivity|exact Hx].
  - right. split; [reflexivity|]. exists p. split; [right; exact K1|exact K2].
Qed.

Lemma set_first : forall E c m t l, target_accepts E c t ->
  (forall p, In p l -> is_ok (policy_eval E c p) = true) ->
  policy_eval E c (PPolicySet m t (Some FirstApplicable) l) = policies_first_applicable (policy_eval E c) l.
Proof.
  intros E c m t l HT H. cbn [policy_eval combine_policies].
  assert (K : exists d, policies_first_applicable (policy_eval E c) l = Ok d).
  { induction l as [|x l IH]; cbn [policies_first_applicable]; [eauto|].
    specialize (H x (or_introl eq_refl)) as Hx. destruct (policy_eval E c x) as [d|e]; [|discriminate]. cbn [bind].
    destruct d; eauto. apply IH. intros p Hp. apply H. right. exact Hp. }
  destruct K as (d & ->). unfold with_target. destruct t as [t0|]; [rewrite (HT t0 eq_refl)|]; reflexivity.
Qed.
