(** Lemmas about exchanged effects and about the choice of an algorithm. *)
From Verif Require Import Eval SpecEval SpecMirror EvalFacts.

Lemma catch_other : forall o, catch_exception (other_outcome o) = other_outcome (catch_exception o).
Proof. intros [d|e]; cbn; [reflexivity|]. destruct (is_exception e); reflexivity. Qed.

Lemma mirror_rule_eval : forall E c r, rule_eval E c (mirror_rule r) = other_outcome (rule_eval E c r).
Proof.
  intros E c r. unfold rule_eval. rewrite <- catch_other. f_equal. unfold rule_body. cbn [mirror_rule rl_target rl_condition rl_effect].
  destruct (match rl_target r with Some t => target_match E c t | None => Ok true end) as [b|e]; [|reflexivity].
  cbn [bind]. destruct (negb b); [reflexivity|].
  destruct (match rl_condition r with Some cond => eval_condition E c cond | None => Ok (py_bool true) end) as [v|e];
    [|reflexivity].
  cbn [bind]. destruct (truthy v); [|reflexivity]. destruct (rl_effect r) as [[|]|]; reflexivity.
Qed.

Lemma mirror_deny : forall E c l a b d,
  rules_deny_overrides (rule_eval E c) a b d (map mirror_rule l) =
  other_outcome (rules_permit_overrides (rule_eval E c) a b d l).
Proof.
  intros E c. induction l as [|r l IH]; intros a b d; cbn [map rules_deny_overrides rules_permit_overrides].
  - destruct b, d, a; reflexivity.
  - rewrite mirror_rule_eval. destruct (rule_eval E c r) as [[| | |]|e]; cbn [other_outcome bind other_decision]; auto.
    cbn [mirror_rule rl_effect]. destruct (rl_effect r) as [[|]|]; cbn [option_map other_effect]; auto.
Qed.

Lemma mirror_permit : forall E c l a b d,
  rules_permit_overrides (rule_eval E c) a b d (map mirror_rule l) =
  other_outcome (rules_deny_overrides (rule_eval E c) a b d l).
Proof.
  intros E c. induction l as [|r l IH]; intros a b d; cbn [map rules_deny_overrides rules_permit_overrides].
  - destruct b, d, a; reflexivity.
  - rewrite mirror_rule_eval. destruct (rule_eval E c r) as [[| | |]|e]; cbn [other_outcome bind other_decision]; auto.
    cbn [mirror_rule rl_effect]. destruct (rl_effect r) as [[|]|]; cbn [option_map other_effect]; auto.
Qed.

Lemma mirror_first : forall E c l,
  rules_first_applicable (rule_eval E c) (map mirror_rule l) =
  other_outcome (rules_first_applicable (rule_eval E c) l).
Proof.
  intros E c. induction l as [|r l IH]; cbn [map rules_first_applicable]; [reflexivity|].
  rewrite mirror_rule_eval. destruct (rule_eval E c r) as [[| | |]|e]; cbn [other_outcome bind other_decision]; auto.
Qed.

Lemma with_other : forall E c t x, with_target E c t (other_outcome x) = other_outcome (with_target E c t x).
Proof.
  intros E c t x. unfold with_target.
  destruct (match t with Some t0 => target_match E c t0 | None => Ok true end) as [b|e]; [|reflexivity].
  cbn [bind]. destruct (negb b); reflexivity.
Qed.

Lemma mirror_policy : forall E c m t alg rules,
  policy_eval E c (mirror (PPolicy m t alg rules)) = other_outcome (policy_eval E c (PPolicy m t alg rules)).
Proof.
  intros E c m t alg rules. cbn [mirror policy_eval]. rewrite <- catch_other, <- with_other. f_equal. f_equal.
  destruct alg as [[| |]|]; cbn [option_map other_algorithm combine_rules].
  - apply mirror_permit.
  - apply mirror_deny.
  - apply mirror_first.
  - reflexivity.
Qed.

Section Sets.
  Variable E : env.
  Variable c : context.
  Variable l : list policybase.
  Hypothesis M : Forall (fun p => policy_eval E c (mirror p) = other_outcome (policy_eval E c p)) l.

  Lemma mirror_policies_first :
    policies_first_applicable (policy_eval E c) (map mirror l) =
    other_outcome (policies_first_applicable (policy_eval E c) l).
  Proof using M.
    induction M as [|p q Hp Hq IH]; cbn [map policies_first_applicable]; [reflexivity|].
    rewrite Hp. destruct (policy_eval E c p) as [[| | |]|e]; cbn [other_outcome bind other_decision]; auto.
  Qed.

  Hypothesis D : Forall (fun q => policy_eval E c q <> Ok Indeterminate) l.

  Lemma mirror_policies_deny : forall a,
    policies_deny_overrides (policy_eval E c) a (map mirror l) =
    other_outcome (policies_permit_overrides (policy_eval E c) false a l).
  Proof using M D.
    induction M as [|p q Hp Hq IH]; intros a; cbn [map policies_deny_overrides policies_permit_overrides].
    - destruct a; reflexivity.
    - rewrite Hp. inversion D as [|? ? D1 D2]; subst.
      destruct (policy_eval E c p) as [[| | |]|e]; cbn [other_outcome bind other_decision]; auto. congruence.
  Qed.

  Lemma mirror_policies_permit : forall a,
    policies_permit_overrides (policy_eval E c) false a (map mirror l) =
    other_outcome (policies_deny_overrides (policy_eval E c) a l).
  Proof using M D.
    induction M as [|p q Hp Hq IH]; intros a; cbn [map policies_deny_overrides policies_permit_overrides].
    - destruct a; reflexivity.
    - rewrite Hp. inversion D as [|? ? D1 D2]; subst.
      destruct (policy_eval E c p) as [[| | |]|e]; cbn [other_outcome bind other_decision]; auto. congruence.
  Qed.
End Sets.

Lemma mirror_settled : forall E c p, settled E c p ->
  policy_eval E c (mirror p) = other_outcome (policy_eval E c p).
Proof.
  intros E c p. induction p as [m t alg rules|m t alg ps IH] using policybase_ind'; intros H.
  - apply mirror_policy.
  - assert (S : Forall (settled E c) ps) by (inversion H; subst; assumption).
    assert (M : Forall (fun p => policy_eval E c (mirror p) = other_outcome (policy_eval E c p)) ps).
    { rewrite Forall_forall in *. intros p Hp. apply (IH p Hp), S, Hp. }
    cbn [mirror policy_eval]. rewrite <- catch_other, <- with_other. f_equal. f_equal.
    destruct alg as [[| |]|]; cbn [option_map other_algorithm combine_policies]; [| | |reflexivity].
    + apply mirror_policies_permit; [exact M|]. inversion H; subst; assumption.
    + apply mirror_policies_deny; [exact M|]. inversion H; subst; assumption.
    + apply mirror_policies_first, M.
Qed.

Lemma other_effect_twice : forall e, other_effect (other_effect e) = e.
Proof. intros [|]; reflexivity. Qed.

Lemma mirror_twice : forall p, mirror (mirror p) = p.
Proof.
  intros p. induction p as [m t alg rules|m t alg ps IH] using policybase_ind'; cbn [mirror]; f_equal.
  - destruct alg as [[| |]|]; reflexivity.
  - rewrite map_map. rewrite <- (map_id rules) at 2. apply map_ext. intros [i e tg cd ds]. unfold mirror_rule. cbn.
    f_equal. destruct e as [[|]|]; reflexivity.
  - destruct alg as [[| |]|]; reflexivity.
  - rewrite map_map. rewrite <- (map_id ps) at 2. apply map_ext_in. intros q Hq. rewrite Forall_forall in IH. exact (IH q Hq).
Qed.

(** ** The choice of the algorithm: rules *)
Section Rules.
  Variable ev : rule -> res decision.

  (** What a Permit of deny-overrides tells: no Deny, no exception. *)
  Lemma do_permit : forall l a b d, rules_deny_overrides ev a b d l = Ok Permit ->
    (forall a' b' d', rules_permit_overrides ev a' b' d' l = Ok Permit) \/
    (d = true /\ forall x, In x l -> ev x = Ok NotApplicable \/ (ev x = Ok Indeterminate /\ rl_effect x <> None)).
  Proof using.
    induction l as [|x l IH]; intros a b d H; cbn [rules_deny_overrides] in H.
    - right. split; [destruct b; [discriminate|]; destruct d; [reflexivity|]; destruct a; discriminate|intros x []].
    - destruct (ev x) as [o|e] eqn:E; [|discriminate]. cbn [bind] in H.
      destruct o.
      + left. intros. cbn [rules_permit_overrides]. rewrite E. reflexivity.
      + discriminate.
      + destruct (rl_effect x) as [[|]|] eqn:F; [| |discriminate]; apply IH in H;
          destruct H as [H|[-> H]];
          try (left; intros; cbn [rules_permit_overrides]; rewrite E; cbn [bind]; rewrite F; apply H);
          right; (split; [reflexivity|]); intros y [<-|Hy]; auto; right; split; [exact E|congruence|exact E|congruence].
      + apply IH in H. destruct H as [H|[-> H]].
        * left. intros. cbn [rules_permit_overrides]. rewrite E. apply H.
        * right. split; [reflexivity|]. intros y [<-|Hy]; auto.
  Qed.

  Lemma po_deny : forall l a b d, rules_permit_overrides ev a b d l = Ok Deny ->
    (forall a' b' d', rules_deny_overrides ev a' b' d' l = Ok Deny) \/
    (d = true /\ forall x, In x l -> ev x = Ok NotApplicable \/ (ev x = Ok Indeterminate /\ rl_effect x <> None)).
  Proof using.
    induction l as [|x l IH]; intros a b d H; cbn [rules_permit_overrides] in H.
    - right. split; [destruct b; [discriminate|]; destruct d; [reflexivity|]; destruct a; discriminate|intros x []].
    - destruct (ev x) as [o|e] eqn:E; [|discriminate]. cbn [bind] in H.
      destruct o.
      + discriminate.
      + left. intros. cbn [rules_deny_overrides]. rewrite E. reflexivity.
      + destruct (rl_effect x) as [[|]|] eqn:F; [| |discriminate]; apply IH in H;
          destruct H as [H|[-> H]];
          try (left; intros; cbn [rules_deny_overrides]; rewrite E; cbn [bind]; rewrite F; apply H);
          right; (split; [reflexivity|]); intros y [<-|Hy]; auto; right; split; [exact E|congruence|exact E|congruence].
      + apply IH in H. destruct H as [H|[-> H]].
        * left. intros. cbn [rules_deny_overrides]. rewrite E. apply H.
        * right. split; [reflexivity|]. intros y [<-|Hy]; auto.
  Qed.

  Lemma do_po : forall l, rules_deny_overrides ev false false false l = Ok Permit ->
    rules_permit_overrides ev false false false l = Ok Permit.
  Proof using. intros l H. apply do_permit in H. destruct H as [H|[H _]]; [apply H|discriminate]. Qed.
  Lemma po_do : forall l, rules_permit_overrides ev false false false l = Ok Deny ->
    rules_deny_overrides ev false false false l = Ok Deny.
  Proof using. intros l H. apply po_deny in H. destruct H as [H|[H _]]; [apply H|discriminate]. Qed.

  Lemma fa_po : forall l a b d, rules_first_applicable ev l = Ok Permit ->
    rules_permit_overrides ev a b d l = Ok Permit.
  Proof using.
    induction l as [|x l IH]; intros a b d H; cbn [rules_first_applicable rules_permit_overrides] in *; [discriminate|].
    destruct (ev x) as [[| | |]|e]; cbn [bind] in *; try discriminate; auto.
  Qed.
  Lemma fa_do : forall l a b d, rules_first_applicable ev l = Ok Deny ->
    rules_deny_overrides ev a b d l = Ok Deny.
  Proof using.
    induction l as [|x l IH]; intros a b d H; cbn [rules_first_applicable rules_deny_overrides] in *; [discriminate|].
    destruct (ev x) as [[| | |]|e]; cbn [bind] in *; try discriminate; auto.
  Qed.

  Lemma do_fa : forall l a b d, (forall x, In x l -> ev x <> Ok Indeterminate) ->
    rules_deny_overrides ev a b d l = Ok Permit ->
    rules_first_applicable ev l = Ok Permit \/ (d = true /\ rules_first_applicable ev l = Ok NotApplicable).
  Proof using.
    induction l as [|x l IH]; intros a b d N H; cbn [rules_first_applicable rules_deny_overrides] in *.
    - right. split; [|reflexivity]. destruct b; [discriminate|]; destruct d; [reflexivity|]; destruct a; discriminate.
    - pose proof (N x (or_introl eq_refl)) as Nx.
      destruct (ev x) as [[| | |]|e]; cbn [bind] in *; try discriminate; auto; [congruence|].
      apply (IH a b d); [intros y Hy; apply N; right; exact Hy|exact H].
  Qed.
  Lemma po_fa : forall l a b d, (forall x, In x l -> ev x <> Ok Indeterminate) ->
    rules_permit_overrides ev a b d l = Ok Deny ->
    rules_first_applicable ev l = Ok Deny \/ (d = true /\ rules_first_applicable ev l = Ok NotApplicable).
  Proof using.
    induction l as [|x l IH]; intros a b d N H; cbn [rules_first_applicable rules_permit_overrides] in *.
    - right. split; [|reflexivity]. destruct b; [discriminate|]; destruct d; [reflexivity|]; destruct a; discriminate.
    - pose proof (N x (or_introl eq_refl)) as Nx.
      destruct (ev x) as [[| | |]|e]; cbn [bind] in *; try discriminate; auto; [congruence|].
      apply (IH a b d); [intros y Hy; apply N; right; exact Hy|exact H].
  Qed.

  (** One decision only. *)
  Lemma uniform_do : forall d, d = Permit \/ d = Deny -> forall l, (forall x, In x l -> ev x = Ok d \/ ev x = Ok NotApplicable) ->
    rules_deny_overrides ev false false false l = rules_first_applicable ev l.
  Proof using.
    intros d Hd. assert (G : d = Permit -> forall l, (forall x, In x l -> ev x = Ok d \/ ev x = Ok NotApplicable) ->
      rules_deny_overrides ev false false true l = Ok Permit).
    { intros -> l. induction l as [|x l IH]; intros H; cbn [rules_deny_overrides]; [reflexivity|].
      assert (K := IH (fun y Hy => H y (or_intror Hy))).
      destruct (H x (or_introl eq_refl)) as [->| ->]; exact K. }
    intros l. induction l as [|x l IH]; intros H; cbn [rules_deny_overrides rules_first_applicable]; [reflexivity|].
    assert (H' : forall y, In y l -> ev y = Ok d \/ ev y = Ok NotApplicable) by (intros y Hy; apply H; right; exact Hy).
    destruct (H x (or_introl eq_refl)) as [->| ->]; cbn [bind]; [|apply IH, H'].
    destruct Hd as [->| ->]; [apply G; [reflexivity|exact H']|reflexivity].
  Qed.
  Lemma uniform_po : forall d, d = Permit \/ d = Deny -> forall l, (forall x, In x l -> ev x = Ok d \/ ev x = Ok NotApplicable) ->
    rules_permit_overrides ev false false false l = rules_first_applicable ev l.
  Proof using.
    intros d Hd. assert (G : d = Deny -> forall l, (forall x, In x l -> ev x = Ok d \/ ev x = Ok NotApplicable) ->
      rules_permit_overrides ev false false true l = Ok Deny).
    { intros -> l. induction l as [|x l IH]; intros H; cbn [rules_permit_overrides]; [reflexivity|].
      assert (K := IH (fun y Hy => H y (or_intror Hy))).
      destruct (H x (or_introl eq_refl)) as [->| ->]; exact K. }
    intros l. induction l as [|x l IH]; intros H; cbn [rules_permit_overrides rules_first_applicable]; [reflexivity|].
    assert (H' : forall y, In y l -> ev y = Ok d \/ ev y = Ok NotApplicable) by (intros y Hy; apply H; right; exact Hy).
    destruct (H x (or_introl eq_refl)) as [->| ->]; cbn [bind]; [|apply IH, H'].
    destruct Hd as [->| ->]; [reflexivity|apply G; [reflexivity|exact H']].
  Qed.
End Rules.

(** ** Policies *)
Section Policies.
  Variable ev : policybase -> res decision.

  Lemma pdo_pfa : forall l a, policies_deny_overrides ev a l = Ok Permit ->
    policies_first_applicable ev l = Ok Permit \/ (a = true /\ policies_first_applicable ev l = Ok NotApplicable).
  Proof using.
    induction l as [|x l IH]; intros a H; cbn [policies_deny_overrides policies_first_applicable] in *.
    - right. destruct a; [auto|discriminate].
    - destruct (ev x) as [[| | |]|e]; cbn [bind] in *; try discriminate; auto.
  Qed.
  Lemma pfa_ppo : forall l a b, policies_first_applicable ev l = Ok Permit ->
    policies_permit_overrides ev a b l = Ok Permit.
  Proof using.
    induction l as [|x l IH]; intros a b H; cbn [policies_permit_overrides policies_first_applicable] in *; [discriminate|].
    destruct (ev x) as [[| | |]|e]; cbn [bind] in *; try discriminate; auto.
  Qed.
  Lemma pfa_pdo : forall l a, policies_first_applicable ev l = Ok Deny ->
    policies_deny_overrides ev a l = Ok Deny.
  Proof using.
    induction l as [|x l IH]; intros a H; cbn [policies_deny_overrides policies_first_applicable] in *; [discriminate|].
    destruct (ev x) as [[| | |]|e]; cbn [bind] in *; try discriminate; auto.
  Qed.
  Lemma ppo_pdo : forall l a b, policies_permit_overrides ev a b l = Ok Deny ->
    (forall d, policies_deny_overrides ev d l = Ok Deny) \/ b = true.
  Proof using.
    induction l as [|x l IH]; intros a b H; cbn [policies_permit_overrides policies_deny_overrides] in *.
    - right. destruct b; [reflexivity|destruct a; discriminate].
    - destruct (ev x) as [[| | |]|e]; cbn [bind] in *; try discriminate; auto; apply IH in H;
        destruct H as [H|H]; auto.
  Qed.

  Lemma uniform_pdo : forall d, d = Permit \/ d = Deny -> forall l, (forall x, In x l -> ev x = Ok d \/ ev x = Ok NotApplicable) ->
    policies_deny_overrides ev false l = policies_first_applicable ev l.
  Proof using.
    intros d Hd. assert (G : d = Permit -> forall l, (forall x, In x l -> ev x = Ok d \/ ev x = Ok NotApplicable) ->
      policies_deny_overrides ev true l = Ok Permit).
    { intros -> l. induction l as [|x l IH]; intros H; cbn [policies_deny_overrides]; [reflexivity|].
      assert (K := IH (fun y Hy => H y (or_intror Hy))).
      destruct (H x (or_introl eq_refl)) as [->| ->]; exact K. }
    intros l. induction l as [|x l IH]; intros H; cbn [policies_deny_overrides policies_first_applicable]; [reflexivity|].
    assert (H' : forall y, In y l -> ev y = Ok d \/ ev y = Ok NotApplicable) by (intros y Hy; apply H; right; exact Hy).
    destruct (H x (or_introl eq_refl)) as [->| ->]; cbn [bind]; [|apply IH, H'].
    destruct Hd as [->| ->]; [apply G; [reflexivity|exact H']|reflexivity].
  Qed.
  Lemma uniform_ppo : forall d, d = Permit \/ d = Deny -> forall l, (forall x, In x l -> ev x = Ok d \/ ev x = Ok NotApplicable) ->
    policies_permit_overrides ev false false l = policies_first_applicable ev l.
  Proof using.
    intros d Hd. assert (G : d = Deny -> forall l, (forall x, In x l -> ev x = Ok d \/ ev x = Ok NotApplicable) ->
      policies_permit_overrides ev false true l = Ok Deny).
    { intros -> l. induction l as [|x l IH]; intros H; cbn [policies_permit_overrides]; [reflexivity|].
      assert (K := IH (fun y Hy => H y (or_intror Hy))).
      destruct (H x (or_introl eq_refl)) as [->| ->]; exact K. }
    intros l. induction l as [|x l IH]; intros H; cbn [policies_permit_overrides policies_first_applicable]; [reflexivity|].
    assert (H' : forall y, In y l -> ev y = Ok d \/ ev y = Ok NotApplicable) by (intros y Hy; apply H; right; exact Hy).
    destruct (H x (or_introl eq_refl)) as [->| ->]; cbn [bind]; [|apply IH, H'].
    destruct Hd as [->| ->]; [reflexivity|apply G; [reflexivity|exact H']].
  Qed.
End Policies.

(** ** Whole policies *)
Lemma decided_ok : forall E c t x d, d = Permit \/ d = Deny ->
  catch_exception (with_target E c t x) = Ok d -> x = Ok d /\ forall y, y = Ok d -> catch_exception (with_target E c t y) = Ok d.
Proof.
  intros E c t x d Hd H. unfold with_target in *.
  destruct (match t with Some t0 => target_match E c t0 | None => Ok true end) as [b|e]; cbn [bind] in *.
  - destruct (negb b); cbn in H; [destruct Hd; subst; discriminate|].
    split; [|intros y ->; reflexivity]. destruct x as [d'|e]; cbn in H; [exact H|].
    destruct (is_exception e); [|discriminate]. destruct Hd; subst; discriminate.
  - cbn in H. destruct (is_exception e); [|discriminate]. destruct Hd; subst; discriminate.
Qed.
