(** Lemmas about the algebra of combining. *)
From Coq Require Import Lia.
From Verif Require Import Eval SpecEval SpecAlgebra EvalFacts.

(** ** Rules *)
Section Rules.
  Variable ev : rule -> res decision.

  Lemma deny_rules_skip : forall l1 r l2 a b c, ev r = Ok NotApplicable ->
    rules_deny_overrides ev a b c (l1 ++ r :: l2) = rules_deny_overrides ev a b c (l1 ++ l2).
  Proof.
    intros l1 r l2 a b c H. revert a b c.
    induction l1 as [|x l1 IH]; intros a b c; cbn [app rules_deny_overrides]; [rewrite H; reflexivity|].
    destruct (ev x) as [[]|]; cbn [bind]; auto. destruct (rl_effect x) as [[]|]; auto.
  Qed.
  Lemma permit_rules_skip : forall l1 r l2 a b c, ev r = Ok NotApplicable ->
    rules_permit_overrides ev a b c (l1 ++ r :: l2) = rules_permit_overrides ev a b c (l1 ++ l2).
  Proof.
    intros l1 r l2 a b c H. revert a b c.
    induction l1 as [|x l1 IH]; intros a b c; cbn [app rules_permit_overrides]; [rewrite H; reflexivity|].
    destruct (ev x) as [[]|]; cbn [bind]; auto. destruct (rl_effect x) as [[]|]; auto.
  Qed.
  Lemma first_rules_skip : forall l1 r l2, ev r = Ok NotApplicable ->
    rules_first_applicable ev (l1 ++ r :: l2) = rules_first_applicable ev (l1 ++ l2).
  Proof.
    intros l1 r l2 H.
    induction l1 as [|x l1 IH]; cbn [app rules_first_applicable]; [rewrite H; reflexivity|].
    destruct (ev x) as [[]|]; cbn [bind]; auto.
  Qed.
  Lemma rules_skip : forall alg l1 r l2, ev r = Ok NotApplicable ->
    combine_rules alg ev (l1 ++ r :: l2) = combine_rules alg ev (l1 ++ l2).
  Proof.
    intros [] l1 r l2 H; [apply deny_rules_skip|apply permit_rules_skip|apply first_rules_skip]; exact H.
  Qed.

  (** The second copy of a rule sets flags that are set. *)
  Lemma deny_rules_again : forall l2 r l3 a b c,
    (ev r = Ok NotApplicable \/
     (ev r = Ok Permit /\ c = true) \/
     (ev r = Ok Indeterminate /\ a = true /\
      ((rl_effect r = Some EffDeny /\ b = true) \/ rl_effect r = Some EffPermit))) ->
    rules_deny_overrides ev a b c (l2 ++ r :: l3) = rules_deny_overrides ev a b c (l2 ++ l3).
  Proof.
    intros l2 r l3. induction l2 as [|x l2 IH]; intros a b c H; cbn [app rules_deny_overrides].
    - destruct H as [H|[[H ->]|[H [-> H']]]]; rewrite H; cbn [bind]; try reflexivity.
      destruct H' as [[H' ->]|H']; rewrite H'; reflexivity.
    - destruct (ev x) as [[]|]; cbn [bind]; auto.
      + apply IH. tauto.
      + destruct (rl_effect x) as [[]|]; auto; apply IH; tauto.
  Qed.
  Lemma permit_rules_again : forall l2 r l3 a b c,
    (ev r = Ok NotApplicable \/
     (ev r = Ok Deny /\ c = true) \/
     (ev r = Ok Indeterminate /\ a = true /\
      ((rl_effect r = Some EffPermit /\ b = true) \/ rl_effect r = Some EffDeny))) ->
    rules_permit_overrides ev a b c (l2 ++ r :: l3) = rules_permit_overrides ev a b c (l2 ++ l3).
  Proof.
    intros l2 r l3. induction l2 as [|x l2 IH]; intros a b c H; cbn [app rules_permit_overrides].
    - destruct H as [H|[[H ->]|[H [-> H']]]]; rewrite H; cbn [bind]; try reflexivity.
      destruct H' as [[H' ->]|H']; rewrite H'; reflexivity.
    - destruct (ev x) as [[]|]; cbn [bind]; auto.
      + apply IH. tauto.
      + destruct (rl_effect x) as [[]|]; auto; apply IH; tauto.
  Qed.

  Lemma deny_rules_dup : forall l1 r l2 l3 a b c,
    rules_deny_overrides ev a b c (l1 ++ r :: l2 ++ r :: l3) =
    rules_deny_overrides ev a b c (l1 ++ r :: l2 ++ l3).
  Proof.
    intros l1 r l2 l3. induction l1 as [|x l1 IH]; intros a b c; cbn [app rules_deny_overrides].
    - destruct (ev r) as [[]|] eqn:E; cbn [bind]; try reflexivity.
      + apply deny_rules_again. tauto.
      + destruct (rl_effect r) as [[]|] eqn:F; try reflexivity; apply deny_rules_again; tauto.
      + apply deny_rules_again. tauto.
    - destruct (ev x) as [[]|]; cbn [bind]; auto. destruct (rl_effect x) as [[]|]; auto.
  Qed.
  Lemma permit_rules_dup : forall l1 r l2 l3 a b c,
    rules_permit_overrides ev a b c (l1 ++ r :: l2 ++ r :: l3) =
    rules_permit_overrides ev a b c (l1 ++ r :: l2 ++ l3).
  Proof.
    intros l1 r l2 l3. induction l1 as [|x l1 IH]; intros a b c; cbn [app rules_permit_overrides].
    - destruct (ev r) as [[]|] eqn:E; cbn [bind]; try reflexivity.
      + apply permit_rules_again. tauto.
      + destruct (rl_effect r) as [[]|] eqn:F; try reflexivity; apply permit_rules_again; tauto.
      + apply permit_rules_again. tauto.
    - destruct (ev x) as [[]|]; cbn [bind]; auto. destruct (rl_effect x) as [[]|]; auto.
  Qed.
  Lemma first_rules_dup : forall l1 r l2 l3,
    rules_first_applicable ev (l1 ++ r :: l2 ++ r :: l3) =
    rules_first_applicable ev (l1 ++ r :: l2 ++ l3).
  Proof.
    intros l1 r l2 l3. induction l1 as [|x l1 IH]; cbn [app rules_first_applicable].
    - destruct (ev r) as [[]|] eqn:E; cbn [bind]; try reflexivity. apply first_rules_skip, E.
    - destruct (ev x) as [[]|]; cbn [bind]; auto.
  Qed.
  Lemma rules_dup : forall alg l1 r l2 l3,
    combine_rules alg ev (l1 ++ r :: l2 ++ r :: l3) = combine_rules alg ev (l1 ++ r :: l2 ++ l3).
  Proof. intros []; intros; [apply deny_rules_dup|apply permit_rules_dup|apply first_rules_dup]. Qed.

  (** A decision of the overriding kind stays when rules are added that do not fail. *)
  Lemma deny_rules_more : forall l1 r l2 a b c,
    (exists d, ev r = Ok d) -> rl_effect r <> None ->
    rules_deny_overrides ev a b c (l1 ++ l2) = Ok Deny ->
    rules_deny_overrides ev a b c (l1 ++ r :: l2) = Ok Deny.
  Proof.
    intros l1 r l2 a b c [d Hd] He.
    assert (K : forall l a b c a' b' c', rules_deny_overrides ev a b c l = Ok Deny ->
                rules_deny_overrides ev a' b' c' l = Ok Deny).
    { induction l as [|x l IH]; intros x1 x2 x3 y1 y2 y3; cbn [rules_deny_overrides].
      - destruct x2, x3, x1; discriminate.
      - destruct (ev x) as [[]|]; cbn [bind]; eauto. destruct (rl_effect x) as [[]|]; eauto. }
    revert a b c. induction l1 as [|x l1 IH]; intros a b c; cbn [app rules_deny_overrides].
    - intros H. rewrite Hd. cbn [bind]. destruct d; eauto. destruct (rl_effect r) as [[]|]; eauto.
      congruence.
    - destruct (ev x) as [[]|]; cbn [bind]; eauto. destruct (rl_effect x) as [[]|]; eauto.
  Qed.
  Lemma permit_rules_more : forall l1 r l2 a b c,
    (exists d, ev r = Ok d) -> rl_effect r <> None ->
    rules_permit_overrides ev a b c (l1 ++ l2) = Ok Permit ->
    rules_permit_overrides ev a b c (l1 ++ r :: l2) = Ok Permit.
  Proof.
    intros l1 r l2 a b c [d Hd] He.
    assert (K : forall l a b c a' b' c', rules_permit_overrides ev a b c l = Ok Permit ->
                rules_permit_overrides ev a' b' c' l = Ok Permit).
    { induction l as [|x l IH]; intros x1 x2 x3 y1 y2 y3; cbn [rules_permit_overrides].
      - destruct x2, x3, x1; discriminate.
      - destruct (ev x) as [[]|]; cbn [bind]; eauto. destruct (rl_effect x) as [[]|]; eauto. }
    revert a b c. induction l1 as [|x l1 IH]; intros a b c; cbn [app rules_permit_overrides].
    - intros H. rewrite Hd. cbn [bind]. destruct d; eauto. destruct (rl_effect r) as [[]|]; eauto.
      congruence.
    - destruct (ev x) as [[]|]; cbn [bind]; eauto. destruct (rl_effect x) as [[]|]; eauto.
  Qed.
End Rules.

(** ** Policies *)
Section Policies.
  Variable ev : policybase -> res decision.

  (** Outcome of [l1 ++ l2] from the outcomes of [l1] and [l2]. *)
  Definition join (alg : comb_alg) (a b : res decision) : res decision :=
    match a with
    | Raise e => Raise e
    | Ok d =>
        match alg, d with
        | DenyOverrides, Permit => match b with Ok NotApplicable => Ok Permit | _ => b end
        | DenyOverrides, NotApplicable => b
        | DenyOverrides, _ => Ok d
        | PermitOverrides, Permit => Ok Permit
        | PermitOverrides, Deny => match b with Ok Permit | Raise _ => b | _ => Ok Deny end
        | PermitOverrides, Indeterminate =>
            match b with Ok NotApplicable => Ok Indeterminate | _ => b end
        | PermitOverrides, NotApplicable => b
        | FirstApplicable, NotApplicable => b
        | FirstApplicable, _ => Ok d
        end
    end.

  Lemma deny_flag : forall l, policies_deny_overrides ev true l =
    match policies_deny_overrides ev false l with Ok NotApplicable => Ok Permit | o => o end.
  Proof.
    induction l as [|p l IH]; cbn [policies_deny_overrides]; [reflexivity|].
    destruct (ev p) as [[]|]; cbn [bind]; auto.
    rewrite IH. destruct (policies_deny_overrides ev false l) as [[]|]; reflexivity.
  Qed.
  Lemma deny_join : forall l1 l2, policies_deny_overrides ev false (l1 ++ l2) =
    join DenyOverrides (policies_deny_overrides ev false l1) (policies_deny_overrides ev false l2).
  Proof.
    induction l1 as [|p l1 IH]; intros l2; cbn [app policies_deny_overrides]; [reflexivity|].
    destruct (ev p) as [[]|]; cbn [bind]; auto.
    rewrite !deny_flag, IH.
    destruct (policies_deny_overrides ev false l1) as [[]|], (policies_deny_overrides ev false l2) as [[]|];
      reflexivity.
  Qed.
  Lemma permit_flag : forall l a b, policies_permit_overrides ev a b l =
    match policies_permit_overrides ev false false l with
    | Ok Permit => Ok Permit
    | Raise e => Raise e
    | Ok Deny => Ok Deny
    | Ok Indeterminate => Ok (if b then Deny else Indeterminate)
    | Ok NotApplicable => Ok (if b then Deny else if a then Indeterminate else NotApplicable)
    end.
  Proof.
    induction l as [|p l IH]; intros a b; cbn [policies_permit_overrides].
    - destruct b, a; reflexivity.
    - destruct (ev p) as [[]|]; cbn [bind]; auto.
      + rewrite (IH a true), (IH false true).
        destruct (policies_permit_overrides ev false false l) as [[]|]; reflexivity.
      + rewrite (IH true b), (IH true false).
        destruct (policies_permit_overrides ev false false l) as [[]|], b; reflexivity.
  Qed.
  Lemma permit_join : forall l1 l2, policies_permit_overrides ev false false (l1 ++ l2) =
    join PermitOverrides (policies_permit_overrides ev false false l1)
      (policies_permit_overrides ev false false l2).
  Proof.
    induction l1 as [|p l1 IH]; intros l2; cbn [app policies_permit_overrides].
    - cbn [join]. reflexivity.
    - destruct (ev p) as [[]|]; cbn [bind]; auto.
      + rewrite (permit_flag (l1 ++ l2)), (permit_flag l1 false true), IH.
        destruct (policies_permit_overrides ev false false l1) as [[]|],
          (policies_permit_overrides ev false false l2) as [[]|]; reflexivity.
      + rewrite (permit_flag (l1 ++ l2)), (permit_flag l1 true false), IH.
        destruct (policies_permit_overrides ev false false l1) as [[]|],
          (policies_permit_overrides ev false false l2) as [[]|]; reflexivity.
  Qed.
  Lemma first_join : forall l1 l2, policies_first_applicable ev (l1 ++ l2) =
    join FirstApplicable (policies_first_applicable ev l1) (policies_first_applicable ev l2).
  Proof.
    induction l1 as [|p l1 IH]; intros l2; cbn [app policies_first_applicable]; [reflexivity|].
    destruct (ev p) as [[]|]; cbn [bind]; auto.
  Qed.
  Lemma policies_join : forall alg l1 l2,
    combine_policies alg ev (l1 ++ l2) = join alg (combine_policies alg ev l1) (combine_policies alg ev l2).
  Proof. intros []; [apply deny_join|apply permit_join|apply first_join]. Qed.

  Lemma deny_never_indeterminate : forall l a, policies_deny_overrides ev a l <> Ok Indeterminate.
  Proof.
    induction l as [|p l IH]; intros a; cbn [policies_deny_overrides]; [destruct a; discriminate|].
    destruct (ev p) as [[]|]; cbn [bind]; auto; discriminate.
  Qed.

  Lemma combine_one : forall alg p, combine_policies alg ev [p] =
    match alg, ev p with DenyOverrides, Ok Indeterminate => Ok Deny | _, o => o end.
  Proof.
    intros alg p. destruct alg; cbn [combine_policies policies_deny_overrides policies_permit_overrides
      policies_first_applicable]; destruct (ev p) as [[]|]; reflexivity.
  Qed.

  Lemma policies_dup : forall alg l1 p l2 l3,
    combine_policies alg ev (l1 ++ p :: l2 ++ p :: l3) = combine_policies alg ev (l1 ++ p :: l2 ++ l3).
  Proof.
    intros alg l1 p l2 l3. change (p :: l2 ++ p :: l3) with ([p] ++ l2 ++ [p] ++ l3).
    change (p :: l2 ++ l3) with ([p] ++ l2 ++ l3). rewrite !policies_join.
    assert (N2 := deny_never_indeterminate l2 false). assert (N3 := deny_never_indeterminate l3 false).
    rewrite !combine_one. destruct alg; cbn [combine_policies] in *.
    - destruct (policies_deny_overrides ev false l1) as [[]|], (ev p) as [[]|],
        (policies_deny_overrides ev false l2) as [[]|], (policies_deny_overrides ev false l3) as [[]|];
        cbn [join]; congruence.
    - destruct (policies_permit_overrides ev false false l1) as [[]|], (ev p) as [[]|],
        (policies_permit_overrides ev false false l2) as [[]|],
        (policies_permit_overrides ev false false l3) as [[]|];
        cbn [join]; congruence.
    - destruct (policies_first_applicable ev l1) as [[]|], (ev p) as [[]|],
        (policies_first_applicable ev l2) as [[]|], (policies_first_applicable ev l3) as [[]|];
        cbn [join]; congruence.
  Qed.
End Policies.

(** ** Whole policies and policy sets *)

Lemma catch_raised : forall r e, catch_exception r = Raise e -> is_exception e = false.
Proof.
  intros [d|e'] e; cbn; [discriminate|]. destruct (is_exception e') eqn:H; [discriminate|congruence].
Qed.
Lemma policy_eval_raised : forall E c p e, policy_eval E c p = Raise e -> is_exception e = false.
Proof. intros E c [] e; cbn [policy_eval]; apply catch_raised. Qed.

Lemma policies_raised : forall ev alg l e,
  (forall p e, In p l -> ev p = Raise e -> is_exception e = false) ->
  combine_policies alg ev l = Raise e -> is_exception e = false.
Proof.
  intros ev alg l e H.
  assert (K : forall a b, policies_deny_overrides ev a l = Raise e \/
    policies_permit_overrides ev a b l = Raise e \/ policies_first_applicable ev l = Raise e ->
    is_exception e = false).
  { induction l as [|p l IH]; intros a b; cbn.
    - destruct a, b; intros [K|[K|K]]; discriminate.
    - assert (Hp := fun e => H p e (or_introl eq_refl)).
      assert (IH' := IH (fun q e' Hq => H q e' (or_intror Hq))).
      destruct (ev p) as [[]|e0]; cbn [bind]; intros [K|[K|K]]; try discriminate;
        first [apply (IH' a b); tauto|apply (IH' true b); tauto|apply (IH' a true); tauto
              |apply Hp; congruence]. }
  destruct alg; cbn [combine_policies]; intros K'; [apply (K false false)|apply (K false false)|apply (K false false)];
    tauto.
Qed.

(** A policy set without target decides what the combining algorithm gives. *)
Lemma set_plain : forall E c m alg ps,
  policy_eval E c (PPolicySet m None (Some alg) ps) = combine_policies alg (policy_eval E c) ps.
Proof.
  intros E c m alg ps. cbn [policy_eval with_target bind negb].
  destruct (combine_policies alg (policy_eval E c) ps) as [d|e] eqn:H; [reflexivity|].
  cbn [catch_exception]. rewrite (policies_raised (policy_eval E c) alg ps e); [reflexivity| |exact H].
  intros p e' _. apply policy_eval_raised.
Qed.

Lemma set_same_children : forall E c m t alg ps qs,
  (forall a, alg = Some a ->
     combine_policies a (policy_eval E c) ps = combine_policies a (policy_eval E c) qs) ->
  policy_eval E c (PPolicySet m t alg ps) = policy_eval E c (PPolicySet m t alg qs).
Proof.
  intros E c m t [a|] ps qs H; cbn [policy_eval]; [rewrite (H a eq_refl)|]; reflexivity.
Qed.
Lemma policy_same_rules : forall E c m t alg rs rs',
  (forall a, alg = Some a -> combine_rules a (rule_eval E c) rs = combine_rules a (rule_eval E c) rs') ->
  policy_eval E c (PPolicy m t alg rs) = policy_eval E c (PPolicy m t alg rs').
Proof.
  intros E c m t [a|] ps qs H; cbn [policy_eval]; [rewrite (H a eq_refl)|]; reflexivity.
Qed.

Lemma join_na_l : forall alg b, join alg (Ok NotApplicable) b = b.
Proof. intros [] b; reflexivity. Qed.

Lemma set_skip : forall E c m t alg l1 p l2, policy_eval E c p = Ok NotApplicable ->
  policy_eval E c (PPolicySet m t alg (l1 ++ p :: l2)) = policy_eval E c (PPolicySet m t alg (l1 ++ l2)).
Proof.
  intros E c m t alg l1 p l2 H. apply set_same_children. intros a _.
  change (p :: l2) with ([p] ++ l2). rewrite !policies_join, combine_one, H.
  f_equal. destruct a; apply join_na_l.
Qed.

Lemma set_flatten : forall E c m m' t alg l1 inner l2,
  policy_eval E c (PPolicySet m t (Some alg) (l1 ++ PPolicySet m' None (Some alg) inner :: l2)) =
  policy_eval E c (PPolicySet m t (Some alg) (l1 ++ inner ++ l2)).
Proof.
  intros E c m m' t alg l1 inner l2. apply set_same_children. intros a [= <-].
  change (?x :: l2) with ([x] ++ l2). rewrite !policies_join, combine_one, set_plain.
  assert (N := deny_never_indeterminate (policy_eval E c) inner false).
  f_equal. f_equal. destruct alg; cbn [combine_policies] in *; auto.
  destruct (policies_deny_overrides (policy_eval E c) false inner) as [[]|]; congruence.
Qed.

Lemma join_together : forall alg a b, (alg = DenyOverrides -> a <> Ok Indeterminate /\ b <> Ok Indeterminate) ->
  together alg a b (join alg a b).
Proof.
  intros alg a b H. destruct a as [d|e]; [|destruct alg; apply TEscape].
  destruct alg; [destruct (H eq_refl) as [H1 H2]| |]; destruct d, b as [[]|e]; try congruence; cbn [join];
    first [apply THighest; cbn; congruence | apply TEscape2; cbn; congruence
          |apply THigher; [cbn; congruence|cbn; lia] | apply TLower; [cbn; congruence|cbn; lia]].
Qed.

Lemma set_together : forall E c m alg l1 l2,
  together alg (policy_eval E c (PPolicySet m None (Some alg) l1))
    (policy_eval E c (PPolicySet m None (Some alg) l2))
    (policy_eval E c (PPolicySet m None (Some alg) (l1 ++ l2))).
Proof.
  intros E c m alg l1 l2. rewrite !set_plain, policies_join. apply join_together.
  intros ->. split; apply deny_never_indeterminate.
Qed.

Lemma together_determines : forall alg a b o o', together alg a b o -> together alg a b o' -> o = o'.
Proof.
  intros alg a b o o' H H'. destruct H; inversion H'; subst; auto; try contradiction; try lia.
Qed.

Lemma combine_congruence : forall alg ev ev' ps qs, Forall2 (fun p q => ev p = ev' q) ps qs ->
  combine_policies alg ev ps = combine_policies alg ev' qs.
Proof.
  intros alg ev ev' ps qs H. induction H as [|p q ps qs Hpq H IH]; [destruct alg; reflexivity|].
  change (p :: ps) with ([p] ++ ps). change (q :: qs) with ([q] ++ qs).
  rewrite !policies_join, !combine_one, Hpq, IH. reflexivity.
Qed.

Fixpoint same_decision E c p q (H : same_but_equal_parts E c p q) {struct H} :
  policy_eval E c p = policy_eval E c q.
Proof.
  destruct H as [p q H|m t alg ps qs H]; [exact H|]. cbn [policy_eval]. destruct alg as [a|]; [|reflexivity].
  f_equal. f_equal. apply combine_congruence.
  revert ps qs H. fix go 3. intros ps qs [|p q ps' qs' Hpq H]; constructor; [apply same_decision, Hpq|apply go, H].
Qed.

Lemma with_target_ok : forall E c t d x, catch_exception (with_target E c t x) = Ok d ->
  d <> NotApplicable -> d <> Indeterminate ->
  x = Ok d /\ forall y, catch_exception (with_target E c t y) = catch_exception y.
Proof.
  intros E c t d x H H1 H2. unfold with_target in *.
  destruct (match t with Some t => target_match E c t | None => Ok true end) as [[]|e]; cbn [bind negb] in *.
  - split; [|reflexivity]. destruct x as [d'|e]; cbn in H; [congruence|]. destruct (is_exception e); congruence.
  - cbn in H. congruence.
  - cbn in H. destruct (is_exception e); congruence.
Qed.
