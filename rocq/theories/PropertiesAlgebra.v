(** Property C63: algebra of combining. *)
From Verif Require Import Eval SpecEval SpecAlgebra Sample AlgebraFacts.

(** ** C63 *)

(** A rule that is not applicable to the request may be inserted anywhere, under
    every algorithm. *)
Theorem C63_inapplicable_rule : forall E c m t alg l1 r l2,
  rule_eval E c r = Ok NotApplicable ->
  policy_eval E c (PPolicy m t alg (l1 ++ r :: l2)) = policy_eval E c (PPolicy m t alg (l1 ++ l2)).
Proof.
  intros E c m t alg l1 r l2 H. apply policy_same_rules. intros a _. apply rules_skip, H.
Qed.

(** Likewise a policy or policy set that is not applicable. *)
Theorem C63_inapplicable_policy : forall E c m t alg l1 p l2,
  policy_eval E c p = Ok NotApplicable ->
  policy_eval E c (PPolicySet m t alg (l1 ++ p :: l2)) =
  policy_eval E c (PPolicySet m t alg (l1 ++ l2)).
Proof. exact set_skip. Qed.

(** A further copy of a rule, or of a child policy, after the first changes nothing. *)
Theorem C63_repeated_rule : forall E c m t alg l1 r l2 l3,
  policy_eval E c (PPolicy m t alg (l1 ++ r :: l2 ++ r :: l3)) =
  policy_eval E c (PPolicy m t alg (l1 ++ r :: l2 ++ l3)).
Proof. intros. apply policy_same_rules. intros a _. apply rules_dup. Qed.

Theorem C63_repeated_policy : forall E c m t alg l1 p l2 l3,
  policy_eval E c (PPolicySet m t alg (l1 ++ p :: l2 ++ p :: l3)) =
  policy_eval E c (PPolicySet m t alg (l1 ++ p :: l2 ++ l3)).
Proof. intros. apply set_same_children. intros a _. apply policies_dup. Qed.

(** A nested policy set without target and with the algorithm of the enclosing one
    may be replaced by its children. *)
Theorem C63_flatten : forall E c m m' t alg l1 inner l2,
  policy_eval E c (PPolicySet m t (Some alg) (l1 ++ PPolicySet m' None (Some alg) inner :: l2)) =
  policy_eval E c (PPolicySet m t (Some alg) (l1 ++ inner ++ l2)).
Proof. exact set_flatten. Qed.

(** A policy set of one child without target decides as the child does; except that
    deny-overrides makes Deny of Indeterminate. *)
Theorem C63_single_child : forall E c m alg p,
  (alg = DenyOverrides -> policy_eval E c p <> Ok Indeterminate) ->
  policy_eval E c (PPolicySet m None (Some alg) [p]) = policy_eval E c p.
Proof.
  intros E c m alg p H. rewrite set_plain, combine_one. destruct alg; auto.
  specialize (H eq_refl). destruct (policy_eval E c p) as [[]|]; congruence.
Qed.
Theorem C63_single_child_indeterminate : forall E c m p,
  policy_eval E c p = Ok Indeterminate ->
  policy_eval E c (PPolicySet m None (Some DenyOverrides) [p]) = Ok Deny.
Proof. intros E c m p H. rewrite set_plain, combine_one, H. reflexivity. Qed.

(** The outcome for the children [l1 ++ l2] is determined by the outcomes for [l1] and
    for [l2]: it is the decision of higher rank. *)
Theorem C63_split : forall E c m alg l1 l2,
  together alg (policy_eval E c (PPolicySet m None (Some alg) l1))
    (policy_eval E c (PPolicySet m None (Some alg) l2))
    (policy_eval E c (PPolicySet m None (Some alg) (l1 ++ l2))).
Proof. exact set_together. Qed.
Theorem C63_split_determines : forall alg a b o o',
  together alg a b o -> together alg a b o' -> o = o'.
Proof. exact together_determines. Qed.

(** Adding a rule that has an effect and does not let an exception escape never takes
    a Deny of deny-overrides or a Permit of permit-overrides away. *)
Theorem C63_deny_stays : forall E c m t l1 r l2,
  is_ok (rule_eval E c r) = true -> rl_effect r <> None ->
  policy_eval E c (PPolicy m t (Some DenyOverrides) (l1 ++ l2)) = Ok Deny ->
  policy_eval E c (PPolicy m t (Some DenyOverrides) (l1 ++ r :: l2)) = Ok Deny.
Proof.
  intros E c m t l1 r l2 Hr He H. cbn [policy_eval] in *.
  destruct (with_target_ok _ _ _ _ _ H) as [H1 H2]; try discriminate. rewrite H2.
  cbn [combine_rules] in *. rewrite deny_rules_more; auto.
  destruct (rule_eval E c r); [eauto|discriminate].
Qed.
Theorem C63_permit_stays : forall E c m t l1 r l2,
  is_ok (rule_eval E c r) = true -> rl_effect r <> None ->
  policy_eval E c (PPolicy m t (Some PermitOverrides) (l1 ++ l2)) = Ok Permit ->
  policy_eval E c (PPolicy m t (Some PermitOverrides) (l1 ++ r :: l2)) = Ok Permit.
Proof.
  intros E c m t l1 r l2 Hr He H. cbn [policy_eval] in *.
  destruct (with_target_ok _ _ _ _ _ H) as [H1 H2]; try discriminate. rewrite H2.
  cbn [combine_rules] in *. rewrite permit_rules_more; auto.
  destruct (rule_eval E c r); [eauto|discriminate].
Qed.

(** Replacing subtrees anywhere in a tree by subtrees with the same decision keeps the
    decision. *)
Theorem C63_replace_parts : forall E c p q,
  same_but_equal_parts E c p q -> policy_eval E c p = policy_eval E c q.
Proof. exact same_decision. Qed.

(** *** Examples *)
Definition al_p := spol None FirstApplicable [srule EffPermit None None].
Definition al_d := spol None FirstApplicable [srule EffDeny None None].
Definition al_na := spol (Some t_admin) FirstApplicable [srule EffDeny None None].
Definition al_i := spol (Some t_error) FirstApplicable [srule EffPermit None None].

Example C63_hypotheses_met :
  rule_eval sE sctx r_na = Ok NotApplicable /\
  policy_eval sE sctx al_na = Ok NotApplicable /\
  policy_eval sE sctx al_i = Ok Indeterminate /\
  map (fun alg => policy_eval sE sctx (sset None alg [al_i; al_d])) [DenyOverrides; PermitOverrides; FirstApplicable]
    = [Ok Deny; Ok Deny; Ok Indeterminate] /\
  map (fun alg => policy_eval sE sctx (sset None alg [al_na; al_p])) [DenyOverrides; PermitOverrides; FirstApplicable]
    = [Ok Permit; Ok Permit; Ok Permit] /\
  map (fun alg => policy_eval sE sctx (sset None alg ([al_i; al_d] ++ [al_na; al_p])))
    [DenyOverrides; PermitOverrides; FirstApplicable]
    = [Ok Deny; Ok Permit; Ok Indeterminate] /\
  is_ok (rule_eval sE sctx r_perr) = true /\
  policy_eval sE sctx (spol (Some t_staff) DenyOverrides [r_permit; r_perr; r_deny]) = Ok Deny.
Proof. repeat split; vm_compute; reflexivity. Qed.

(** Different algorithms do not flatten. *)
Example C63_flatten_needs_same_algorithm :
  policy_eval sE sctx (sset None PermitOverrides [sset None DenyOverrides [al_p; al_d]]) = Ok Deny /\
  policy_eval sE sctx (sset None PermitOverrides [al_p; al_d]) = Ok Permit.
Proof. split; vm_compute; reflexivity. Qed.

(** A rule without effect that fails
    takes the Deny away if it comes first. *)
Example C63_effect_needed :
  policy_eval sE sctx (spol None DenyOverrides [r_deny]) = Ok Deny /\
  policy_eval sE sctx (spol None DenyOverrides [r_noeff; r_deny]) = Ok Indeterminate.
Proof. split; vm_compute; reflexivity. Qed.

Example C63_parts :
  same_but_equal_parts sE sctx
    (sset (Some t_staff) DenyOverrides [al_na; sset None PermitOverrides [al_i; al_d]])
    (sset (Some t_staff) DenyOverrides [al_na; sset None PermitOverrides [al_i; sset None DenyOverrides [al_i]]]).
Proof.
  apply SSet. constructor; [apply SPart; reflexivity|]. constructor; [|constructor].
  apply SSet. constructor; [apply SPart; reflexivity|]. constructor; [|constructor].
  apply SPart. vm_compute. reflexivity.
Qed.

Print Assumptions C63_inapplicable_rule.
Print Assumptions C63_inapplicable_policy.
Print Assumptions C63_repeated_rule.
Print Assumptions C63_repeated_policy.
Print Assumptions C63_flatten.
Print Assumptions C63_single_child.
Print Assumptions C63_single_child_indeterminate.
Print Assumptions C63_split.
Print Assumptions C63_split_determines.
Print Assumptions C63_deny_stays.
Print Assumptions C63_permit_stays.
Print Assumptions C63_replace_parts.
