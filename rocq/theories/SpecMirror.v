(** Grants and refusals exchanged; the choice of a combining algorithm. *)
From Verif Require Export Eval SpecEval.

Definition other_effect (e : effect) : effect :=
  match e with EffPermit => EffDeny | EffDeny => EffPermit end.
Definition other_decision (d : decision) : decision :=
  match d with
  | Permit => Deny
  | Deny => Permit
  | Indeterminate => Indeterminate
  | NotApplicable => NotApplicable
  end.
Definition other_algorithm (a : comb_alg) : comb_alg :=
  match a with
  | DenyOverrides => PermitOverrides
  | PermitOverrides => DenyOverrides
  | FirstApplicable => FirstApplicable
  end.
Definition other_outcome (o : res decision) : res decision :=
  match o with Ok d => Ok (other_decision d) | Raise e => Raise e end.

(** The rule with the other effect; the policy all of whose rules are such, with the
    other algorithms.  Targets and conditions stay. *)
Definition mirror_rule (r : rule) : rule :=
  mkRule (rl_id r) (option_map other_effect (rl_effect r)) (rl_target r) (rl_condition r) (rl_description r).
Fixpoint mirror (p : policybase) : policybase :=
  match p with
  | PPolicy m t alg rules => PPolicy m t (option_map other_algorithm alg) (map mirror_rule rules)
  | PPolicySet m t alg children => PPolicySet m t (option_map other_algorithm alg) (map mirror children)
  end.

(** Every policy inside a set within [p] comes to a decision, or the set takes the
    first that applies. *)
Inductive settled (E : env) (c : context) : policybase -> Prop :=
| settled_policy : forall m t alg rules, settled E c (PPolicy m t alg rules)
| settled_first : forall m t children,
    Forall (settled E c) children -> settled E c (PPolicySet m t (Some FirstApplicable) children)
| settled_set : forall m t alg children,
    Forall (settled E c) children ->
    Forall (fun q => policy_eval E c q <> Ok Indeterminate) children ->
    settled E c (PPolicySet m t alg children).
