(** Edits of a policy that are meant to make it stricter. *)
From Verif Require Export SpecEval SpecStandard SpecMonotone.

(** A section of a target is made narrower: it demanded nothing, or every
    alternative it has now includes all the matches of one it had. *)
Definition narrower_section (old new : list (list matchel)) : Prop :=
  old = [] \/
  (new <> [] /\ forall alternative, In alternative new ->
     exists before, In before old /\ incl before alternative).
Definition narrower_target (old new : option target) : Prop :=
  match old, new with
  | None, _ => True
  | Some _, None => False
  | Some t, Some t' =>
      narrower_section (tg_subjects t) (tg_subjects t') /\
      narrower_section (tg_resources t) (tg_resources t') /\
      narrower_section (tg_actions t) (tg_actions t') /\
      narrower_section (tg_environments t) (tg_environments t')
  end.

(** A condition is added, is left as it is, or becomes one of the arguments of
    and. *)
Definition stronger_condition (old new : option (option expr)) : Prop :=
  old = None \/ new = old \/
  exists x id args, old = Some (Some x) /\ In x args /\
    new = Some (Some (XApply id (Some FnAnd) args)).

(** A Permit rule is made to apply less often, or a Deny rule more often. *)
Inductive tighter_rule (r r' : rule) : Prop :=
| TPermits :
    rl_effect r = Some EffPermit -> rl_effect r' = Some EffPermit ->
    narrower_target (rl_target r) (rl_target r') ->
    stronger_condition (rl_condition r) (rl_condition r') -> tighter_rule r r'
| TDenies :
    rl_effect r = Some EffDeny -> rl_effect r' = Some EffDeny ->
    narrower_target (rl_target r') (rl_target r) ->
    stronger_condition (rl_condition r') (rl_condition r) -> tighter_rule r r'.

(** Some items are removed, others are added anywhere, and others are changed. *)
Inductive edited {A} (changed : A -> A -> Prop) (removed added : A -> Prop)
  : list A -> list A -> Prop :=
| ENone : edited changed removed added [] []
| EChanged : forall x y l l', changed x y ->
    edited changed removed added l l' -> edited changed removed added (x :: l) (y :: l')
| ERemoved : forall x l l', removed x ->
    edited changed removed added l l' -> edited changed removed added (x :: l) l'
| EAdded : forall y l l', added y ->
    edited changed removed added l l' -> edited changed removed added l (y :: l').

(** [stricter a a']: [a'] may be put in place of [a]. *)
Definition stricter (a a' : comb_alg) : Prop :=
  a' = a \/ a = PermitOverrides \/ a' = DenyOverrides.

(** The target of a policy is left as it is; or is made narrower, if the policy
    only permits; or wider, if it now only denies. *)
Definition retargeted (p p' : policybase) (t t' : option target) : Prop :=
  t' = t \/ (only EffPermit p /\ narrower_target t t') \/ (only EffDeny p' /\ narrower_target t' t).

(** [p'] is [p] with Permit rules removed or narrowed, Deny rules added or
    widened, algorithms made stricter, policies that only permit removed, and
    policies that only deny added, at any depth. *)
Inductive tightened : policybase -> policybase -> Prop :=
| TPolicy : forall m m' t t' a a' rules rules',
    retargeted (PPolicy m t (Some a) rules) (PPolicy m' t' (Some a') rules') t t' ->
    stricter a a' ->
    edited tighter_rule (fun r => rl_effect r = Some EffPermit)
      (fun r => rl_effect r = Some EffDeny) rules rules' ->
    tightened (PPolicy m t (Some a) rules) (PPolicy m' t' (Some a') rules')
| TPolicySet : forall m m' t t' a a' ps ps',
    retargeted (PPolicySet m t (Some a) ps) (PPolicySet m' t' (Some a') ps') t t' ->
    stricter a a' ->
    edited tightened (only EffPermit) (only EffDeny) ps ps' ->
    tightened (PPolicySet m t (Some a) ps) (PPolicySet m' t' (Some a') ps').

(** A history of edits, where no policy edited meets an error. *)
Inductive edits (E : env) (c : context) : policybase -> policybase -> Prop :=
| EditsNone : forall p, edits E c p p
| EditsMore : forall p q r, without_errors E c p -> tightened p q -> edits E c q r -> edits E c p r.
