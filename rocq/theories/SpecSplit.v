(** The part of a policy that is about given values of an attribute. *)
From Verif Require Export SpecEval SpecStandard SpecTighten.

(** The request has no other values for the attribute [d] than the texts [values];
    it may have several of them, or none. *)
Definition carries (E : env) (c : context) (d : designator) (values : list string) : Prop :=
  exists et vs, eval_designator E d c = Ok (PBag et vs) /\
    forall v, In v vs -> exists s, In s values /\ av_value v = NStr s.

(** A match that asks the attribute to be a text that is none of [values]. *)
Definition asks_other (d : designator) (values : list string) (m : matchel) : Prop :=
  exists ty a s, mt_fn m = Some (FnEqual ty) /\ mt_designator m = Some d /\
    mt_value m = Some a /\ av_value a = NStr s /\ ~ In s values.

(** A target with a section each of whose alternatives does so. *)
Definition elsewhere (d : designator) (values : list string) (t : option target) : Prop :=
  exists tg section, t = Some tg /\
    In section [tg_subjects tg; tg_resources tg; tg_actions tg; tg_environments tg] /\
    section <> [] /\
    forall alternative, In alternative section -> exists m, In m alternative /\ asks_other d values m.

Definition target_of_policy (p : policybase) : option target :=
  match p with PPolicy _ t _ _ => t | PPolicySet _ t _ _ => t end.

(** [p'] is [p] without some of the rules, policies and policy sets that are about
    other values, at any depth. *)
Inductive part (d : designator) (values : list string) : policybase -> policybase -> Prop :=
| part_policy : forall m t a rules rules',
    edited eq (fun r => elsewhere d values (rl_target r)) (fun _ => False) rules rules' ->
    part d values (PPolicy m t a rules) (PPolicy m t a rules')
| part_set : forall m t a ps ps',
    edited (part d values) (fun p => elsewhere d values (target_of_policy p)) (fun _ => False) ps ps' ->
    part d values (PPolicySet m t a ps) (PPolicySet m t a ps').
