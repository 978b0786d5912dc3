(** Consistent renaming of attribute ids, issuers and string values in requests
    and policies. *)
From Verif Require Export SpecStandard.

Definition one_to_one (f : string -> string) : Prop := forall s t, f s = f t -> s = t.

Section Renaming.
(** New names for attribute ids and issuers, new contents for strings. *)
Variables ids issuers strings : string -> string.

Definition rn_native (n : native) : native :=
  match n with NStr s => NStr (strings s) | _ => n end.
Definition rn_value (v : attrval) : attrval :=
  mkAV (av_class v) (av_dataType v) (rn_native (av_value v)).
(** What evaluation passes around: attribute values and bags of them. *)
Definition rn_pyval (v : pyval) : pyval :=
  match v with
  | PAttr a => PAttr (rn_value a)
  | PBag et l => PBag et (map rn_value l)
  | _ => v
  end.

(** ** Requests *)
Definition rn_attribute (a : attribute) : attribute :=
  mkAttribute (option_map ids (at_id a)) (at_dataType a)
    (option_map issuers (at_issuer a)) (map rn_value (at_values a)).
Definition rn_request (r : request) : request :=
  mkRequest
    (map (fun s => mkSubject (sb_category s) (map rn_attribute (sb_attributes s)))
       (rq_subjects r))
    (map (fun s => mkResource (rs_content s) (map rn_attribute (rs_attributes s)))
       (rq_resources r))
    (option_map (map rn_attribute) (rq_action r))
    (option_map (map rn_attribute) (rq_environment r))
    (rq_ctxHandler r) (rq_selector r).

(** ** Policies *)
Definition rn_designator (d : designator) : designator :=
  mkDesignator (dg_kind d) (option_map ids (dg_id d)) (dg_dataType d)
    (option_map issuers (dg_issuer d)) (dg_mustBePresent d).
Fixpoint rn_expr (x : expr) : expr :=
  match x with
  | XApply i f args => XApply i f (map rn_expr args)
  | XValue v => XValue (rn_value v)
  | XDesignator d => XDesignator (rn_designator d)
  | XSelector s => XSelector s
  end.
Definition rn_match (m : matchel) : matchel :=
  mkMatch (mt_id m) (mt_fn m) (option_map rn_value (mt_value m))
    (option_map rn_designator (mt_designator m)) (mt_selector m).
Definition rn_target (t : target) : target :=
  mkTarget (map (map rn_match) (tg_subjects t)) (map (map rn_match) (tg_resources t))
    (map (map rn_match) (tg_actions t)) (map (map rn_match) (tg_environments t)).
Definition rn_rule (r : rule) : rule :=
  mkRule (rl_id r) (rl_effect r) (option_map rn_target (rl_target r))
    (option_map (option_map rn_expr) (rl_condition r)) (rl_description r).
Fixpoint rn_policy (p : policybase) : policybase :=
  match p with
  | PPolicy m t alg rules => PPolicy m (option_map rn_target t) alg (map rn_rule rules)
  | PPolicySet m t alg children =>
      PPolicySet m (option_map rn_target t) alg (map rn_policy children)
  end.

(** ** Collaborators: [E'] answers for the renamed request [r] what [E] answers
    for [r], renamed; functions and data types are the same. *)
Definition answers_renamed (E E' : env) (r : request) : Prop :=
  en_fenv E' = en_fenv E /\ en_classes E' = en_classes E /\
  forall d, en_pip E' (rn_request r) (rn_designator d) =
    match en_pip E r d with
    | Ok (Some l) => Ok (Some (map rn_pyval l))
    | x => x
    end.
End Renaming.

(** The functions that look at strings only by comparing them. *)
Definition comparing (f : fn) : bool :=
  match f with
  | FnRegexp _ | FnConcat _ | FnCustom _ => false
  | _ => true
  end.
Fixpoint only_compares (x : expr) : bool :=
  match x with
  | XApply _ f args =>
      match f with Some f => comparing f | None => true end && forallb only_compares args
  | XSelector _ => false
  | _ => true
  end.
(** Conditions and targets of [p] apply no other function, and no selector. *)
Definition policy_compares (p : policybase) : Prop :=
  (forall x, condition_within x p -> only_compares x = true) /\
  (forall m, match_within m p ->
     (forall f, mt_fn m = Some f -> comparing f = true) /\
     (mt_designator m <> None \/ mt_selector m = None)).
