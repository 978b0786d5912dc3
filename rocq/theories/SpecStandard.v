(** The evaluation rules of the XACML 2.0 core specification, sections 7.5 to
    7.12 and appendix C, written down from the standard: nothing of the
    evaluator's own loops, catching of exceptions or truth tests is used.
    Taken as given are the values which attribute designators and selectors
    retrieve, and what functions and whole condition expressions evaluate to:
    [Ok v] a value, [Raise e] an error. *)
From Verif Require Export Eval.

(** "True", "False" and "Indeterminate" of a match or condition; for targets
    and their parts "Match", "No match" and "Indeterminate". *)
Inductive verdict : Type := Yes | No | Unknown.

Definition is_yes (v : verdict) : bool := match v with Yes => true | _ => false end.
Definition is_no (v : verdict) : bool := match v with No => true | _ => false end.
Definition is_unknown (v : verdict) : bool :=
  match v with Unknown => true | _ => false end.

(** Some alternative holds: True beats errors, errors beat False. *)
Definition some_of (l : list verdict) : verdict :=
  if existsb is_yes l then Yes
  else if existsb is_unknown l then Unknown else No.
(** Every part holds: False beats errors, errors beat True. *)
Definition every_of (l : list verdict) : verdict :=
  if existsb is_no l then No
  else if existsb is_unknown l then Unknown else Yes.

(** An XACML boolean: a Python boolean or an attribute value holding one.
    Anything else, an error included, leaves the verdict open. *)
Definition verdict_of (r : res pyval) : verdict :=
  match r with
  | Ok (PNat (NBool true)) => Yes
  | Ok (PNat (NBool false)) => No
  | Ok (PAttr (mkAV _ _ (NBool true))) => Yes
  | Ok (PAttr (mkAV _ _ (NBool false))) => No
  | _ => Unknown
  end.

(** 7.5 Match evaluation: the function applied to the policy's value and each
    value retrieved; True if some application is, else Indeterminate if one is
    in error, else False.  An error of the retrieval is Indeterminate. *)
Definition retrieved (E : env) (c : context) (m : matchel) : res pyval :=
  match mt_designator m, mt_selector m with
  | Some d, _ => eval_designator E d c
  | None, Some s => eval_selector E s c
  | None, None => Raise EXacmlContextError
  end.
Definition application (E : env) (m : matchel) (v : attrval) : res pyval :=
  match mt_fn m, mt_value m with
  | Some f, Some a => fn_eval (en_fenv E) f [PAttr a; PAttr v]
  | Some f, None => fn_eval (en_fenv E) f [PNat NNone; PAttr v]
  | None, _ => Raise EAttributeError
  end.
Definition std_match (E : env) (c : context) (m : matchel) : verdict :=
  match retrieved E c m with
  | Ok (PBag _ vs) => some_of (map (fun v => verdict_of (application E m v)) vs)
  | _ => Unknown
  end.

(** 7.6 Target evaluation: a Subject (Resource, ...) needs all its matches; the
    Subjects (...) need one Subject, if there are any; the target needs all four
    and is Indeterminate if one of them is. *)
Definition std_child (E : env) (c : context) (ms : list matchel) : verdict :=
  every_of (map (std_match E c) ms).
Definition std_section (E : env) (c : context) (s : list (list matchel)) : verdict :=
  match s with
  | [] => Yes
  | _ => some_of (map (std_child E c) s)
  end.
Definition std_target (E : env) (c : context) (t : option target) : verdict :=
  match t with
  | None => Yes
  | Some t =>
      let l := map (std_section E c)
        [tg_subjects t; tg_resources t; tg_actions t; tg_environments t] in
      if existsb is_unknown l then Unknown
      else if existsb is_no l then No else Yes
  end.

(** 7.7, 7.8 Condition and rule evaluation. *)
Definition std_condition (E : env) (c : context) (cond : option (option expr))
  : verdict :=
  match cond with
  | None => Yes
  | Some None => Unknown
  | Some (Some x) => verdict_of (eval_expr E c x)
  end.
Definition std_rule (E : env) (c : context) (r : rule) : decision :=
  match std_target E c (rl_target r), std_condition E c (rl_condition r) with
  | No, _ => NotApplicable
  | Unknown, _ => Indeterminate
  | Yes, No => NotApplicable
  | Yes, Unknown => Indeterminate
  | Yes, Yes =>
      match rl_effect r with
      | Some EffPermit => Permit
      | Some EffDeny => Deny
      | None => Indeterminate
      end
  end.

(** Appendix C.  [os]: the effects of the rules with their decisions. *)
Definition is_permit (d : decision) : bool := match d with Permit => true | _ => false end.
Definition is_deny (d : decision) : bool := match d with Deny => true | _ => false end.
Definition is_indeterminate (d : decision) : bool :=
  match d with Indeterminate => true | _ => false end.
Definition might_deny (o : option effect * decision) : bool :=
  match o with (Some EffDeny, Indeterminate) => true | _ => false end.
Definition might_permit (o : option effect * decision) : bool :=
  match o with (Some EffPermit, Indeterminate) => true | _ => false end.

(** C.4 First-applicable, for rules and policies *)
Fixpoint std_first (ds : list decision) : decision :=
  match ds with
  | [] => NotApplicable
  | NotApplicable :: rest => std_first rest
  | d :: _ => d
  end.

Definition std_rules (alg : comb_alg) (os : list (option effect * decision))
  : decision :=
  match alg with
  | DenyOverrides => (* C.1 *)
      if existsb is_deny (map snd os) then Deny
      else if existsb might_deny os then Indeterminate
      else if existsb is_permit (map snd os) then Permit
      else if existsb is_indeterminate (map snd os) then Indeterminate
      else NotApplicable
  | PermitOverrides => (* C.3 *)
      if existsb is_permit (map snd os) then Permit
      else if existsb might_permit os then Indeterminate
      else if existsb is_deny (map snd os) then Deny
      else if existsb is_indeterminate (map snd os) then Indeterminate
      else NotApplicable
  | FirstApplicable => std_first (map snd os)
  end.

Definition std_policies (alg : comb_alg) (ds : list decision) : decision :=
  match alg with
  | DenyOverrides => (* C.1: an Indeterminate policy counts as Deny *)
      if existsb is_deny ds || existsb is_indeterminate ds then Deny
      else if existsb is_permit ds then Permit
      else NotApplicable
  | PermitOverrides => (* C.3 *)
      if existsb is_permit ds then Permit
      else if existsb is_deny ds then Deny
      else if existsb is_indeterminate ds then Indeterminate
      else NotApplicable
  | FirstApplicable => std_first ds
  end.

(** 7.10, 7.11 Policies and policy sets: the target, then the combining
    algorithm. *)
Definition targeted (v : verdict) (d : decision) : decision :=
  match v with Yes => d | No => NotApplicable | Unknown => Indeterminate end.
Fixpoint standard (E : env) (c : context) (p : policybase) : decision :=
  match p with
  | PPolicy _ t alg rules =>
      targeted (std_target E c t)
        match alg with
        | Some a => std_rules a (map (fun r => (rl_effect r, std_rule E c r)) rules)
        | None => Indeterminate
        end
  | PPolicySet _ t alg children =>
      targeted (std_target E c t)
        match alg with
        | Some a => std_policies a (map (standard E c) children)
        | None => Indeterminate
        end
  end.

(** ** What a policy consists of *)

Fixpoint rules_within (p : policybase) : list rule :=
  match p with
  | PPolicy _ _ _ rules => rules
  | PPolicySet _ _ _ children => flat_map rules_within children
  end.
Fixpoint own_targets (p : policybase) : list target :=
  match p with
  | PPolicy _ (Some t) _ _ => [t]
  | PPolicy _ None _ _ => []
  | PPolicySet _ t _ children =>
      match t with Some t => [t] | None => [] end ++ flat_map own_targets children
  end.
Definition matches_of (t : target) : list matchel :=
  concat (tg_subjects t ++ tg_resources t ++ tg_actions t ++ tg_environments t).
(** [m] is a match of a target of [p] or of one of its rules. *)
Definition match_within (m : matchel) (p : policybase) : Prop :=
  (exists t, In t (own_targets p) /\ In m (matches_of t)) \/
  (exists r t, In r (rules_within p) /\ rl_target r = Some t /\ In m (matches_of t)).
Definition condition_within (x : expr) (p : policybase) : Prop :=
  exists r, In r (rules_within p) /\ rl_condition r = Some (Some x).
Fixpoint algorithms_within (p : policybase) : list (option comb_alg) :=
  match p with
  | PPolicy _ _ a _ => [a]
  | PPolicySet _ _ a children => a :: flat_map algorithms_within children
  end.

(** Conditions of [p], and its match functions applied to the values retrieved,
    give Python booleans where they give a value. *)
Definition boolean_valued (E : env) (c : context) (p : policybase) : Prop :=
  (forall x v, condition_within x p -> eval_expr E c x = Ok v ->
     exists b, v = PNat (NBool b)) /\
  (forall m et vs v w, match_within m p -> retrieved E c m = Ok (PBag et vs) ->
     In v vs -> application E m v = Ok w -> exists b, w = PNat (NBool b)).

(** No error arises: attributes are retrieved, functions and conditions give
    booleans, and effects and algorithms are there. *)
Definition without_errors (E : env) (c : context) (p : policybase) : Prop :=
  (forall m, match_within m p ->
     exists et vs, retrieved E c m = Ok (PBag et vs) /\
       forall v, In v vs -> exists b, application E m v = Ok (PNat (NBool b))) /\
  (forall x, condition_within x p -> exists b, eval_expr E c x = Ok (PNat (NBool b))) /\
  (forall r, In r (rules_within p) ->
     rl_effect r <> None /\ rl_condition r <> Some None) /\
  ~ In None (algorithms_within p).

(** The functions whose results are booleans. *)
Definition predicate (f : fn) : bool :=
  match f with
  | FnAnd | FnNot | FnEqual _ | FnMatch _ | FnAtLeastOne _ | FnRegexp _ => true
  | _ => false
  end.

(** [p] and the policies and policy sets in it, at any depth. *)
Fixpoint policies_within (p : policybase) : list policybase :=
  p :: match p with
       | PPolicy _ _ _ _ => []
       | PPolicySet _ _ _ children => flat_map policies_within children
       end.
