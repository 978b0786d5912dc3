(** Evaluation of designators, selectors, expressions, targets, rules and
    policies against a request context. *)
From Verif Require Export Syntax.

(** External collaborators of evaluation:
    - function evaluation (regular expressions, custom functions);
    - the AttributeValue class map (attributevalue.py:274), which
      AttributeValueClassFactory.addClass can extend;
    - [en_pip r d]: [r.ctxHandler.pipQuery(r, d)], returning None or a list of
      Python objects, or raising (handlerinterface.py:32-49; it can be
      overridden by user code);
    - [en_xpath r p]: [r.attributeSelector.selectText(p)], a list of strings or
      None's (xpath_selector.py:52-93), or raising.
    Simplification: the PIP is a function of request and designator here;
    EvalState.v has the version in which answers may depend on the history.  The
    PIP does not modify the request. *)
Record env : Type := mkEnv {
  en_fenv : fenv;
  en_classes : list (string * avclass);
  en_pip : request -> designator -> res (option (list pyval));
  en_xpath : request -> option string -> res (list native)
}.

(** AttributeValueClassFactory.__call__, attributevalue.py:307-315 *)
Definition class_for (E : env) (dataType : option string) : option avclass :=
  match dataType with
  | None => None
  | Some dt => dict_get dt (en_classes E)
  end.

Definition ostr_eqb : option string -> option string -> bool := opt_eqb String.eqb.

(** _attributeMatch and _issuerMatch, attributedesignator.py:169-176 (and the
    three copies of it: 245-252, 299-306, 353-360) *)
Definition attr_match (d : designator) (a : attribute) : bool :=
  ostr_eqb (at_id a) (dg_id d) &&
  ostr_eqb (at_dataType a) (dg_dataType d) &&
  match dg_issuer d with
  | None => true
  | Some i => ostr_eqb (Some i) (at_issuer a)
  end.

(** [[i for i in attr.attributeValues if i.dataType == dataType]],
    attributedesignator.py:181-182 *)
Definition typed_values (d : designator) (a : attribute) : list attrval :=
  filter (fun v => ostr_eqb (Some (av_dataType v)) (dg_dataType d)) (at_values a).

(** The loop over the attributes of one subject/resource/action/environment,
    attributedesignator.py:179-182, 255-258, 308-311, 362-365 *)
Fixpoint collect_attrs (d : designator) (et : option avclass)
  (bag : list attrval) (attrs : list attribute) : res (list attrval) :=
  match attrs with
  | [] => Ok bag
  | a :: rest =>
      if attr_match d a then
        let* bag' := bag_extend et bag (map PAttr (typed_values d a)) in
        collect_attrs d et bag' rest
      else collect_attrs d et bag rest
  end.

(** [x in bag] for a list of AttributeValue objects: items are compared in turn
    until one is equal; a non AttributeValue makes the comparison raise. *)
Fixpoint bag_contains (bag : list attrval) (x : pyval) : res bool :=
  match bag with
  | [] => Ok false
  | i :: rest =>
      match x with
      | PAttr a =>
          let* b := av_eq i a in
          if b then Ok true else bag_contains rest x
      | _ => Raise ETypeError
      end
  end.

(** [[v for v in values if v not in bag]], attributedesignator.py:199-201 *)
Fixpoint filter_new (bag : list attrval) (values : list pyval) : res (list pyval) :=
  match values with
  | [] => Ok []
  | v :: rest =>
      let* b := bag_contains bag v in
      let* vs := filter_new bag rest in
      Ok (if b then vs else v :: vs)
  end.

(** Adding the PIP's answer to the bag, attributedesignator.py:193-205 *)
Definition add_pip_values (et : option avclass) (bag : list attrval)
  (answer : option (list pyval)) : res (list attrval) :=
  match answer with
  | None => Ok bag
  | Some vs =>
      let* new := match bag with
                  | [] => Ok vs
                  | _ :: _ => filter_new bag vs
                  end in
      bag_extend et bag new
  end.

(** The loop over subjects, attributedesignator.py:178-205 *)
Fixpoint collect_subjects (E : env) (r : request) (d : designator)
  (et : option avclass) (bag : list attrval) (subs : list subject)
  : res (list attrval) :=
  match subs with
  | [] => Ok bag
  | s :: rest =>
      let* bag1 := collect_attrs d et bag (sb_attributes s) in
      let* bag2 := match rq_ctxHandler r with
                   | None => Ok bag1
                   | Some _ =>
                       let* answer := en_pip E r d in
                       add_pip_values et bag1 answer
                   end in
      collect_subjects E r d et bag2 rest
  end.

(** The loop over resources, attributedesignator.py:254-258 *)
Fixpoint collect_resources (d : designator) (et : option avclass)
  (bag : list attrval) (rs : list resource) : res (list attrval) :=
  match rs with
  | [] => Ok bag
  | r :: rest =>
      let* bag1 := collect_attrs d et bag (rs_attributes r) in
      collect_resources d et bag1 rest
  end.

(** MustBePresent check, attributedesignator.py:207-216, 260-269, 313-322,
    367-376 *)
Definition check_present (must : bool) (et : option avclass) (bag : list attrval)
  : res pyval :=
  match bag with
  | [] => if must then Raise EMissingAttributeError else Ok (PBag et bag)
  | _ => Ok (PBag et bag)
  end.

(** The evaluate methods of the four designators, attributedesignator.py:149-216,
    227-269, 280-322, 333-376.  [context.action]/[environment] being None gives
    AttributeError on [.attributes]. *)
Definition eval_designator (E : env) (d : designator) (c : context) : res pyval :=
  match c with
  | CtxOther => Raise ETypeError
  | CtxRequest r =>
      let et := class_for E (dg_dataType d) in
      let* bag :=
        match dg_kind d with
        | DSubject => collect_subjects E r d et [] (rq_subjects r)
        | DResource => collect_resources d et [] (rq_resources r)
        | DAction =>
            match rq_action r with
            | None => Raise EAttributeError
            | Some attrs => collect_attrs d et [] attrs
            end
        | DEnvironment =>
            match rq_environment r with
            | None => Raise EAttributeError
            | Some attrs => collect_attrs d et [] attrs
            end
        end in
      check_present (dg_mustBePresent d) et bag
  end.

(** The loop of AttributeSelector.evaluate, attributeselector.py:137-141 *)
Fixpoint selector_loop (cls : avclass) (dt : string) (bag : list attrval)
  (texts : list native) : res (list attrval) :=
  match texts with
  | [] => Ok bag
  | t :: rest =>
      let* v0 := av_new cls NNone in
      let v1 := mkAV (av_class v0) dt (av_value v0) in
      let* v := av_set_value v1 t in
      let* bag' := bag_extend (Some cls) bag [PAttr v] in
      selector_loop cls dt bag' rest
  end.

(** AttributeSelector.evaluate, attributeselector.py:109-148.  An unset dataType
    has no class (class_for). *)
Definition eval_selector (E : env) (s : selector) (c : context) : res pyval :=
  match c with
  | CtxOther => Raise ETypeError
  | CtxRequest r =>
      match rq_selector r with
      | None => Raise EValueError
      | Some _ =>
          match sl_dataType s with
          | None => Raise EXMLParseError
          | Some dt =>
              match class_for E (Some dt) with
              | None => Raise EXMLParseError
              | Some cls =>
                  let* texts := en_xpath E r (sl_path s) in
                  let* bag := selector_loop cls dt [] texts in
                  check_present
                    (match sl_mustBePresent s with Some b => b | None => false end)
                    (Some cls) bag
              end
          end
      end
  end.

(** Expression evaluation: Apply.evaluate (apply.py:184-204: all arguments in
    order, then the function; an Apply whose function was never loaded raises
    AttributeError after its arguments were evaluated),
    AttributeValue.evaluate (attributevalue.py:187-196), designators, selector. *)
Fixpoint eval_expr (E : env) (c : context) (x : expr) : res pyval :=
  match x with
  | XApply _ f args =>
      let* inputs := mapM (eval_expr E c) args in
      match f with
      | None => Raise EAttributeError
      | Some f => fn_eval (en_fenv E) f inputs
      end
  | XValue v => Ok (PAttr v)
  | XDesignator d => eval_designator E d c
  | XSelector s => eval_selector E s c
  end.

(** Condition.evaluate, condition.py:62-72 *)
Definition eval_condition (E : env) (c : context) (cond : option expr) : res pyval :=
  match cond with
  | None => Raise EAttributeError
  | Some x => eval_expr E c x
  end.

(** Items of the bag a designator or selector returned. *)
Definition bag_items (v : pyval) : list attrval :=
  match v with PBag _ l => l | _ => [] end.

(** MatchBase.evaluate, match.py:280-347: the function is applied to the policy's
    value and each retrieved value, all of them, then [any].  The function being
    None shows only when there is a value to apply it to.
    Simplification: the debug level logging branch (327-341), which compares the
    result with [True], is left out here; EvalDebug.v models it. *)
Definition match_fn_apply (E : env) (m : matchel) (v : attrval) : res pyval :=
  match mt_fn m with
  | None => Raise EAttributeError
  | Some f =>
      fn_eval (en_fenv E) f
        [match mt_value m with Some a => PAttr a | None => PNat NNone end; PAttr v]
  end.
Definition eval_match (E : env) (c : context) (m : matchel) : res bool :=
  let* bag :=
    match mt_designator m with
    | Some d => eval_designator E d c
    | None =>
        match mt_selector m with
        | Some s => eval_selector E s c
        | None => Raise EXacmlContextError
        end
    end in
  let* results := mapM (match_fn_apply E m) (bag_items bag) in
  Ok (existsb truthy results).

(** Target._matchChild, target.py:163-198.  (The None case, 180-182, cannot occur
    through the typed list of children.) *)
Definition match_child (E : env) (c : context) (child : list matchel) : res bool :=
  let* results := mapM (eval_match E c) child in
  Ok (forallb (fun b => b) results).

(** One section of Target.match, target.py:128-156: every child is evaluated. *)
Fixpoint section_loop (E : env) (c : context) (status : bool)
  (children : list (list matchel)) : res bool :=
  match children with
  | [] => Ok status
  | ch :: rest =>
      let* b := match_child E c ch in
      section_loop E c (if b then true else status) rest
  end.
Definition match_section (E : env) (c : context) (children : list (list matchel))
  : res bool :=
  match children with
  | [] => Ok true
  | _ => section_loop E c false children
  end.

(** Target.match, target.py:102-161, with CHILD_ATTRS order (59) *)
Definition target_match (E : env) (c : context) (t : target) : res bool :=
  let* results := mapM (match_section E c)
    [tg_subjects t; tg_resources t; tg_actions t; tg_environments t] in
  Ok (forallb (fun b => b) results).

(** Decision(decision=effect.value), rule.py:389 *)
Definition decision_of_effect (e : effect) : decision :=
  match e with EffPermit => Permit | EffDeny => Deny end.

(** The body of the try block of Rule.evaluate, rule.py:352-394 *)
Definition rule_body (E : env) (c : context) (r : rule) : res decision :=
  let* targetMatch := match rl_target r with
                      | Some t => target_match E c t
                      | None => Ok true
                      end in
  if negb targetMatch then Ok NotApplicable
  else
    let* status := match rl_condition r with
                   | Some cond => eval_condition E c cond
                   | None => Ok (py_bool true)
                   end in
    if truthy status then
      match rl_effect r with
      | Some e => Ok (decision_of_effect e)
      | None => Raise EAttributeError
      end
    else Ok NotApplicable.

(** [try: ... except Exception: return Decision.INDETERMINATE]
    (rule.py:396-401, policybase.py:164-172) *)
Definition catch_exception (r : res decision) : res decision :=
  match r with
  | Ok d => Ok d
  | Raise e => if is_exception e then Ok Indeterminate else Raise e
  end.

(** Rule.evaluate, rule.py:342-401 *)
Definition rule_eval (E : env) (c : context) (r : rule) : res decision :=
  catch_exception (rule_body E c r).

(** DenyOverridesRuleCombiningAlg.evaluate, rule_combining_alg.py:59-105.
    [ev] is [rule.evaluate(context)]. *)
Definition rules_deny_overrides (ev : rule -> res decision) :=
  fix go (atLeastOneError potentialDeny atLeastOnePermit : bool)
         (rules : list rule) : res decision :=
  match rules with
  | [] =>
      if potentialDeny then Ok Indeterminate
      else if atLeastOnePermit then Ok Permit
      else if atLeastOneError then Ok Indeterminate
      else Ok NotApplicable
  | r :: rest =>
      let* d := ev r in
      match d with
      | Deny => Ok Deny
      | Permit => go atLeastOneError potentialDeny true rest
      | NotApplicable => go atLeastOneError potentialDeny atLeastOnePermit rest
      | Indeterminate =>
          match rl_effect r with
          | None => Raise EAttributeError
          | Some EffDeny => go true true atLeastOnePermit rest
          | Some EffPermit => go true potentialDeny atLeastOnePermit rest
          end
      end
  end.

(** PermitOverridesRuleCombiningAlg.evaluate, rule_combining_alg.py:111-167 *)
Definition rules_permit_overrides (ev : rule -> res decision) :=
  fix go (atLeastOneError potentialPermit atLeastOneDeny : bool)
         (rules : list rule) : res decision :=
  match rules with
  | [] =>
      if potentialPermit then Ok Indeterminate
      else if atLeastOneDeny then Ok Deny
      else if atLeastOneError then Ok Indeterminate
      else Ok NotApplicable
  | r :: rest =>
      let* d := ev r in
      match d with
      | Deny => go atLeastOneError potentialPermit true rest
      | Permit => Ok Permit
      | NotApplicable => go atLeastOneError potentialPermit atLeastOneDeny rest
      | Indeterminate =>
          match rl_effect r with
          | None => Raise EAttributeError
          | Some EffPermit => go true true atLeastOneDeny rest
          | Some EffDeny => go true potentialPermit atLeastOneDeny rest
          end
      end
  end.

(** FirstApplicableRuleCombiningAlg.evaluate, rule_combining_alg.py:173-208 *)
Definition rules_first_applicable (ev : rule -> res decision) :=
  fix go (rules : list rule) : res decision :=
  match rules with
  | [] => Ok NotApplicable
  | r :: rest =>
      let* d := ev r in
      match d with
      | Deny => Ok Deny
      | Permit => Ok Permit
      | NotApplicable => go rest
      | Indeterminate => Ok Indeterminate
      end
  end.

Definition combine_rules (alg : comb_alg) (ev : rule -> res decision)
  (rules : list rule) : res decision :=
  match alg with
  | DenyOverrides => rules_deny_overrides ev false false false rules
  | PermitOverrides => rules_permit_overrides ev false false false rules
  | FirstApplicable => rules_first_applicable ev rules
  end.

(** DenyOverridesPolicyCombiningAlg.evaluate, policy_combining_alg.py:54-87 *)
Definition policies_deny_overrides (ev : policybase -> res decision) :=
  fix go (atLeastOnePermit : bool) (ps : list policybase) : res decision :=
  match ps with
  | [] => if atLeastOnePermit then Ok Permit else Ok NotApplicable
  | p :: rest =>
      let* d := ev p in
      match d with
      | Deny => Ok Deny
      | Permit => go true rest
      | NotApplicable => go atLeastOnePermit rest
      | Indeterminate => Ok Deny
      end
  end.

(** PermitOverridesPolicyCombiningAlg.evaluate, policy_combining_alg.py:92-138 *)
Definition policies_permit_overrides (ev : policybase -> res decision) :=
  fix go (atLeastOneError atLeastOneDeny : bool) (ps : list policybase)
    : res decision :=
  match ps with
  | [] =>
      if atLeastOneDeny then Ok Deny
      else if atLeastOneError then Ok Indeterminate
      else Ok NotApplicable
  | p :: rest =>
      let* d := ev p in
      match d with
      | Deny => go atLeastOneError true rest
      | Permit => Ok Permit
      | NotApplicable => go atLeastOneError atLeastOneDeny rest
      | Indeterminate => go true atLeastOneDeny rest
      end
  end.

(** FirstApplicablePolicyCombiningAlg.evaluate, policy_combining_alg.py:144-180 *)
Definition policies_first_applicable (ev : policybase -> res decision) :=
  fix go (ps : list policybase) : res decision :=
  match ps with
  | [] => Ok NotApplicable
  | p :: rest =>
      let* d := ev p in
      match d with
      | Deny => Ok Deny
      | Permit => Ok Permit
      | NotApplicable => go rest
      | Indeterminate => Ok Indeterminate
      end
  end.

Definition combine_policies (alg : comb_alg) (ev : policybase -> res decision)
  (ps : list policybase) : res decision :=
  match alg with
  | DenyOverrides => policies_deny_overrides ev false ps
  | PermitOverrides => policies_permit_overrides ev false false ps
  | FirstApplicable => policies_first_applicable ev ps
  end.

(** The target check of PolicyBase.evaluate followed by the combining algorithm,
    policybase.py:142-162; an algorithm of None raises AttributeError
    (policy.py:397, policyset.py:390). *)
Definition with_target (E : env) (c : context) (t : option target)
  (combine : res decision) : res decision :=
  let* targetMatch := match t with
                      | Some t => target_match E c t
                      | None => Ok true
                      end in
  if negb targetMatch then Ok NotApplicable else combine.

(** PolicyBase.evaluate, policybase.py:124-174, with
    Policy.evaluateCombiningAlgorithm (policy.py:390-397) and
    PolicySet.evaluateCombiningAlgorithm (policyset.py:383-390). *)
Fixpoint policy_eval (E : env) (c : context) (p : policybase) : res decision :=
  match p with
  | PPolicy _ t alg rules =>
      catch_exception
        (with_target E c t
           (match alg with
            | None => Raise EAttributeError
            | Some a => combine_rules a (rule_eval E c) rules
            end))
  | PPolicySet _ t alg children =>
      catch_exception
        (with_target E c t
           (match alg with
            | None => Raise EAttributeError
            | Some a => combine_policies a (policy_eval E c) children
            end))
  end.
