(** Evaluation of policy objects against request objects: the evaluate methods as they
    read the attributes of the objects of Objects.v, which may be shared or circular.

    Each function models the source lines of the function of the same name in Eval.v
    (without the prefix [o_]) with the attribute accesses spelled out.
    Simplification: accesses that are only made for log messages are left out; a value
    of a kind that the documented types exclude (SpecObjects.v) is answered with the
    exception of the first operation that does not apply to it. *)
From Verif Require Export Eval Objects.

(** Collaborators, as in Eval.v, but asked with the objects: the state of the heap,
    the address of the request and of the designator, or the path of the selector. *)
Record oenv : Type := mkOenv {
  oe_fenv : fenv;
  oe_classes : list (string * avclass);
  oe_pip : heap -> nat -> nat -> res (option (list pyval));
  oe_xpath : heap -> nat -> pval -> res (list native)
}.

Section EvalObjects.
Variable E : oenv.
Variable h : heap.

(** [v.name] *)
Definition attr (v : pval) (name : string) : res pval :=
  match v with
  | PRef a => get_attr h a name
  | _ => Raise EAttributeError
  end.

(** The items a for loop over [v] yields *)
Definition list_items (v : pval) : res (list pval) :=
  match v with
  | PRef a =>
      match nth_error h a with
      | Some (PTypedList _ items) => Ok items
      | _ => Raise ETypeError
      end
  | _ => Raise ETypeError
  end.

(** An object as the functions and bags see it *)
Definition as_pyval (v : pval) : pyval :=
  match v with
  | PRef a =>
      match nth_error h a with
      | Some (PValue x) => PAttr x
      | _ => Values.PNat (NOther "object" 0)
      end
  | PNat n => Values.PNat n
  | _ => Values.PNat (NOther "object" 0)
  end.

(** [x == y] for strings and None *)
Definition same (x y : pval) : bool :=
  match x, y with
  | PNat (NStr s), PNat (NStr t) => String.eqb s t
  | PNat NNone, PNat NNone => true
  | _, _ => false
  end.

(** isinstance(context, Request) *)
Definition is_request (c : pval) : option nat :=
  match c with
  | PRef a =>
      match nth_error h a with
      | Some (PInst KRequest _) => Some a
      | _ => None
      end
  | _ => None
  end.

(** attributevalue.py:307-315 *)
Definition o_class_for (dataType : pval) : option avclass :=
  match dataType with
  | PNat (NStr dt) => dict_get dt (oe_classes E)
  | _ => None
  end.

(** attributedesignator.py:165-176: [id], [dt] and [issuer] are those of the designator *)
Definition o_attr_match (id dt issuer : pval) (a : pval) : res bool :=
  let* i := attr a "attributeId" in
  if negb (same i id) then Ok false
  else
    let* t := attr a "dataType" in
    if negb (same t dt) then Ok false
    else
      let* s := attr a "issuer" in
      match issuer with
      | PNat NNone => Ok true
      | _ => Ok (same issuer s)
      end.

(** attributedesignator.py:181-182 *)
Fixpoint o_typed_values (dt : pval) (items : list pval) : res (list pyval) :=
  match items with
  | [] => Ok []
  | i :: rest =>
      let* t := attr i "dataType" in
      let* vs := o_typed_values dt rest in
      Ok (if same t dt then as_pyval i :: vs else vs)
  end.

(** attributedesignator.py:179-182, 255-258, 308-311, 362-365 *)
Fixpoint o_collect_attrs (id dt issuer : pval) (et : option avclass) (bag : list attrval)
  (attrs : list pval) : res (list attrval) :=
  match attrs with
  | [] => Ok bag
  | a :: rest =>
      let* b := o_attr_match id dt issuer a in
      if b then
        let* l := attr a "attributeValues" in
        let* items := list_items l in
        let* vs := o_typed_values dt items in
        let* bag' := bag_extend et bag vs in
        o_collect_attrs id dt issuer et bag' rest
      else o_collect_attrs id dt issuer et bag rest
  end.

(** attributedesignator.py:178-205 *)
Fixpoint o_collect_subjects (r d : nat) (id dt issuer : pval) (et : option avclass)
  (bag : list attrval) (subs : list pval) : res (list attrval) :=
  match subs with
  | [] => Ok bag
  | s :: rest =>
      let* l := attr s "attributes" in
      let* attrs := list_items l in
      let* bag1 := o_collect_attrs id dt issuer et bag attrs in
      let* handler := get_attr h r "ctxHandler" in
      let* bag2 := match handler with
                   | PNat NNone => Ok bag1
                   | _ =>
                       let* answer := oe_pip E h r d in
                       add_pip_values et bag1 answer
                   end in
      o_collect_subjects r d id dt issuer et bag2 rest
  end.

(** attributedesignator.py:254-258 *)
Fixpoint o_collect_resources (id dt issuer : pval) (et : option avclass)
  (bag : list attrval) (rs : list pval) : res (list attrval) :=
  match rs with
  | [] => Ok bag
  | r :: rest =>
      let* l := attr r "attributes" in
      let* attrs := list_items l in
      let* bag1 := o_collect_attrs id dt issuer et bag attrs in
      o_collect_resources id dt issuer et bag1 rest
  end.

(** [len(bag) == 0 and self.mustBePresent], attributedesignator.py:207 *)
Definition o_check_present (must : pval) (et : option avclass) (bag : list attrval) : res pyval :=
  check_present (match must with PNat (NBool b) => b | _ => false end) et bag.

(** attributedesignator.py:149-216, 227-269, 280-322, 333-376; [d] is the address of
    the designator, of the class for [k] *)
Definition o_eval_designator (k : designator_kind) (d : nat) (c : pval) : res pyval :=
  match is_request c with
  | None => Raise ETypeError
  | Some r =>
      let* dt := get_attr h d "dataType" in
      let et := o_class_for dt in
      let* id := get_attr h d "attributeId" in
      let* issuer := get_attr h d "issuer" in
      let section name :=
        let* x := get_attr h r name in
        let* l := attr x "attributes" in
        let* attrs := list_items l in
        o_collect_attrs id dt issuer et [] attrs in
      let* bag :=
        match k with
        | DSubject =>
            let* l := get_attr h r "subjects" in
            let* subs := list_items l in
            o_collect_subjects r d id dt issuer et [] subs
        | DResource =>
            let* l := get_attr h r "resources" in
            let* rs := list_items l in
            o_collect_resources id dt issuer et [] rs
        | DAction => section "action"
        | DEnvironment => section "environment"
        end in
      let* must := get_attr h d "mustBePresent" in
      o_check_present must et bag
  end.

(** attributeselector.py:109-148; [s] is the address of the selector *)
Definition o_eval_selector (s : nat) (c : pval) : res pyval :=
  match is_request c with
  | None => Raise ETypeError
  | Some r =>
      let* sel := get_attr h r "attributeSelector" in
      match sel with
      | PNat NNone => Raise EValueError
      | _ =>
          let* dt := get_attr h s "dataType" in
          match dt with
          | PNat (NStr t) =>
              match dict_get t (oe_classes E) with
              | None => Raise EXMLParseError
              | Some cls =>
                  let* path := get_attr h s "requestContextPath" in
                  let* texts := oe_xpath E h r path in
                  let* bag := selector_loop cls t [] texts in
                  let* must := get_attr h s "mustBePresent" in
                  o_check_present must (Some cls) bag
              end
          | _ => Raise EXMLParseError
          end
      end
  end.

(** expression.evaluate: Apply (apply.py:184-204), AttributeValue
    (attributevalue.py:187-196), designators and selector.  [n] is the number of nested
    calls of evaluate methods that the interpreter still allows; beyond it
    RecursionError is raised. *)
Fixpoint o_eval_expr (n : nat) (c : pval) (x : pval) : res pyval :=
  match x with
  | PRef a =>
      match n with
      | O => Raise ERecursionError
      | S n' =>
          match nth_error h a with
          | Some (PValue v) => Ok (PAttr v)
          | Some (PInst (KDesignator k) _) => o_eval_designator k a c
          | Some (PInst KSelector _) => o_eval_selector a c
          | Some (PInst KApply _) =>
              let* l := get_attr h a "expressions" in
              let* items := list_items l in
              let* inputs := mapM (o_eval_expr n' c) items in
              let* f := get_attr h a "function" in
              match f with
              | PFn f => fn_eval (oe_fenv E) f inputs
              | _ => Raise EAttributeError
              end
          | _ => Raise EAttributeError
          end
      end
  | _ => Raise EAttributeError
  end.

(** condition.py:62-72 *)
Definition o_eval_condition (n : nat) (c : pval) (cond : pval) : res pyval :=
  let* x := attr cond "expression" in
  o_eval_expr n c x.

(** match.py:280-347 *)
Definition o_eval_match (c : pval) (m : pval) : res bool :=
  let* d := attr m "attributeDesignator" in
  let* bag :=
    match d with
    | PNat NNone =>
        let* s := attr m "attributeSelector" in
        match s with
        | PNat NNone => Raise EXacmlContextError
        | PRef a => match nth_error h a with
                    | Some (PInst KSelector _) => o_eval_selector a c
                    | _ => Raise EAttributeError
                    end
        | _ => Raise EAttributeError
        end
    | PRef a => match nth_error h a with
                | Some (PInst (KDesignator k) _) => o_eval_designator k a c
                | _ => Raise EAttributeError
                end
    | _ => Raise EAttributeError
    end in
  let* f := attr m "function" in
  let* value := attr m "attributeValue" in
  let* results := mapM (fun v => match f with
                                 | PFn f => fn_eval (oe_fenv E) f [as_pyval value; PAttr v]
                                 | _ => Raise EAttributeError
                                 end) (bag_items bag) in
  Ok (existsb truthy results).

(** target.py:163-198 *)
Definition o_match_child (c : pval) (child : pval) : res bool :=
  let* l := attr child "matches" in
  let* ms := list_items l in
  let* results := mapM (o_eval_match c) ms in
  Ok (forallb (fun b => b) results).

(** target.py:128-156 *)
Fixpoint o_section_loop (c : pval) (status : bool) (children : list pval) : res bool :=
  match children with
  | [] => Ok status
  | ch :: rest =>
      let* b := o_match_child c ch in
      o_section_loop c (if b then true else status) rest
  end.
Definition o_match_section (c : pval) (t : pval) (name : string) : res bool :=
  let* l := attr t name in
  let* children := list_items l in
  match children with
  | [] => Ok true
  | _ => o_section_loop c false children
  end.

(** target.py:102-161 *)
Definition o_target_match (c : pval) (t : pval) : res bool :=
  let* results := mapM (o_match_section c t) ["subjects"; "resources"; "actions"; "environments"] in
  Ok (forallb (fun b => b) results).

(** [if self.target is not None: self.target.match(context)], rule.py:358-367,
    policybase.py:142-152 *)
Definition o_check_target (c : pval) (v : pval) : res bool :=
  let* t := attr v "target" in
  match t with
  | PNat NNone => Ok true
  | _ => o_target_match c t
  end.

(** Decision(decision=value), result.py:309-361 *)
Definition o_decision (value : pval) : res decision :=
  match value with
  | PNat (NStr s) =>
      if String.eqb s "Permit" then Ok Permit
      else if String.eqb s "Deny" then Ok Deny
      else if String.eqb s "Indeterminate" then Ok Indeterminate
      else if String.eqb s "NotApplicable" then Ok NotApplicable
      else Raise EAttributeError
  | _ => Raise ETypeError
  end.

(** rule.effect.value *)
Definition o_effect_value (r : pval) : res pval :=
  let* e := attr r "effect" in
  attr e "value".

(** rule.py:352-394 *)
Definition o_rule_body (n : nat) (c : pval) (r : pval) : res decision :=
  let* targetMatch := o_check_target c r in
  if negb targetMatch then Ok NotApplicable
  else
    let* cond := attr r "condition" in
    let* status := match cond with
                   | PNat NNone => Ok (py_bool true)
                   | _ => o_eval_condition n c cond
                   end in
    if truthy status then
      let* v := o_effect_value r in
      o_decision v
    else Ok NotApplicable.

(** rule.py:342-401 *)
Definition o_rule_eval (n : nat) (c : pval) (r : pval) : res decision :=
  catch_exception (o_rule_body n c r).

(** [rule.effect.value == Decision.DENY], rule_combining_alg.py:91: Decision.__eq__
    (result.py:389-413), which refuses other strings than the four decisions *)
Definition o_effect_is_deny (r : pval) : res bool :=
  let* v := o_effect_value r in
  let* e := o_decision v in
  Ok (match e with Deny => true | _ => false end).

(** [rule.effect.value == Decision.PERMIT_STR], rule_combining_alg.py:145: strings *)
Definition o_effect_is_permit (r : pval) : res bool :=
  let* v := o_effect_value r in
  Ok (same v (PNat (NStr "Permit"))).

(** rule_combining_alg.py:59-105 *)
Definition o_rules_deny_overrides (ev : pval -> res decision) :=
  fix go (atLeastOneError potentialDeny atLeastOnePermit : bool)
         (rules : list pval) : res decision :=
  match rules with
  | [] =>
      if potentialDeny then Ok Indeterminate
      else if atLeastOnePermit then Ok Permit
      else if atLeastOneError then Ok Indeterminate
      else Ok NotApplicable
  | r :: rest =>
      let* d := ev r in
      match d with
      | Deny => Ok Deny
      | Permit => go atLeastOneError potentialDeny true rest
      | NotApplicable => go atLeastOneError potentialDeny atLeastOnePermit rest
      | Indeterminate =>
          let* b := o_effect_is_deny r in
          go true (if b then true else potentialDeny) atLeastOnePermit rest
      end
  end.

(** rule_combining_alg.py:111-167 *)
Definition o_rules_permit_overrides (ev : pval -> res decision) :=
  fix go (atLeastOneError potentialPermit atLeastOneDeny : bool)
         (rules : list pval) : res decision :=
  match rules with
  | [] =>
      if potentialPermit then Ok Indeterminate
      else if atLeastOneDeny then Ok Deny
      else if atLeastOneError then Ok Indeterminate
      else Ok NotApplicable
  | r :: rest =>
      let* d := ev r in
      match d with
      | Deny => go atLeastOneError potentialPermit true rest
      | Permit => Ok Permit
      | NotApplicable => go atLeastOneError potentialPermit atLeastOneDeny rest
      | Indeterminate =>
          let* b := o_effect_is_permit r in
          go true (if b then true else potentialPermit) atLeastOneDeny rest
      end
  end.

(** First-applicable, for rules (rule_combining_alg.py:173-208) and for policies
    (policy_combining_alg.py:144-180) *)
Definition o_first_applicable (ev : pval -> res decision) :=
  fix go (l : list pval) : res decision :=
  match l with
  | [] => Ok NotApplicable
  | r :: rest =>
      let* d := ev r in
      match d with
      | Deny => Ok Deny
      | Permit => Ok Permit
      | NotApplicable => go rest
      | Indeterminate => Ok Indeterminate
      end
  end.

Definition o_combine_rules (alg : comb_alg) (ev : pval -> res decision) (rules : list pval)
  : res decision :=
  match alg with
  | DenyOverrides => o_rules_deny_overrides ev false false false rules
  | PermitOverrides => o_rules_permit_overrides ev false false false rules
  | FirstApplicable => o_first_applicable ev rules
  end.

(** policy_combining_alg.py:54-87 *)
Definition o_policies_deny_overrides (ev : pval -> res decision) :=
  fix go (atLeastOnePermit : bool) (ps : list pval) : res decision :=
  match ps with
  | [] => if atLeastOnePermit then Ok Permit else Ok NotApplicable
  | p :: rest =>
      let* d := ev p in
      match d with
      | Deny => Ok Deny
      | Permit => go true rest
      | NotApplicable => go atLeastOnePermit rest
      | Indeterminate => Ok Deny
      end
  end.

(** policy_combining_alg.py:92-138 *)
Definition o_policies_permit_overrides (ev : pval -> res decision) :=
  fix go (atLeastOneError atLeastOneDeny : bool) (ps : list pval) : res decision :=
  match ps with
  | [] =>
      if atLeastOneDeny then Ok Deny
      else if atLeastOneError then Ok Indeterminate
      else Ok NotApplicable
  | p :: rest =>
      let* d := ev p in
      match d with
      | Deny => go atLeastOneError true rest
      | Permit => Ok Permit
      | NotApplicable => go atLeastOneError atLeastOneDeny rest
      | Indeterminate => go true atLeastOneDeny rest
      end
  end.

Definition o_combine_policies (alg : comb_alg) (ev : pval -> res decision) (ps : list pval)
  : res decision :=
  match alg with
  | DenyOverrides => o_policies_deny_overrides ev false ps
  | PermitOverrides => o_policies_permit_overrides ev false false ps
  | FirstApplicable => o_first_applicable ev ps
  end.

(** policybase.py:124-174, policy.py:390-397, policyset.py:383-390; [n] as above, and
    RecursionError is raised by the call, outside the try block of the callee *)
Fixpoint o_policy_eval (n : nat) (c : pval) (p : pval) : res decision :=
  match p with
  | PRef a =>
      match n with
      | O => Raise ERecursionError
      | S n' =>
          match nth_error h a with
          | Some (PInst KPolicy _) =>
              catch_exception
                (let* m := o_check_target c p in
                 if negb m then Ok NotApplicable
                 else
                   let* alg := get_attr h a "ruleCombiningAlg" in
                   match alg with
                   | PAlg x =>
                       let* l := get_attr h a "rules" in
                       let* rules := list_items l in
                       o_combine_rules x (o_rule_eval n' c) rules
                   | _ => Raise EAttributeError
                   end)
          | Some (PInst KPolicySet _) =>
              catch_exception
                (let* m := o_check_target c p in
                 if negb m then Ok NotApplicable
                 else
                   let* alg := get_attr h a "policyCombiningAlg" in
                   match alg with
                   | PAlg x =>
                       let* l := get_attr h a "policies" in
                       let* ps := list_items l in
                       o_combine_policies x (o_policy_eval n' c) ps
                   | _ => Raise EAttributeError
                   end)
          | _ => Raise EAttributeError
          end
      end
  | _ => Raise EAttributeError
  end.
End EvalObjects.
