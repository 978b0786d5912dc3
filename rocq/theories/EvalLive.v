(** Evaluation of policy objects one look at a time, so that other threads can change
    objects in between.

    The functions are those of EvalObjects.v (prefix [l_] instead of [o_]).  Each access
    to an attribute, to the length of a list and to the next item of a list is a step of
    its own; a for loop over a list asks for item 0, 1, 2, ... until there is none, as
    Python does.  Attributes that the sources read twice are read twice.
    Simplifications: the content of an attribute value is read when the value is put
    into a bag or passed to a function, in one step; accesses for log messages are left
    out; the calls of the collaborators are one step each. *)
From Verif Require Export EvalObjects.

(** What is left to do of a computation: nothing, a look at one object, a question to the
    PIP or the XPath selector, something and then the rest, or a for loop at item [i] of
    the list at [a], whose body gives the new state and whether to break. *)
Inductive LT (A : Type) : Type :=
| LDone (r : res A)
| LLook (a : nat) (k : option pobject -> LT A)
| LPip (r d : nat) (k : res (option (list pyval)) -> LT A)
| LXpath (r : nat) (path : pval) (k : res (list native) -> LT A)
| LBind (B : Type) (x : LT B) (f : res B -> LT A)
| LLoop (a i : nat) (s : A) (body : A -> pval -> LT (A * bool)).
Arguments LDone {A} r.
Arguments LLook {A} a k.
Arguments LPip {A} r d k.
Arguments LXpath {A} r path k.
Arguments LBind {A B} x f.
Arguments LLoop {A} a i s body.

Definition lbind {A B} (x : LT A) (f : A -> LT B) : LT B :=
  LBind x (fun r => match r with Ok v => f v | Raise e => LDone (Raise e) end).
Notation "'let+' x ':=' e1 'in' e2" := (lbind e1 (fun x => e2))
  (at level 200, x pattern, e1 at level 100, e2 at level 200, right associativity).
Definition ret {A} (v : A) : LT A := LDone (Ok v).
Definition raise {A} (e : exn) : LT A := LDone (Raise e).

(** The next round of a for loop: [o] is the list object *)
Definition next_round {A} (o : option pobject) (a i : nat) (s : A)
  (body : A -> pval -> LT (A * bool)) : LT A :=
  match o with
  | Some (PTypedList _ items) =>
      match nth_error items i with
      | None => ret s
      | Some v =>
          let+ (s', break) := body s v in
          if break then ret s' else LLoop a (S i) s' body
      end
  | _ => raise ETypeError
  end.

Section EvalLive.
Variable E : oenv.

(** One step, with the objects as they are now *)
Fixpoint lstep {A} (h : heap) (t : LT A) : LT A :=
  match t with
  | LDone r => LDone r
  | LLook a k => k (nth_error h a)
  | LPip r d k => k (oe_pip E h r d)
  | LXpath r path k => k (oe_xpath E h r path)
  | LBind x f =>
      match x with
      | LDone r => fun f => f r
      | _ => fun f => LBind (lstep h x) f
      end f
  | LLoop a i s body => next_round (nth_error h a) a i s body
  end.

(** The steps made while the objects are, one after the other, as in [hs] *)
Definition lrun {A} (hs : list heap) (t : LT A) : LT A :=
  fold_left (fun t h => lstep h t) hs t.

(** ** Looks *)

Definition just (o : option pobject) : heap :=
  match o with Some x => [x] | None => [] end.

(** [object.name] *)
Definition l_get (a : nat) (name : string) : LT pval :=
  LLook a (fun o => LDone (get_attr (just o) 0 name)).
Definition l_attr (v : pval) (name : string) : LT pval :=
  match v with
  | PRef a => l_get a name
  | _ => raise EAttributeError
  end.

(** [len(v)] *)
Definition l_len (v : pval) : LT nat :=
  match v with
  | PRef a =>
      LLook a (fun o => match o with
                        | Some (PTypedList _ items) => ret (length items)
                        | _ => raise ETypeError
                        end)
  | _ => raise ETypeError
  end.

(** [for x in v: ...] *)
Definition l_for {A} (v : pval) (s : A) (body : A -> pval -> LT (A * bool)) : LT A :=
  match v with
  | PRef a => LLoop a 0 s body
  | _ => raise ETypeError
  end.

Definition l_pyval (v : pval) : LT pyval :=
  match v with
  | PRef a => LLook a (fun o => ret (as_pyval (just o) (PRef 0)))
  | _ => ret (as_pyval [] v)
  end.

(** isinstance(context, Request) *)
Definition l_is_request (c : pval) : LT (option nat) :=
  match c with
  | PRef a => LLook a (fun o => ret (match is_request (just o) (PRef 0) with
                                     | Some _ => Some a
                                     | None => None
                                     end))
  | _ => ret None
  end.

(** ** Designators and selectors *)

(** attributedesignator.py:165-176 *)
Definition l_attr_match (id dt issuer : pval) (a : pval) : LT bool :=
  let+ i := l_attr a "attributeId" in
  if negb (same i id) then ret false
  else
    let+ t := l_attr a "dataType" in
    if negb (same t dt) then ret false
    else
      let+ s := l_attr a "issuer" in
      match issuer with
      | PNat NNone => ret true
      | _ => ret (same issuer s)
      end.

(** attributedesignator.py:181-182 *)
Definition l_typed_values (dt : pval) (l : pval) : LT (list pyval) :=
  l_for l [] (fun vs i =>
    let+ t := l_attr i "dataType" in
    if same t dt then
      let+ v := l_pyval i in
      ret (vs ++ [v], false)
    else ret (vs, false)).

(** attributedesignator.py:179-182, 255-258, 308-311, 362-365 *)
Definition l_collect_attrs (id dt issuer : pval) (et : option avclass) (bag : list attrval)
  (l : pval) : LT (list attrval) :=
  l_for l bag (fun bag a =>
    let+ b := l_attr_match id dt issuer a in
    if b then
      let+ values := l_attr a "attributeValues" in
      let+ vs := l_typed_values dt values in
      let+ bag' := LDone (bag_extend et bag vs) in
      ret (bag', false)
    else ret (bag, false)).

(** attributedesignator.py:178-205; context.ctxHandler is read twice (184, 192) *)
Definition l_collect_subjects (r d : nat) (id dt issuer : pval) (et : option avclass)
  (l : pval) : LT (list attrval) :=
  l_for l [] (fun bag s =>
    let+ attrs := l_attr s "attributes" in
    let+ bag1 := l_collect_attrs id dt issuer et bag attrs in
    let+ handler := l_get r "ctxHandler" in
    match handler with
    | PNat NNone => ret (bag1, false)
    | _ =>
        let+ handler := l_get r "ctxHandler" in
        match handler with
        | PNat NNone => raise EAttributeError
        | _ =>
            let+ answer := LPip r d LDone in
            let+ bag2 := LDone (add_pip_values et bag1 answer) in
            ret (bag2, false)
        end
    end).

(** attributedesignator.py:254-258 *)
Definition l_collect_resources (id dt issuer : pval) (et : option avclass) (l : pval)
  : LT (list attrval) :=
  l_for l [] (fun bag r =>
    let+ attrs := l_attr r "attributes" in
    let+ bag' := l_collect_attrs id dt issuer et bag attrs in
    ret (bag', false)).

(** attributedesignator.py:149-216, 227-269, 280-322, 333-376.  As in EvalObjects.v
    mustBePresent is read also when the bag is not empty; it is not used then. *)
Definition l_eval_designator (k : designator_kind) (d : nat) (c : pval) : LT pyval :=
  let+ request := l_is_request c in
  match request with
  | None => raise ETypeError
  | Some r =>
      let+ dt := l_get d "dataType" in
      let et := o_class_for E dt in
      let+ id := l_get d "attributeId" in
      let+ issuer := l_get d "issuer" in
      let section name :=
        let+ x := l_get r name in
        let+ attrs := l_attr x "attributes" in
        l_collect_attrs id dt issuer et [] attrs in
      let+ bag :=
        match k with
        | DSubject =>
            let+ l := l_get r "subjects" in
            l_collect_subjects r d id dt issuer et l
        | DResource =>
            let+ l := l_get r "resources" in
            l_collect_resources id dt issuer et l
        | DAction => section "action"
        | DEnvironment => section "environment"
        end in
      let+ must := l_get d "mustBePresent" in
      LDone (o_check_present must et bag)
  end.

(** attributeselector.py:109-148; context.attributeSelector is read twice (123, 136) *)
Definition l_eval_selector (s : nat) (c : pval) : LT pyval :=
  let+ request := l_is_request c in
  match request with
  | None => raise ETypeError
  | Some r =>
      let+ sel := l_get r "attributeSelector" in
      match sel with
      | PNat NNone => raise EValueError
      | _ =>
          let+ dt := l_get s "dataType" in
          match dt with
          | PNat (NStr t) =>
              match dict_get t (oe_classes E) with
              | None => raise EXMLParseError
              | Some cls =>
                  let+ sel := l_get r "attributeSelector" in
                  let+ path := l_get s "requestContextPath" in
                  match sel with
                  | PNat NNone => raise EAttributeError
                  | _ =>
                      let+ texts := LXpath r path LDone in
                      let+ bag := LDone (selector_loop cls t [] texts) in
                      let+ must := l_get s "mustBePresent" in
                      LDone (o_check_present must (Some cls) bag)
                  end
              end
          | _ => raise EXMLParseError
          end
      end
  end.

(** ** Expressions *)

(** expression.evaluate; Apply.evaluate (apply.py:184-204) makes the list of inputs in the
    length that the list of expressions has at first, filled with None; an expression more
    than that raises IndexError once it was evaluated.  [n] as in [o_eval_expr]. *)
Fixpoint l_eval_expr (n : nat) (c : pval) (x : pval) : LT pyval :=
  match x with
  | PRef a =>
      match n with
      | O => raise ERecursionError
      | S n' =>
          LLook a (fun o =>
            match o with
            | Some (PValue v) => ret (PAttr v)
            | Some (PInst (KDesignator k) _) => l_eval_designator k a c
            | Some (PInst KSelector _) => l_eval_selector a c
            | Some (PInst KApply _) =>
                let+ l := l_get a "expressions" in
                let+ size := l_len l in
                let+ l := l_get a "expressions" in
                let+ inputs := l_for l [] (fun inputs x =>
                  let+ v := l_eval_expr n' c x in
                  if Nat.ltb (length inputs) size then ret (inputs ++ [v], false)
                  else raise EIndexError) in
                let+ f := l_get a "function" in
                match f with
                | PFn f => LDone (fn_eval (oe_fenv E) f
                             (inputs ++ repeat (Values.PNat NNone) (size - length inputs)))
                | _ => raise EAttributeError
                end
            | _ => raise EAttributeError
            end)
      end
  | _ => raise EAttributeError
  end.

(** condition.py:62-72 *)
Definition l_eval_condition (n : nat) (c : pval) (cond : pval) : LT pyval :=
  let+ x := l_attr cond "expression" in
  l_eval_expr n c x.

(** ** Targets *)

(** The loop of match.py:322-343 over the values retrieved, which no other thread has; the
    value of the match is looked at in each call of the function. *)
Fixpoint l_match_values (f value : pval) (status : bool) (bag : list attrval) : LT bool :=
  match bag with
  | [] => ret status
  | v :: rest =>
      match f with
      | PFn f' =>
          let+ x := l_pyval value in
          let+ r := LDone (fn_eval (oe_fenv E) f' [x; PAttr v]) in
          l_match_values f value (status || truthy r) rest
      | _ => raise EAttributeError
      end
  end.

(** match.py:280-347; attributeDesignator (292, 293) and attributeSelector (295, 300) are read
    twice *)
Definition l_eval_match (c : pval) (m : pval) : LT bool :=
  let+ d := l_attr m "attributeDesignator" in
  let+ bag :=
    match d with
    | PNat NNone =>
        let+ s := l_attr m "attributeSelector" in
        match s with
        | PNat NNone => raise EXacmlContextError
        | _ =>
            let+ s := l_attr m "attributeSelector" in
            match s with
            | PRef a => LLook a (fun o => match o with
                                          | Some (PInst KSelector _) => l_eval_selector a c
                                          | _ => raise EAttributeError
                                          end)
            | _ => raise EAttributeError
            end
        end
    | _ =>
        let+ d := l_attr m "attributeDesignator" in
        match d with
        | PRef a => LLook a (fun o => match o with
                                      | Some (PInst (KDesignator k) _) => l_eval_designator k a c
                                      | _ => raise EAttributeError
                                      end)
        | _ => raise EAttributeError
        end
    end in
  let+ f := l_attr m "function" in
  let+ value := l_attr m "attributeValue" in
  l_match_values f value false (bag_items bag).

(** target.py:163-198: the list of results has the length that the list of matches has at
    first (184) *)
Definition l_match_child (c : pval) (child : pval) : LT bool :=
  let+ l := l_attr child "matches" in
  let+ size := l_len l in
  let+ l := l_attr child "matches" in
  let+ (_, status) := l_for l (0, true) (fun '(i, status) m =>
    let+ b := l_eval_match c m in
    if Nat.ltb i size then ret ((S i, status && b), false) else raise EIndexError) in
  ret status.

(** target.py:128-156 *)
Definition l_match_section (c : pval) (t : pval) (name : string) : LT bool :=
  let+ l := l_attr t name in
  let+ size := l_len l in
  if Nat.eqb size 0 then ret true
  else l_for l false (fun status child =>
    let+ b := l_match_child c child in
    ret (if b then true else status, false)).

(** target.py:102-161 *)
Fixpoint l_match_sections (c : pval) (t : pval) (status : bool) (names : list string) : LT bool :=
  match names with
  | [] => ret status
  | name :: rest =>
      let+ b := l_match_section c t name in
      l_match_sections c t (status && b) rest
  end.
Definition l_target_match (c : pval) (t : pval) : LT bool :=
  l_match_sections c t true ["subjects"; "resources"; "actions"; "environments"].

(** self.target is read twice: rule.py:359-360, policybase.py:143-144 *)
Definition l_check_target (c : pval) (v : pval) : LT bool :=
  let+ t := l_attr v "target" in
  match t with
  | PNat NNone => ret true
  | _ =>
      let+ t := l_attr v "target" in
      l_target_match c t
  end.

(** ** Rules *)

(** rule.effect.value *)
Definition l_effect_value (r : pval) : LT pval :=
  let+ e := l_attr r "effect" in
  l_attr e "value".

(** rule.py:352-394; self.condition is read twice (375, 376) *)
Definition l_rule_body (n : nat) (c : pval) (r : pval) : LT decision :=
  let+ targetMatch := l_check_target c r in
  if negb targetMatch then ret NotApplicable
  else
    let+ cond := l_attr r "condition" in
    let+ status := match cond with
                   | PNat NNone => ret (py_bool true)
                   | _ =>
                       let+ cond := l_attr r "condition" in
                       l_eval_condition n c cond
                   end in
    if truthy status then
      let+ v := l_effect_value r in
      LDone (o_decision v)
    else ret NotApplicable.

Definition l_catch (x : LT decision) : LT decision :=
  LBind x (fun r => LDone (catch_exception r)).

(** rule.py:342-401 *)
Definition l_rule_eval (n : nat) (c : pval) (r : pval) : LT decision :=
  l_catch (l_rule_body n c r).

(** rule_combining_alg.py:91 *)
Definition l_effect_is_deny (r : pval) : LT bool :=
  let+ v := l_effect_value r in
  let+ e := LDone (o_decision v) in
  ret (match e with Deny => true | _ => false end).
(** rule_combining_alg.py:145 *)
Definition l_effect_is_permit (r : pval) : LT bool :=
  let+ v := l_effect_value r in
  ret (same v (PNat (NStr "Permit"))).

(** The state of a combining loop: the three local variables, and what was returned in it *)
Definition combining : Type := (bool * bool * bool * option decision)%type.
Definition returned (d : decision) : combining * bool := ((false, false, false, Some d), true).

(** rule_combining_alg.py:59-105: atLeastOneError, potentialDeny, atLeastOnePermit *)
Definition l_rules_deny_overrides (ev : pval -> LT decision) (rules : pval) : LT decision :=
  let+ (error, potential, permit, answer) := l_for rules ((false, false, false), None)
    (fun '(error, potential, permit, _) r =>
       let+ d := ev r in
       match d with
       | Deny => ret (returned Deny)
       | Permit => ret ((error, potential, true, None), false)
       | NotApplicable => ret ((error, potential, permit, None), false)
       | Indeterminate =>
           let+ b := l_effect_is_deny r in
           ret ((true, if b then true else potential, permit, None), false)
       end) in
  match answer with
  | Some d => ret d
  | None =>
      if potential then ret Indeterminate
      else if permit then ret Permit
      else if error then ret Indeterminate
      else ret NotApplicable
  end.

(** rule_combining_alg.py:111-167: atLeastOneError, potentialPermit, atLeastOneDeny *)
Definition l_rules_permit_overrides (ev : pval -> LT decision) (rules : pval) : LT decision :=
  let+ (error, potential, deny, answer) := l_for rules ((false, false, false), None)
    (fun '(error, potential, deny, _) r =>
       let+ d := ev r in
       match d with
       | Deny => ret ((error, potential, true, None), false)
       | Permit => ret (returned Permit)
       | NotApplicable => ret ((error, potential, deny, None), false)
       | Indeterminate =>
           let+ b := l_effect_is_permit r in
           ret ((true, if b then true else potential, deny, None), false)
       end) in
  match answer with
  | Some d => ret d
  | None =>
      if potential then ret Indeterminate
      else if deny then ret Deny
      else if error then ret Indeterminate
      else ret NotApplicable
  end.

(** rule_combining_alg.py:173-208, policy_combining_alg.py:144-180 *)
Definition l_first_applicable (ev : pval -> LT decision) (l : pval) : LT decision :=
  let+ answer := l_for l None
    (fun _ r =>
       let+ d := ev r in
       match d with
       | NotApplicable => ret (None, false)
       | d => ret (Some d, true)
       end) in
  match answer with
  | Some d => ret d
  | None => ret NotApplicable
  end.

Definition l_combine_rules (alg : comb_alg) (ev : pval -> LT decision) (rules : pval) : LT decision :=
  match alg with
  | DenyOverrides => l_rules_deny_overrides ev rules
  | PermitOverrides => l_rules_permit_overrides ev rules
  | FirstApplicable => l_first_applicable ev rules
  end.

(** ** Policies *)

(** policy_combining_alg.py:54-87 *)
Definition l_policies_deny_overrides (ev : pval -> LT decision) (ps : pval) : LT decision :=
  let+ (permit, answer) := l_for ps (false, None)
    (fun '(permit, _) p =>
       let+ d := ev p in
       match d with
       | Deny | Indeterminate => ret ((permit, Some Deny), true)
       | Permit => ret ((true, None), false)
       | NotApplicable => ret ((permit, None), false)
       end) in
  match answer with
  | Some d => ret d
  | None => if permit : bool then ret Permit else ret NotApplicable
  end.

(** policy_combining_alg.py:92-138 *)
Definition l_policies_permit_overrides (ev : pval -> LT decision) (ps : pval) : LT decision :=
  let+ (error, deny, answer) := l_for ps ((false, false), None)
    (fun '(error, deny, _) p =>
       let+ d := ev p in
       match d with
       | Deny => ret ((error, true, None), false)
       | Permit => ret ((error, deny, Some Permit), true)
       | NotApplicable => ret ((error, deny, None), false)
       | Indeterminate => ret ((true, deny, None), false)
       end) in
  match answer with
  | Some d => ret d
  | None =>
      if deny : bool then ret Deny
      else if error : bool then ret Indeterminate
      else ret NotApplicable
  end.

Definition l_combine_policies (alg : comb_alg) (ev : pval -> LT decision) (ps : pval) : LT decision :=
  match alg with
  | DenyOverrides => l_policies_deny_overrides ev ps
  | PermitOverrides => l_policies_permit_overrides ev ps
  | FirstApplicable => l_first_applicable ev ps
  end.

(** policybase.py:124-174, policy.py:390-397, policyset.py:383-390: self.ruleCombiningAlg
    and then self.rules are read; [n] as in [o_policy_eval] *)
Fixpoint l_policy_eval (n : nat) (c : pval) (p : pval) : LT decision :=
  match p with
  | PRef a =>
      match n with
      | O => raise ERecursionError
      | S n' =>
          LLook a (fun o =>
            match o with
            | Some (PInst KPolicy _) =>
                l_catch
                  (let+ m := l_check_target c p in
                   if negb m then ret NotApplicable
                   else
                     let+ alg := l_get a "ruleCombiningAlg" in
                     match alg with
                     | PAlg x =>
                         let+ l := l_get a "rules" in
                         l_combine_rules x (l_rule_eval n' c) l
                     | _ => raise EAttributeError
                     end)
            | Some (PInst KPolicySet _) =>
                l_catch
                  (let+ m := l_check_target c p in
                   if negb m then ret NotApplicable
                   else
                     let+ alg := l_get a "policyCombiningAlg" in
                     match alg with
                     | PAlg x =>
                         let+ l := l_get a "policies" in
                         l_combine_policies x (l_policy_eval n' c) l
                     | _ => raise EAttributeError
                     end)
            | _ => raise EAttributeError
            end)
      end
  | _ => raise EAttributeError
  end.
End EvalLive.
