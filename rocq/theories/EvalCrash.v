(** Evaluation that may be interrupted at any point: every function here is the
    function of the same name with suffix [_s] in EvalState.v, and models the same
    source lines, but each elementary step may raise any exception, inside or outside
    the Exception hierarchy, instead of doing its work or after having done it.  This
    covers what the interpreter may raise by itself anywhere: RecursionError,
    MemoryError, KeyboardInterrupt, exceptions set from another thread or by a signal
    handler. *)
From Verif Require Export EvalState.

(** A computation that started in world [w] can end with outcome [o] in world [w']. *)
Definition NS (A : Type) : Type := world -> res A -> world -> Prop.

(** An elementary step: done, or interrupted before or after its effect on the world. *)
Definition elementary {A} (x : ST A) : NS A :=
  fun w o w' =>
    (o = fst (x w) /\ w' = snd (x w)) \/
    (exists e, o = Raise e /\ (w' = w \/ w' = snd (x w))).
Definition bind_c {A B} (x : NS A) (f : A -> NS B) : NS B :=
  fun w o w' =>
    (exists a w1, x w (Ok a) w1 /\ f a w1 o w') \/
    (exists e, x w (Raise e) w' /\ o = Raise e).
Notation "'let?' x ':=' e1 'in' e2" := (bind_c e1 (fun x => e2))
  (at level 200, x pattern, e1 at level 100, e2 at level 200, right associativity).
Definition ret_c {A} (a : A) : NS A := elementary (ret_s a).
Definition raise_c {A} (e : exn) : NS A := elementary (raise_s e).
Definition lift_c {A} (r : res A) : NS A := elementary (lift_s r).
Definition pip_query_c (S : senv) (r : request) (d : designator)
  : NS (option (list pyval)) := elementary (pip_query_s S r d).
Definition fn_eval_c (S : senv) (f : fn) (args : list pyval) : NS pyval :=
  elementary (fn_eval_s S f args).

Definition mapM_c {A B} (f : A -> NS B) : list A -> NS (list B) :=
  fix go (l : list A) : NS (list B) :=
  match l with
  | [] => ret_c []
  | x :: xs =>
      let? y := f x in
      let? ys := go xs in
      ret_c (y :: ys)
  end.

(** attributedesignator.py:178-205 *)
Fixpoint collect_subjects_c (S : senv) (r : request) (d : designator)
  (et : option avclass) (bag : list attrval) (subs : list subject)
  : NS (list attrval) :=
  match subs with
  | [] => ret_c bag
  | s :: rest =>
      let? bag1 := lift_c (collect_attrs d et bag (sb_attributes s)) in
      let? bag2 := match rq_ctxHandler r with
                   | None => ret_c bag1
                   | Some _ =>
                       let? answer := pip_query_c S r d in
                       lift_c (add_pip_values et bag1 answer)
                   end in
      collect_subjects_c S r d et bag2 rest
  end.

(** attributedesignator.py:149-376 *)
Definition eval_designator_c (S : senv) (d : designator) (c : context) : NS pyval :=
  match c with
  | CtxOther => raise_c ETypeError
  | CtxRequest r =>
      let et := sclass_for S (dg_dataType d) in
      let? bag :=
        match dg_kind d with
        | DSubject => collect_subjects_c S r d et [] (rq_subjects r)
        | DResource => lift_c (collect_resources d et [] (rq_resources r))
        | DAction =>
            match rq_action r with
            | None => raise_c EAttributeError
            | Some attrs => lift_c (collect_attrs d et [] attrs)
            end
        | DEnvironment =>
            match rq_environment r with
            | None => raise_c EAttributeError
            | Some attrs => lift_c (collect_attrs d et [] attrs)
            end
        end in
      lift_c (check_present (dg_mustBePresent d) et bag)
  end.

(** attributeselector.py:109-148 *)
Definition eval_selector_c (S : senv) (s : selector) (c : context) : NS pyval :=
  lift_c (eval_selector (env_of S []) s c).

(** apply.py:184-204 *)
Fixpoint eval_expr_c (S : senv) (c : context) (x : expr) : NS pyval :=
  match x with
  | XApply _ f args =>
      let? inputs := mapM_c (eval_expr_c S c) args in
      match f with
      | None => raise_c EAttributeError
      | Some f => fn_eval_c S f inputs
      end
  | XValue v => ret_c (PAttr v)
  | XDesignator d => eval_designator_c S d c
  | XSelector s => eval_selector_c S s c
  end.

(** condition.py:62-72 *)
Definition eval_condition_c (S : senv) (c : context) (cond : option expr) : NS pyval :=
  match cond with
  | None => raise_c EAttributeError
  | Some x => eval_expr_c S c x
  end.

(** match.py:280-347 *)
Definition match_fn_apply_c (S : senv) (m : matchel) (v : attrval) : NS pyval :=
  match mt_fn m with
  | None => raise_c EAttributeError
  | Some f =>
      fn_eval_c S f
        [match mt_value m with Some a => PAttr a | None => PNat NNone end; PAttr v]
  end.
Definition eval_match_c (S : senv) (c : context) (m : matchel) : NS bool :=
  let? bag :=
    match mt_designator m with
    | Some d => eval_designator_c S d c
    | None =>
        match mt_selector m with
        | Some s => eval_selector_c S s c
        | None => raise_c EXacmlContextError
        end
    end in
  let? results := mapM_c (match_fn_apply_c S m) (bag_items bag) in
  ret_c (existsb truthy results).

(** target.py:102-198 *)
Definition match_child_c (S : senv) (c : context) (child : list matchel) : NS bool :=
  let? results := mapM_c (eval_match_c S c) child in
  ret_c (forallb (fun b => b) results).
Fixpoint section_loop_c (S : senv) (c : context) (status : bool)
  (children : list (list matchel)) : NS bool :=
  match children with
  | [] => ret_c status
  | ch :: rest =>
      let? b := match_child_c S c ch in
      section_loop_c S c (if b then true else status) rest
  end.
Definition match_section_c (S : senv) (c : context) (children : list (list matchel))
  : NS bool :=
  match children with
  | [] => ret_c true
  | _ => section_loop_c S c false children
  end.
Definition target_match_c (S : senv) (c : context) (t : target) : NS bool :=
  let? results := mapM_c (match_section_c S c)
    [tg_subjects t; tg_resources t; tg_actions t; tg_environments t] in
  ret_c (forallb (fun b => b) results).

(** rule.py:342-401 *)
Definition rule_body_c (S : senv) (c : context) (r : rule) : NS decision :=
  let? targetMatch := match rl_target r with
                      | Some t => target_match_c S c t
                      | None => ret_c true
                      end in
  if negb targetMatch then ret_c NotApplicable
  else
    let? status := match rl_condition r with
                   | Some cond => eval_condition_c S c cond
                   | None => ret_c (py_bool true)
                   end in
    if truthy status then
      match rl_effect r with
      | Some e => ret_c (decision_of_effect e)
      | None => raise_c EAttributeError
      end
    else ret_c NotApplicable.

(** The handlers rule.py:396-401 and policybase.py:162-172: Exceptions become
    Indeterminate, unless the handler itself (formatting the traceback, logging) is
    interrupted; other exceptions pass. *)
Definition catch_exception_c (x : NS decision) : NS decision :=
  fun w o w' =>
    (exists d, x w (Ok d) w' /\ o = Ok d) \/
    (exists e, x w (Raise e) w' /\
       if is_exception e then o = Ok Indeterminate \/ exists e', o = Raise e'
       else o = Raise e).

Definition rule_eval_c (S : senv) (c : context) (r : rule) : NS decision :=
  catch_exception_c (rule_body_c S c r).

(** rule_combining_alg.py:59-208 *)
Definition rules_deny_overrides_c (ev : rule -> NS decision) :=
  fix go (atLeastOneError potentialDeny atLeastOnePermit : bool)
         (rules : list rule) : NS decision :=
  match rules with
  | [] =>
      if potentialDeny then ret_c Indeterminate
      else if atLeastOnePermit then ret_c Permit
      else if atLeastOneError then ret_c Indeterminate
      else ret_c NotApplicable
  | r :: rest =>
      let? d := ev r in
      match d with
      | Deny => ret_c Deny
      | Permit => go atLeastOneError potentialDeny true rest
      | NotApplicable => go atLeastOneError potentialDeny atLeastOnePermit rest
      | Indeterminate =>
          match rl_effect r with
          | None => raise_c EAttributeError
          | Some EffDeny => go true true atLeastOnePermit rest
          | Some EffPermit => go true potentialDeny atLeastOnePermit rest
          end
      end
  end.
Definition rules_permit_overrides_c (ev : rule -> NS decision) :=
  fix go (atLeastOneError potentialPermit atLeastOneDeny : bool)
         (rules : list rule) : NS decision :=
  match rules with
  | [] =>
      if potentialPermit then ret_c Indeterminate
      else if atLeastOneDeny then ret_c Deny
      else if atLeastOneError then ret_c Indeterminate
      else ret_c NotApplicable
  | r :: rest =>
      let? d := ev r in
      match d with
      | Deny => go atLeastOneError potentialPermit true rest
      | Permit => ret_c Permit
      | NotApplicable => go atLeastOneError potentialPermit atLeastOneDeny rest
      | Indeterminate =>
          match rl_effect r with
          | None => raise_c EAttributeError
          | Some EffPermit => go true true atLeastOneDeny rest
          | Some EffDeny => go true potentialPermit atLeastOneDeny rest
          end
      end
  end.
Definition rules_first_applicable_c (ev : rule -> NS decision) :=
  fix go (rules : list rule) : NS decision :=
  match rules with
  | [] => ret_c NotApplicable
  | r :: rest =>
      let? d := ev r in
      match d with
      | Deny => ret_c Deny
      | Permit => ret_c Permit
      | NotApplicable => go rest
      | Indeterminate => ret_c Indeterminate
      end
  end.
Definition combine_rules_c (alg : comb_alg) (ev : rule -> NS decision)
  (rules : list rule) : NS decision :=
  match alg with
  | DenyOverrides => rules_deny_overrides_c ev false false false rules
  | PermitOverrides => rules_permit_overrides_c ev false false false rules
  | FirstApplicable => rules_first_applicable_c ev rules
  end.

(** policy_combining_alg.py:54-180 *)
Definition policies_deny_overrides_c (ev : policybase -> NS decision) :=
  fix go (atLeastOnePermit : bool) (ps : list policybase) : NS decision :=
  match ps with
  | [] => if atLeastOnePermit then ret_c Permit else ret_c NotApplicable
  | p :: rest =>
      let? d := ev p in
      match d with
      | Deny => ret_c Deny
      | Permit => go true rest
      | NotApplicable => go atLeastOnePermit rest
      | Indeterminate => ret_c Deny
      end
  end.
Definition policies_permit_overrides_c (ev : policybase -> NS decision) :=
  fix go (atLeastOneError atLeastOneDeny : bool) (ps : list policybase)
    : NS decision :=
  match ps with
  | [] =>
      if atLeastOneDeny then ret_c Deny
      else if atLeastOneError then ret_c Indeterminate
      else ret_c NotApplicable
  | p :: rest =>
      let? d := ev p in
      match d with
      | Deny => go atLeastOneError true rest
      | Permit => ret_c Permit
      | NotApplicable => go atLeastOneError atLeastOneDeny rest
      | Indeterminate => go true atLeastOneDeny rest
      end
  end.
Definition policies_first_applicable_c (ev : policybase -> NS decision) :=
  fix go (ps : list policybase) : NS decision :=
  match ps with
  | [] => ret_c NotApplicable
  | p :: rest =>
      let? d := ev p in
      match d with
      | Deny => ret_c Deny
      | Permit => ret_c Permit
      | NotApplicable => go rest
      | Indeterminate => ret_c Indeterminate
      end
  end.
Definition combine_policies_c (alg : comb_alg) (ev : policybase -> NS decision)
  (ps : list policybase) : NS decision :=
  match alg with
  | DenyOverrides => policies_deny_overrides_c ev false ps
  | PermitOverrides => policies_permit_overrides_c ev false false ps
  | FirstApplicable => policies_first_applicable_c ev ps
  end.

(** policybase.py:124-174 *)
Definition with_target_c (S : senv) (c : context) (t : option target)
  (combine : NS decision) : NS decision :=
  let? targetMatch := match t with
                      | Some t => target_match_c S c t
                      | None => ret_c true
                      end in
  if negb targetMatch then ret_c NotApplicable else combine.

Fixpoint policy_eval_c (S : senv) (c : context) (p : policybase) : NS decision :=
  match p with
  | PPolicy _ t alg rules =>
      catch_exception_c
        (with_target_c S c t
           (match alg with
            | None => raise_c EAttributeError
            | Some a => combine_rules_c a (rule_eval_c S c) rules
            end))
  | PPolicySet _ t alg children =>
      catch_exception_c
        (with_target_c S c t
           (match alg with
            | None => raise_c EAttributeError
            | Some a => combine_policies_c a (policy_eval_c S c) children
            end))
  end.

(** A program's sequence of evaluations in one process, any of which may be
    interrupted. *)
Fixpoint run_interrupted (S : senv) (calls : list (policybase * context)) (w : world)
  (os : list (res decision)) (w' : world) : Prop :=
  match calls with
  | [] => os = [] /\ w' = w
  | (p, c) :: rest =>
      exists o os' w1, policy_eval_c S c p w o w1 /\ os = o :: os' /\
        run_interrupted S rest w1 os' w'
  end.
