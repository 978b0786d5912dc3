(** Evaluation with explicit state: the regular expression cache and an attribute
    source (PIP) whose answers may depend on all earlier queries.  Every function
    here is the state passing version of the function of the same name (without
    the suffix [_s]) in Functions.v and Eval.v and models the same source lines. *)
From Verif Require Export Eval.

(** ** The regular expression cache *)

(** RegexpMatchBase.compiled_regexes, v1/regexp_match.py:44: pattern text to
    compiled object; a compiled object is represented by the pattern it was
    compiled from. *)
Definition cache : Type := list (string * string).

(** RegexpMatchBase.evaluate, v1/regexp_match.py:46-68, after the type checks:
    60-64 look up or compile and store (only successful compilations are
    stored), 65 match. *)
Definition regexp_values_s (F : fenv) (pat inp : native) (k : cache)
  : res pyval * cache :=
  match pat with
  | NStr p =>
      let '(compiled, k') :=
        match dict_get p k with
        | Some cr => (Ok cr, k)
        | None =>
            match fe_compile F p with
            | Some e => (Raise e, k)
            | None => (Ok p, dict_set p p k)
            end
        end in
      match compiled with
      | Raise e => (Raise e, k')
      | Ok cr =>
          match inp with
          | NStr s => (Ok (py_bool (fe_match F cr s)), k')
          | _ => (Raise ETypeError, k')
          end
      end
  | _ => (Raise ETypeError, k)
  end.

Definition regexp_eval_s (F : fenv) (c : avclass) (args : list pyval) (k : cache)
  : res pyval * cache :=
  match args with
  | [PAttr a; PAttr b] =>
      if av_isinstance a c then
        if av_isinstance b c then regexp_values_s F (av_value a) (av_value b) k
        else (Raise ETypeError, k)
      else (Raise ETypeError, k)
  | [_; _] => (Raise ETypeError, k)
  | _ => (Raise ETypeError, k)
  end.

(** ** World and monad *)

(** [w_log]: the pipQuery calls so far, in order; [w_cache]: the regular
    expression cache; [w_applied]: the functions applied so far with their
    arguments, in order (observation only). *)
Record world : Type := mkWorld {
  w_log : list (request * designator);
  w_cache : cache;
  w_applied : list (fn * list pyval)
}.

Definition ST (A : Type) : Type := world -> res A * world.
Definition ret_s {A} (a : A) : ST A := fun w => (Ok a, w).
Definition raise_s {A} (e : exn) : ST A := fun w => (Raise e, w).
Definition lift_s {A} (r : res A) : ST A := fun w => (r, w).
Definition bind_s {A B} (x : ST A) (f : A -> ST B) : ST B :=
  fun w => match x w with
           | (Ok a, w') => f a w'
           | (Raise e, w') => (Raise e, w')
           end.
Notation "'let!' x ':=' e1 'in' e2" := (bind_s e1 (fun x => e2))
  (at level 200, x pattern, e1 at level 100, e2 at level 200, right associativity).

Definition mapM_s {A B} (f : A -> ST B) : list A -> ST (list B) :=
  fix go (l : list A) : ST (list B) :=
  match l with
  | [] => ret_s []
  | x :: xs =>
      let! y := f x in
      let! ys := go xs in
      ret_s (y :: ys)
  end.

(** Stateful environment: [sn_pip h r d] is the answer of pipQuery(r, d) after
    the queries [h]; custom functions may depend on the queries as well.
    XPath selection is a function of the request. *)
Record senv : Type := mkSenv {
  sn_fenv : fenv;
  sn_classes : list (string * avclass);
  sn_pip : list (request * designator) -> request -> designator ->
           res (option (list pyval));
  sn_xpath : request -> option string -> res (list native)
}.

(** The pure environment in which the PIP always answers as after history [h]. *)
Definition env_of (S : senv) (h : list (request * designator)) : env :=
  mkEnv (sn_fenv S) (sn_classes S) (sn_pip S h) (sn_xpath S).

Definition pip_query_s (S : senv) (r : request) (d : designator)
  : ST (option (list pyval)) :=
  fun w => (sn_pip S (w_log w) r d,
            mkWorld (w_log w ++ [(r, d)]) (w_cache w) (w_applied w)).

Definition fn_eval_s (S : senv) (f : fn) (args : list pyval) : ST pyval :=
  fun w =>
    let applied := w_applied w ++ [(f, args)] in
    match f with
    | FnRegexp c =>
        let '(r, k) := regexp_eval_s (sn_fenv S) c args (w_cache w) in
        (r, mkWorld (w_log w) k applied)
    | _ => (fn_eval (sn_fenv S) f args, mkWorld (w_log w) (w_cache w) applied)
    end.

Definition sclass_for (S : senv) (dt : option string) : option avclass :=
  class_for (env_of S []) dt.

(** attributedesignator.py:178-205 *)
Fixpoint collect_subjects_s (S : senv) (r : request) (d : designator)
  (et : option avclass) (bag : list attrval) (subs : list subject)
  : ST (list attrval) :=
  match subs with
  | [] => ret_s bag
  | s :: rest =>
      let! bag1 := lift_s (collect_attrs d et bag (sb_attributes s)) in
      let! bag2 := match rq_ctxHandler r with
                   | None => ret_s bag1
                   | Some _ =>
                       let! answer := pip_query_s S r d in
                       lift_s (add_pip_values et bag1 answer)
                   end in
      collect_subjects_s S r d et bag2 rest
  end.

(** attributedesignator.py:149-376 *)
Definition eval_designator_s (S : senv) (d : designator) (c : context) : ST pyval :=
  match c with
  | CtxOther => raise_s ETypeError
  | CtxRequest r =>
      let et := sclass_for S (dg_dataType d) in
      let! bag :=
        match dg_kind d with
        | DSubject => collect_subjects_s S r d et [] (rq_subjects r)
        | DResource => lift_s (collect_resources d et [] (rq_resources r))
        | DAction =>
            match rq_action r with
            | None => raise_s EAttributeError
            | Some attrs => lift_s (collect_attrs d et [] attrs)
            end
        | DEnvironment =>
            match rq_environment r with
            | None => raise_s EAttributeError
            | Some attrs => lift_s (collect_attrs d et [] attrs)
            end
        end in
      lift_s (check_present (dg_mustBePresent d) et bag)
  end.

(** attributeselector.py:109-148 *)
Definition eval_selector_s (S : senv) (s : selector) (c : context) : ST pyval :=
  lift_s (eval_selector (env_of S []) s c).

(** apply.py:184-204 *)
Fixpoint eval_expr_s (S : senv) (c : context) (x : expr) : ST pyval :=
  match x with
  | XApply _ f args =>
      let! inputs := mapM_s (eval_expr_s S c) args in
      match f with
      | None => raise_s EAttributeError
      | Some f => fn_eval_s S f inputs
      end
  | XValue v => ret_s (PAttr v)
  | XDesignator d => eval_designator_s S d c
  | XSelector s => eval_selector_s S s c
  end.

(** condition.py:62-72 *)
Definition eval_condition_s (S : senv) (c : context) (cond : option expr) : ST pyval :=
  match cond with
  | None => raise_s EAttributeError
  | Some x => eval_expr_s S c x
  end.

(** match.py:280-347 *)
Definition match_fn_apply_s (S : senv) (m : matchel) (v : attrval) : ST pyval :=
  match mt_fn m with
  | None => raise_s EAttributeError
  | Some f =>
      fn_eval_s S f
        [match mt_value m with Some a => PAttr a | None => PNat NNone end; PAttr v]
  end.
Definition eval_match_s (S : senv) (c : context) (m : matchel) : ST bool :=
  let! bag :=
    match mt_designator m with
    | Some d => eval_designator_s S d c
    | None =>
        match mt_selector m with
        | Some s => eval_selector_s S s c
        | None => raise_s EXacmlContextError
        end
    end in
  let! results := mapM_s (match_fn_apply_s S m) (bag_items bag) in
  ret_s (existsb truthy results).

(** target.py:102-198 *)
Definition match_child_s (S : senv) (c : context) (child : list matchel) : ST bool :=
  let! results := mapM_s (eval_match_s S c) child in
  ret_s (forallb (fun b => b) results).
Fixpoint section_loop_s (S : senv) (c : context) (status : bool)
  (children : list (list matchel)) : ST bool :=
  match children with
  | [] => ret_s status
  | ch :: rest =>
      let! b := match_child_s S c ch in
      section_loop_s S c (if b then true else status) rest
  end.
Definition match_section_s (S : senv) (c : context) (children : list (list matchel))
  : ST bool :=
  match children with
  | [] => ret_s true
  | _ => section_loop_s S c false children
  end.
Definition target_match_s (S : senv) (c : context) (t : target) : ST bool :=
  let! results := mapM_s (match_section_s S c)
    [tg_subjects t; tg_resources t; tg_actions t; tg_environments t] in
  ret_s (forallb (fun b => b) results).

(** rule.py:342-401 *)
Definition rule_body_s (S : senv) (c : context) (r : rule) : ST decision :=
  let! targetMatch := match rl_target r with
                      | Some t => target_match_s S c t
                      | None => ret_s true
                      end in
  if negb targetMatch then ret_s NotApplicable
  else
    let! status := match rl_condition r with
                   | Some cond => eval_condition_s S c cond
                   | None => ret_s (py_bool true)
                   end in
    if truthy status then
      match rl_effect r with
      | Some e => ret_s (decision_of_effect e)
      | None => raise_s EAttributeError
      end
    else ret_s NotApplicable.

Definition catch_exception_s (x : ST decision) : ST decision :=
  fun w => let '(r, w') := x w in (catch_exception r, w').

Definition rule_eval_s (S : senv) (c : context) (r : rule) : ST decision :=
  catch_exception_s (rule_body_s S c r).

(** rule_combining_alg.py:59-208 *)
Definition rules_deny_overrides_s (ev : rule -> ST decision) :=
  fix go (atLeastOneError potentialDeny atLeastOnePermit : bool)
         (rules : list rule) : ST decision :=
  match rules with
  | [] =>
      if potentialDeny then ret_s Indeterminate
      else if atLeastOnePermit then ret_s Permit
      else if atLeastOneError then ret_s Indeterminate
      else ret_s NotApplicable
  | r :: rest =>
      let! d := ev r in
      match d with
      | Deny => ret_s Deny
      | Permit => go atLeastOneError potentialDeny true rest
      | NotApplicable => go atLeastOneError potentialDeny atLeastOnePermit rest
      | Indeterminate =>
          match rl_effect r with
          | None => raise_s EAttributeError
          | Some EffDeny => go true true atLeastOnePermit rest
          | Some EffPermit => go true potentialDeny atLeastOnePermit rest
          end
      end
  end.
Definition rules_permit_overrides_s (ev : rule -> ST decision) :=
  fix go (atLeastOneError potentialPermit atLeastOneDeny : bool)
         (rules : list rule) : ST decision :=
  match rules with
  | [] =>
      if potentialPermit then ret_s Indeterminate
      else if atLeastOneDeny then ret_s Deny
      else if atLeastOneError then ret_s Indeterminate
      else ret_s NotApplicable
  | r :: rest =>
      let! d := ev r in
      match d with
      | Deny => go atLeastOneError potentialPermit true rest
      | Permit => ret_s Permit
      | NotApplicable => go atLeastOneError potentialPermit atLeastOneDeny rest
      | Indeterminate =>
          match rl_effect r with
          | None => raise_s EAttributeError
          | Some EffPermit => go true true atLeastOneDeny rest
          | Some EffDeny => go true potentialPermit atLeastOneDeny rest
          end
      end
  end.
Definition rules_first_applicable_s (ev : rule -> ST decision) :=
  fix go (rules : list rule) : ST decision :=
  match rules with
  | [] => ret_s NotApplicable
  | r :: rest =>
      let! d := ev r in
      match d with
      | Deny => ret_s Deny
      | Permit => ret_s Permit
      | NotApplicable => go rest
      | Indeterminate => ret_s Indeterminate
      end
  end.
Definition combine_rules_s (alg : comb_alg) (ev : rule -> ST decision)
  (rules : list rule) : ST decision :=
  match alg with
  | DenyOverrides => rules_deny_overrides_s ev false false false rules
  | PermitOverrides => rules_permit_overrides_s ev false false false rules
  | FirstApplicable => rules_first_applicable_s ev rules
  end.

(** policy_combining_alg.py:54-180 *)
Definition policies_deny_overrides_s (ev : policybase -> ST decision) :=
  fix go (atLeastOnePermit : bool) (ps : list policybase) : ST decision :=
  match ps with
  | [] => if atLeastOnePermit then ret_s Permit else ret_s NotApplicable
  | p :: rest =>
      let! d := ev p in
      match d with
      | Deny => ret_s Deny
      | Permit => go true rest
      | NotApplicable => go atLeastOnePermit rest
      | Indeterminate => ret_s Deny
      end
  end.
Definition policies_permit_overrides_s (ev : policybase -> ST decision) :=
  fix go (atLeastOneError atLeastOneDeny : bool) (ps : list policybase)
    : ST decision :=
  match ps with
  | [] =>
      if atLeastOneDeny then ret_s Deny
      else if atLeastOneError then ret_s Indeterminate
      else ret_s NotApplicable
  | p :: rest =>
      let! d := ev p in
      match d with
      | Deny => go atLeastOneError true rest
      | Permit => ret_s Permit
      | NotApplicable => go atLeastOneError atLeastOneDeny rest
      | Indeterminate => go true atLeastOneDeny rest
      end
  end.
Definition policies_first_applicable_s (ev : policybase -> ST decision) :=
  fix go (ps : list policybase) : ST decision :=
  match ps with
  | [] => ret_s NotApplicable
  | p :: rest =>
      let! d := ev p in
      match d with
      | Deny => ret_s Deny
      | Permit => ret_s Permit
      | NotApplicable => go rest
      | Indeterminate => ret_s Indeterminate
      end
  end.
Definition combine_policies_s (alg : comb_alg) (ev : policybase -> ST decision)
  (ps : list policybase) : ST decision :=
  match alg with
  | DenyOverrides => policies_deny_overrides_s ev false ps
  | PermitOverrides => policies_permit_overrides_s ev false false ps
  | FirstApplicable => policies_first_applicable_s ev ps
  end.

(** policybase.py:124-174 *)
Definition with_target_s (S : senv) (c : context) (t : option target)
  (combine : ST decision) : ST decision :=
  let! targetMatch := match t with
                      | Some t => target_match_s S c t
                      | None => ret_s true
                      end in
  if negb targetMatch then ret_s NotApplicable else combine.

Fixpoint policy_eval_s (S : senv) (c : context) (p : policybase) : ST decision :=
  match p with
  | PPolicy _ t alg rules =>
      catch_exception_s
        (with_target_s S c t
           (match alg with
            | None => raise_s EAttributeError
            | Some a => combine_rules_s a (rule_eval_s S c) rules
            end))
  | PPolicySet _ t alg children =>
      catch_exception_s
        (with_target_s S c t
           (match alg with
            | None => raise_s EAttributeError
            | Some a => combine_policies_s a (policy_eval_s S c) children
            end))
  end.

(** A program's sequence of evaluations in one process. *)
Fixpoint run_evaluations (S : senv) (calls : list (policybase * context)) (w : world)
  : list (res decision) * world :=
  match calls with
  | [] => ([], w)
  | (p, c) :: rest =>
      let '(r, w1) := policy_eval_s S c p w in
      let '(rs, w2) := run_evaluations S rest w1 in
      (r :: rs, w2)
  end.

(** A sequence of direct regexp-match calls, and their outcomes. *)
Fixpoint run_regexp (F : fenv) (calls : list (avclass * list pyval)) (k : cache)
  : list (res pyval) * cache :=
  match calls with
  | [] => ([], k)
  | (c, args) :: rest =>
      let '(r, k1) := regexp_eval_s F c args k in
      let '(rs, k2) := run_regexp F rest k1 in
      (r :: rs, k2)
  end.
