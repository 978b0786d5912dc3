(** Evaluation by several threads of one process.

    The threads share the regular expression cache (a class attribute,
    v1/regexp_match.py:44) and the attribute source.  A thread is a program whose
    steps are the operations on these: [dict.get] and item assignment on the cache,
    each atomic in Python, and pipQuery.  Everything between two such steps acts on
    the thread's own objects.  Every function here is the version with steps of the
    function of the same name (without the suffix [_t]) in Functions.v and Eval.v and
    models the same source lines.
    Simplification: a pipQuery call is one step; policies, requests and the function
    map are not modified while threads run; no exception is injected from outside. *)
From Verif Require Export EvalState.

Inductive TH (A : Type) : Type :=
| Done (r : res A)
| CacheGet (p : string) (k : option string -> TH A)
| CacheSet (p compiled : string) (k : TH A)
| PipQuery (r : request) (d : designator) (k : res (option (list pyval)) -> TH A).
Arguments Done {A} r.
Arguments CacheGet {A} p k.
Arguments CacheSet {A} p compiled k.
Arguments PipQuery {A} r d k.

(** [x], then [f] on its outcome. *)
Fixpoint then_t {A B} (x : TH A) (f : res A -> TH B) : TH B :=
  match x with
  | Done r => f r
  | CacheGet p k => CacheGet p (fun o => then_t (k o) f)
  | CacheSet p c k => CacheSet p c (then_t k f)
  | PipQuery r d k => PipQuery r d (fun a => then_t (k a) f)
  end.
Definition bind_t {A B} (x : TH A) (f : A -> TH B) : TH B :=
  then_t x (fun r => match r with Ok a => f a | Raise e => Done (Raise e) end).
Notation "'let@' x ':=' e1 'in' e2" := (bind_t e1 (fun x => e2))
  (at level 200, x pattern, e1 at level 100, e2 at level 200, right associativity).
Definition ret_t {A} (a : A) : TH A := Done (Ok a).
Definition raise_t {A} (e : exn) : TH A := Done (Raise e).
Definition lift_t {A} (r : res A) : TH A := Done r.

Definition mapM_t {A B} (f : A -> TH B) : list A -> TH (list B) :=
  fix go (l : list A) : TH (list B) :=
  match l with
  | [] => ret_t []
  | x :: xs =>
      let@ y := f x in
      let@ ys := go xs in
      ret_t (y :: ys)
  end.

(** RegexpMatchBase.evaluate, v1/regexp_match.py:46-68: get (64), compile (66),
    store (67), match (68) *)
Definition regexp_values_t (F : fenv) (pat inp : native) : TH pyval :=
  match pat with
  | NStr p =>
      let finish (cr : string) : TH pyval :=
        match inp with
        | NStr s => ret_t (py_bool (fe_match F cr s))
        | _ => raise_t ETypeError
        end in
      CacheGet p (fun found =>
        match found with
        | Some cr => finish cr
        | None =>
            match fe_compile F p with
            | Some e => raise_t e
            | None => CacheSet p p (finish p)
            end
        end)
  | _ => raise_t ETypeError
  end.
Definition regexp_eval_t (F : fenv) (c : avclass) (args : list pyval) : TH pyval :=
  match args with
  | [PAttr a; PAttr b] =>
      if av_isinstance a c then
        if av_isinstance b c then regexp_values_t F (av_value a) (av_value b)
        else raise_t ETypeError
      else raise_t ETypeError
  | [_; _] => raise_t ETypeError
  | _ => raise_t ETypeError
  end.

Definition fn_eval_t (S : senv) (f : fn) (args : list pyval) : TH pyval :=
  match f with
  | FnRegexp c => regexp_eval_t (sn_fenv S) c args
  | _ => lift_t (fn_eval (sn_fenv S) f args)
  end.

(** handlerinterface.py:32-49 *)
Definition pip_query_t (r : request) (d : designator) : TH (option (list pyval)) :=
  PipQuery r d (fun a => Done a).

(** attributedesignator.py:178-205 *)
Fixpoint collect_subjects_t (S : senv) (r : request) (d : designator)
  (et : option avclass) (bag : list attrval) (subs : list subject)
  : TH (list attrval) :=
  match subs with
  | [] => ret_t bag
  | s :: rest =>
      let@ bag1 := lift_t (collect_attrs d et bag (sb_attributes s)) in
      let@ bag2 := match rq_ctxHandler r with
                   | None => ret_t bag1
                   | Some _ =>
                       let@ answer := pip_query_t r d in
                       lift_t (add_pip_values et bag1 answer)
                   end in
      collect_subjects_t S r d et bag2 rest
  end.

(** attributedesignator.py:149-376 *)
Definition eval_designator_t (S : senv) (d : designator) (c : context) : TH pyval :=
  match c with
  | CtxOther => raise_t ETypeError
  | CtxRequest r =>
      let et := sclass_for S (dg_dataType d) in
      let@ bag :=
        match dg_kind d with
        | DSubject => collect_subjects_t S r d et [] (rq_subjects r)
        | DResource => lift_t (collect_resources d et [] (rq_resources r))
        | DAction =>
            match rq_action r with
            | None => raise_t EAttributeError
            | Some attrs => lift_t (collect_attrs d et [] attrs)
            end
        | DEnvironment =>
            match rq_environment r with
            | None => raise_t EAttributeError
            | Some attrs => lift_t (collect_attrs d et [] attrs)
            end
        end in
      lift_t (check_present (dg_mustBePresent d) et bag)
  end.

(** attributeselector.py:109-148 *)
Definition eval_selector_t (S : senv) (s : selector) (c : context) : TH pyval :=
  lift_t (eval_selector (env_of S []) s c).

(** apply.py:184-204 *)
Fixpoint eval_expr_t (S : senv) (c : context) (x : expr) : TH pyval :=
  match x with
  | XApply _ f args =>
      let@ inputs := mapM_t (eval_expr_t S c) args in
      match f with
      | None => raise_t EAttributeError
      | Some f => fn_eval_t S f inputs
      end
  | XValue v => ret_t (PAttr v)
  | XDesignator d => eval_designator_t S d c
  | XSelector s => eval_selector_t S s c
  end.

(** condition.py:62-72 *)
Definition eval_condition_t (S : senv) (c : context) (cond : option expr) : TH pyval :=
  match cond with
  | None => raise_t EAttributeError
  | Some x => eval_expr_t S c x
  end.

(** match.py:280-347 *)
Definition match_fn_apply_t (S : senv) (m : matchel) (v : attrval) : TH pyval :=
  match mt_fn m with
  | None => raise_t EAttributeError
  | Some f =>
      fn_eval_t S f
        [match mt_value m with Some a => PAttr a | None => PNat NNone end; PAttr v]
  end.
Definition eval_match_t (S : senv) (c : context) (m : matchel) : TH bool :=
  let@ bag :=
    match mt_designator m with
    | Some d => eval_designator_t S d c
    | None =>
        match mt_selector m with
        | Some s => eval_selector_t S s c
        | None => raise_t EXacmlContextError
        end
    end in
  let@ results := mapM_t (match_fn_apply_t S m) (bag_items bag) in
  ret_t (existsb truthy results).

(** target.py:102-198 *)
Definition match_child_t (S : senv) (c : context) (child : list matchel) : TH bool :=
  let@ results := mapM_t (eval_match_t S c) child in
  ret_t (forallb (fun b => b) results).
Fixpoint section_loop_t (S : senv) (c : context) (status : bool)
  (children : list (list matchel)) : TH bool :=
  match children with
  | [] => ret_t status
  | ch :: rest =>
      let@ b := match_child_t S c ch in
      section_loop_t S c (if b then true else status) rest
  end.
Definition match_section_t (S : senv) (c : context) (children : list (list matchel))
  : TH bool :=
  match children with
  | [] => ret_t true
  | _ => section_loop_t S c false children
  end.
Definition target_match_t (S : senv) (c : context) (t : target) : TH bool :=
  let@ results := mapM_t (match_section_t S c)
    [tg_subjects t; tg_resources t; tg_actions t; tg_environments t] in
  ret_t (forallb (fun b => b) results).

(** rule.py:342-401 *)
Definition rule_body_t (S : senv) (c : context) (r : rule) : TH decision :=
  let@ targetMatch := match rl_target r with
                      | Some t => target_match_t S c t
                      | None => ret_t true
                      end in
  if negb targetMatch then ret_t NotApplicable
  else
    let@ status := match rl_condition r with
                   | Some cond => eval_condition_t S c cond
                   | None => ret_t (py_bool true)
                   end in
    if truthy status then
      match rl_effect r with
      | Some e => ret_t (decision_of_effect e)
      | None => raise_t EAttributeError
      end
    else ret_t NotApplicable.

Definition catch_exception_t (x : TH decision) : TH decision :=
  then_t x (fun r => Done (catch_exception r)).

Definition rule_eval_t (S : senv) (c : context) (r : rule) : TH decision :=
  catch_exception_t (rule_body_t S c r).

(** rule_combining_alg.py:59-208 *)
Definition rules_deny_overrides_t (ev : rule -> TH decision) :=
  fix go (atLeastOneError potentialDeny atLeastOnePermit : bool)
         (rules : list rule) : TH decision :=
  match rules with
  | [] =>
      if potentialDeny then ret_t Indeterminate
      else if atLeastOnePermit then ret_t Permit
      else if atLeastOneError then ret_t Indeterminate
      else ret_t NotApplicable
  | r :: rest =>
      let@ d := ev r in
      match d with
      | Deny => ret_t Deny
      | Permit => go atLeastOneError potentialDeny true rest
      | NotApplicable => go atLeastOneError potentialDeny atLeastOnePermit rest
      | Indeterminate =>
          match rl_effect r with
          | None => raise_t EAttributeError
          | Some EffDeny => go true true atLeastOnePermit rest
          | Some EffPermit => go true potentialDeny atLeastOnePermit rest
          end
      end
  end.
Definition rules_permit_overrides_t (ev : rule -> TH decision) :=
  fix go (atLeastOneError potentialPermit atLeastOneDeny : bool)
         (rules : list rule) : TH decision :=
  match rules with
  | [] =>
      if potentialPermit then ret_t Indeterminate
      else if atLeastOneDeny then ret_t Deny
      else if atLeastOneError then ret_t Indeterminate
      else ret_t NotApplicable
  | r :: rest =>
      let@ d := ev r in
      match d with
      | Deny => go atLeastOneError potentialPermit true rest
      | Permit => ret_t Permit
      | NotApplicable => go atLeastOneError potentialPermit atLeastOneDeny rest
      | Indeterminate =>
          match rl_effect r with
          | None => raise_t EAttributeError
          | Some EffPermit => go true true atLeastOneDeny rest
          | Some EffDeny => go true potentialPermit atLeastOneDeny rest
          end
      end
  end.
Definition rules_first_applicable_t (ev : rule -> TH decision) :=
  fix go (rules : list rule) : TH decision :=
  match rules with
  | [] => ret_t NotApplicable
  | r :: rest =>
      let@ d := ev r in
      match d with
      | Deny => ret_t Deny
      | Permit => ret_t Permit
      | NotApplicable => go rest
      | Indeterminate => ret_t Indeterminate
      end
  end.
Definition combine_rules_t (alg : comb_alg) (ev : rule -> TH decision)
  (rules : list rule) : TH decision :=
  match alg with
  | DenyOverrides => rules_deny_overrides_t ev false false false rules
  | PermitOverrides => rules_permit_overrides_t ev false false false rules
  | FirstApplicable => rules_first_applicable_t ev rules
  end.

(** policy_combining_alg.py:54-180 *)
Definition policies_deny_overrides_t (ev : policybase -> TH decision) :=
  fix go (atLeastOnePermit : bool) (ps : list policybase) : TH decision :=
  match ps with
  | [] => if atLeastOnePermit then ret_t Permit else ret_t NotApplicable
  | p :: rest =>
      let@ d := ev p in
      match d with
      | Deny => ret_t Deny
      | Permit => go true rest
      | NotApplicable => go atLeastOnePermit rest
      | Indeterminate => ret_t Deny
      end
  end.
Definition policies_permit_overrides_t (ev : policybase -> TH decision) :=
  fix go (atLeastOneError atLeastOneDeny : bool) (ps : list policybase)
    : TH decision :=
  match ps with
  | [] =>
      if atLeastOneDeny then ret_t Deny
      else if atLeastOneError then ret_t Indeterminate
      else ret_t NotApplicable
  | p :: rest =>
      let@ d := ev p in
      match d with
      | Deny => go atLeastOneError true rest
      | Permit => ret_t Permit
      | NotApplicable => go atLeastOneError atLeastOneDeny rest
      | Indeterminate => go true atLeastOneDeny rest
      end
  end.
Definition policies_first_applicable_t (ev : policybase -> TH decision) :=
  fix go (ps : list policybase) : TH decision :=
  match ps with
  | [] => ret_t NotApplicable
  | p :: rest =>
      let@ d := ev p in
      match d with
      | Deny => ret_t Deny
      | Permit => ret_t Permit
      | NotApplicable => go rest
      | Indeterminate => ret_t Indeterminate
      end
  end.
Definition combine_policies_t (alg : comb_alg) (ev : policybase -> TH decision)
  (ps : list policybase) : TH decision :=
  match alg with
  | DenyOverrides => policies_deny_overrides_t ev false ps
  | PermitOverrides => policies_permit_overrides_t ev false false ps
  | FirstApplicable => policies_first_applicable_t ev ps
  end.

(** policybase.py:124-174 *)
Definition with_target_t (S : senv) (c : context) (t : option target)
  (combine : TH decision) : TH decision :=
  let@ targetMatch := match t with
                      | Some t => target_match_t S c t
                      | None => ret_t true
                      end in
  if negb targetMatch then ret_t NotApplicable else combine.

Fixpoint policy_eval_t (S : senv) (c : context) (p : policybase) : TH decision :=
  match p with
  | PPolicy _ t alg rules =>
      catch_exception_t
        (with_target_t S c t
           (match alg with
            | None => raise_t EAttributeError
            | Some a => combine_rules_t a (rule_eval_t S c) rules
            end))
  | PPolicySet _ t alg children =>
      catch_exception_t
        (with_target_t S c t
           (match alg with
            | None => raise_t EAttributeError
            | Some a => combine_policies_t a (policy_eval_t S c) children
            end))
  end.

(** A thread's sequence of evaluations. *)
Fixpoint evaluations_t (S : senv) (calls : list (policybase * context)) : TH (list (res decision)) :=
  match calls with
  | [] => ret_t []
  | (p, c) :: rest =>
      then_t (policy_eval_t S c p) (fun r =>
        let@ rs := evaluations_t S rest in
        ret_t (r :: rs))
  end.

(** ** Running threads *)

(** What the threads share. *)
Record shared : Type := mkShared {
  sh_log : list (request * designator);
  sh_cache : cache
}.

(** One step of a thread. *)
Definition step_t {A} (S : senv) (x : TH A) (w : shared) : TH A * shared :=
  match x with
  | Done r => (Done r, w)
  | CacheGet p k => (k (dict_get p (sh_cache w)), w)
  | CacheSet p c k => (k, mkShared (sh_log w) (dict_set p c (sh_cache w)))
  | PipQuery r d k => (k (sn_pip S (sh_log w) r d), mkShared (sh_log w ++ [(r, d)]) (sh_cache w))
  end.

(** Replace element [i] of a list. *)
Fixpoint replace_nth {A} (i : nat) (x : A) (l : list A) : list A :=
  match l, i with
  | [], _ => []
  | _ :: l', O => x :: l'
  | y :: l', Datatypes.S i' => y :: replace_nth i' x l'
  end.

(** A schedule says which thread makes the next step. *)
Definition schedule_step {A} (S : senv) (i : nat) (s : list (TH A) * shared)
  : list (TH A) * shared :=
  match nth_error (fst s) i with
  | None => s
  | Some x => let '(x', w') := step_t S x (snd s) in (replace_nth i x' (fst s), w')
  end.
Fixpoint run_schedule {A} (S : senv) (sched : list nat) (s : list (TH A) * shared)
  : list (TH A) * shared :=
  match sched with
  | [] => s
  | i :: rest => run_schedule S rest (schedule_step S i s)
  end.

(** One thread alone, to its end. *)
Fixpoint run_alone {A} (S : senv) (x : TH A) (w : shared) : res A * shared :=
  match x with
  | Done r => (r, w)
  | CacheGet p k => run_alone S (k (dict_get p (sh_cache w))) w
  | CacheSet p c k => run_alone S k (mkShared (sh_log w) (dict_set p c (sh_cache w)))
  | PipQuery r d k =>
      run_alone S (k (sn_pip S (sh_log w) r d)) (mkShared (sh_log w ++ [(r, d)]) (sh_cache w))
  end.
