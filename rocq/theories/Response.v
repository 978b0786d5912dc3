(** Responses, results, statuses and decision objects, with the four shared
    decision objects as mutable state
    (ndg/xacml/core/context/result.py, response.py, exceptions.py, pdp.py and
    ndg/xacml/core/policybase.py:99-122). *)
From Verif Require Import Eval Setters.

(** Decision.*_STR, result.py:281-290 *)
Definition decision_str (d : decision) : string :=
  match d with
  | Permit => "Permit" | Deny => "Deny"
  | Indeterminate => "Indeterminate" | NotApplicable => "NotApplicable"
  end.

(** The value of a decision object is always one of the four strings
    (result.py:342-361), so it is represented by a [decision]. *)
Definition decision_of_str (s : string) : option decision :=
  if String.eqb s "Permit" then Some Permit
  else if String.eqb s "Deny" then Some Deny
  else if String.eqb s "Indeterminate" then Some Indeterminate
  else if String.eqb s "NotApplicable" then Some NotApplicable
  else None.

(** A decision object: one of the shared ones (Decision.PERMIT, ...,
    result.py:477-480) or an object of its own with its value.
    Simplification: an object of its own is reachable from one result only. *)
Inductive dobj : Type := DShared (d : decision) | DOwn (value : decision).

(** The current values of the shared decision objects. *)
Definition store : Type := decision -> decision.

(** Decision.PERMIT = PermitDecision() etc., result.py:416-480 *)
Definition store0 : store := fun d => d.

Definition dec_same (a b : decision) : bool :=
  match a, b with
  | Permit, Permit | Deny, Deny | Indeterminate, Indeterminate
  | NotApplicable, NotApplicable => true
  | _, _ => false
  end.

Definition store_set (d v : decision) (s : store) : store :=
  fun k => if dec_same k d then v else s k.

(** Decision.value, result.py:363-371 *)
Definition value_of (s : store) (o : dobj) : decision :=
  match o with DShared d => s d | DOwn v => v end.

(** ** Evaluation with decision objects.  Decision.__eq__ (result.py:389-413)
    compares current values. *)

(** The body of the try block of Rule.evaluate, rule.py:352-394;
    [Decision(decision=self.effect.value)] is a new object. *)
Definition rule_body_o (E : env) (c : context) (r : rule) : res dobj :=
  let* targetMatch := match rl_target r with
                      | Some t => target_match E c t
                      | None => Ok true
                      end in
  if negb targetMatch then Ok (DShared NotApplicable)
  else
    let* status := match rl_condition r with
                   | Some cond => eval_condition E c cond
                   | None => Ok (py_bool true)
                   end in
    if truthy status then
      match rl_effect r with
      | Some e => Ok (DOwn (decision_of_effect e))
      | None => Raise EAttributeError
      end
    else Ok (DShared NotApplicable).

(** rule.py:396-401, policybase.py:164-172 *)
Definition catch_exception_o (r : res dobj) : res dobj :=
  match r with
  | Ok d => Ok d
  | Raise e => if is_exception e then Ok (DShared Indeterminate) else Raise e
  end.

(** Rule.evaluate, rule.py:342-401 *)
Definition rule_eval_o (E : env) (c : context) (r : rule) : res dobj :=
  catch_exception_o (rule_body_o E c r).

(** DenyOverridesRuleCombiningAlg.evaluate, rule_combining_alg.py:59-105.
    Line 92 compares the rule's effect with the shared DENY object. *)
Definition rules_deny_overrides_o (s : store) (ev : rule -> res dobj) :=
  fix go (atLeastOneError potentialDeny atLeastOnePermit : bool)
         (rules : list rule) : res dobj :=
  match rules with
  | [] =>
      if potentialDeny then Ok (DShared Indeterminate)
      else if atLeastOnePermit then Ok (DShared Permit)
      else if atLeastOneError then Ok (DShared Indeterminate)
      else Ok (DShared NotApplicable)
  | r :: rest =>
      let* o := ev r in
      let d := value_of s o in
      if dec_same d (s Deny) then Ok (DShared Deny)
      else if dec_same d (s Permit) then go atLeastOneError potentialDeny true rest
      else if dec_same d (s NotApplicable) then
        go atLeastOneError potentialDeny atLeastOnePermit rest
      else if dec_same d (s Indeterminate) then
        match rl_effect r with
        | None => Raise EAttributeError
        | Some e =>
            go true (if dec_same (decision_of_effect e) (s Deny) then true else potentialDeny)
               atLeastOnePermit rest
        end
      else go atLeastOneError potentialDeny atLeastOnePermit rest
  end.

(** PermitOverridesRuleCombiningAlg.evaluate, rule_combining_alg.py:111-167.
    Line 146 compares the rule's effect with the string constant. *)
Definition rules_permit_overrides_o (s : store) (ev : rule -> res dobj) :=
  fix go (atLeastOneError potentialPermit atLeastOneDeny : bool)
         (rules : list rule) : res dobj :=
  match rules with
  | [] =>
      if potentialPermit then Ok (DShared Indeterminate)
      else if atLeastOneDeny then Ok (DShared Deny)
      else if atLeastOneError then Ok (DShared Indeterminate)
      else Ok (DShared NotApplicable)
  | r :: rest =>
      let* o := ev r in
      let d := value_of s o in
      if dec_same d (s Deny) then go atLeastOneError potentialPermit true rest
      else if dec_same d (s Permit) then Ok (DShared Permit)
      else if dec_same d (s NotApplicable) then
        go atLeastOneError potentialPermit atLeastOneDeny rest
      else if dec_same d (s Indeterminate) then
        match rl_effect r with
        | None => Raise EAttributeError
        | Some e =>
            go true (if dec_same (decision_of_effect e) Permit then true else potentialPermit)
               atLeastOneDeny rest
        end
      else go atLeastOneError potentialPermit atLeastOneDeny rest
  end.

(** FirstApplicableRuleCombiningAlg.evaluate, rule_combining_alg.py:173-208;
    FirstApplicablePolicyCombiningAlg.evaluate, policy_combining_alg.py:144-180,
    has the same text. *)
Definition first_applicable_o {A} (s : store) (ev : A -> res dobj) :=
  fix go (l : list A) : res dobj :=
  match l with
  | [] => Ok (DShared NotApplicable)
  | x :: rest =>
      let* o := ev x in
      let d := value_of s o in
      if dec_same d (s Deny) then Ok (DShared Deny)
      else if dec_same d (s Permit) then Ok (DShared Permit)
      else if dec_same d (s NotApplicable) then go rest
      else if dec_same d (s Indeterminate) then Ok (DShared Indeterminate)
      else go rest
  end.

Definition combine_rules_o (s : store) (alg : comb_alg) (ev : rule -> res dobj)
  (rules : list rule) : res dobj :=
  match alg with
  | DenyOverrides => rules_deny_overrides_o s ev false false false rules
  | PermitOverrides => rules_permit_overrides_o s ev false false false rules
  | FirstApplicable => first_applicable_o s ev rules
  end.

(** DenyOverridesPolicyCombiningAlg.evaluate, policy_combining_alg.py:54-87 *)
Definition policies_deny_overrides_o (s : store) (ev : policybase -> res dobj) :=
  fix go (atLeastOnePermit : bool) (ps : list policybase) : res dobj :=
  match ps with
  | [] => if atLeastOnePermit then Ok (DShared Permit) else Ok (DShared NotApplicable)
  | p :: rest =>
      let* o := ev p in
      let d := value_of s o in
      if dec_same d (s Deny) then Ok (DShared Deny)
      else if dec_same d (s Permit) then go true rest
      else if dec_same d (s NotApplicable) then go atLeastOnePermit rest
      else if dec_same d (s Indeterminate) then Ok (DShared Deny)
      else go atLeastOnePermit rest
  end.

(** PermitOverridesPolicyCombiningAlg.evaluate, policy_combining_alg.py:92-138 *)
Definition policies_permit_overrides_o (s : store) (ev : policybase -> res dobj) :=
  fix go (atLeastOneError atLeastOneDeny : bool) (ps : list policybase) : res dobj :=
  match ps with
  | [] =>
      if atLeastOneDeny then Ok (DShared Deny)
      else if atLeastOneError then Ok (DShared Indeterminate)
      else Ok (DShared NotApplicable)
  | p :: rest =>
      let* o := ev p in
      let d := value_of s o in
      if dec_same d (s Deny) then go atLeastOneError true rest
      else if dec_same d (s Permit) then Ok (DShared Permit)
      else if dec_same d (s NotApplicable) then go atLeastOneError atLeastOneDeny rest
      else if dec_same d (s Indeterminate) then go true atLeastOneDeny rest
      else go atLeastOneError atLeastOneDeny rest
  end.

Definition combine_policies_o (s : store) (alg : comb_alg) (ev : policybase -> res dobj)
  (ps : list policybase) : res dobj :=
  match alg with
  | DenyOverrides => policies_deny_overrides_o s ev false ps
  | PermitOverrides => policies_permit_overrides_o s ev false false ps
  | FirstApplicable => first_applicable_o s ev ps
  end.

(** policybase.py:142-162 *)
Definition with_target_o (E : env) (c : context) (t : option target)
  (combine : res dobj) : res dobj :=
  let* targetMatch := match t with
                      | Some t => target_match E c t
                      | None => Ok true
                      end in
  if negb targetMatch then Ok (DShared NotApplicable) else combine.

(** PolicyBase.evaluate, policybase.py:124-174, policy.py:390-397,
    policyset.py:383-390 *)
Fixpoint policy_eval_o (E : env) (s : store) (c : context) (p : policybase) : res dobj :=
  match p with
  | PPolicy _ t alg rules =>
      catch_exception_o
        (with_target_o E c t
           (match alg with
            | None => Raise EAttributeError
            | Some a => combine_rules_o s a (rule_eval_o E c) rules
            end))
  | PPolicySet _ t alg children =>
      catch_exception_o
        (with_target_o E c t
           (match alg with
            | None => Raise EAttributeError
            | Some a => combine_policies_o s a (policy_eval_o E s c) children
            end))
  end.

(** ** Status, Result and Response objects *)

(** Status, result.py:115-239.  The status code is a StatusCode object, here its
    value; the detail is any object. *)
Record status := mkStatus {
  st_code : option string;
  st_message : option string;
  st_detail : option pyobj }.

(** Status.statusMessage setter, result.py:205-216 *)
Definition status_set_message (st : status) (x : pyobj) : res status :=
  match x with
  | ONat (NStr s) => Ok (mkStatus (st_code st) (Some s) (st_detail st))
  | _ => Raise ETypeError
  end.

(** Status.createInitialised, result.py:149-167 *)
Definition status_create (code message detail : pyobj) : res status :=
  match status_code_set None code with
  | (Ok _, v) =>
      let* st := status_set_message (mkStatus v None None) message in
      Ok (mkStatus (st_code st) (st_message st) (Some detail))
  | (Raise e, _) => Raise e
  end.

(** Result, result.py:483-661.  Simplification: an Obligation is represented by
    its number. *)
Record result := mkResult {
  rs_decision : option dobj;
  rs_status : option status;
  rs_resourceId : option string;
  rs_obligations : option N }.

(** Keyword arguments of Result.createInitialised (result.py:519-523) and of
    Status.createInitialised (result.py:150); [None] for one that is not given. *)
Record result_args := mkArgs {
  ra_resourceId : option pyobj;
  ra_obligations : option N;
  ra_code : option pyobj;
  ra_message : option pyobj;
  ra_detail : option pyobj }.
Definition no_args : result_args := mkArgs None None None None None.

Definition STATUS_OK : string := "urn:oasis:names:tc:xacml:1.0:status:ok".

Definition given (o : option pyobj) (default : string) : pyobj :=
  match o with Some x => x | None => ONat (NStr default) end.

(** Result.createInitialised, result.py:518-550: the decision is a new object
    holding the value of the argument; the resourceId argument is not used. *)
Definition result_create (decision : pyobj) (a : result_args) : res result :=
  match decision_set (Some "Indeterminate") decision with
  | (Ok _, Some v) =>
      match decision_of_str v with
      | Some d =>
          let* st := status_create (given (ra_code a) STATUS_OK) (given (ra_message a) "")
                       (given (ra_detail a) "") in
          Ok (mkResult (Some (DOwn d)) (Some st) None (ra_obligations a))
      | None => Raise EAttributeError
      end
  | (Ok _, None) => Raise EAttributeError
  | (Raise e, _) => Raise e
  end.

(** A decision object passed as an argument *)
Definition as_arg (s : store) (o : dobj) : pyobj := ODecision (decision_str (value_of s o)).

(** Response, response.py:18-52: its results *)
Definition response : Type := list result.

Definition set_decision (r : result) (o : dobj) : result :=
  mkResult (Some o) (rs_status r) (rs_resourceId r) (rs_obligations r).

Definition is_context_error (e : exn) : bool :=
  match e with
  | EXacmlContextError | EXacmlContextTypeError | EMissingAttributeError => true
  | _ => false
  end.

(** PolicyBase.evaluateResponse, policybase.py:99-122.  In the except branch the
    response keeps the initial result (line 120 only rebinds a local name). *)
Definition evaluateResponse (E : env) (s : store) (c : context) (p : policybase)
  : res response :=
  let* r := result_create (as_arg s (DShared NotApplicable)) no_args in
  match policy_eval_o E s c p with
  | Ok o => Ok [set_decision r o]
  | Raise e => if is_context_error e then Ok [r] else Raise e
  end.

(** XacmlContextError.__init__, exceptions.py:24-42: [arg] is the list of
    positional arguments. *)
Definition context_error (s : store) (arg : list pyobj) : res response :=
  let* r := result_create (as_arg s (DShared NotApplicable)) no_args in
  let r := set_decision r (DShared Indeterminate) in
  match arg with
  | [] => Ok [r]
  | m :: _ =>
      match rs_status r with
      | Some st =>
          let* st' := status_set_message st m in
          Ok [mkResult (rs_decision r) (Some st') (rs_resourceId r) (rs_obligations r)]
      | None => Raise EAttributeError
      end
  end.

(** ** PDP (pdp.py:20-103) *)

(** A value assigned to PDP.policy: a policy or policy set, or something else. *)
Inductive polarg : Type := APolicy (p : policybase) | ANotPolicy (x : pyobj).

(** PDP.policy setter, pdp.py:80-90 *)
Definition pdp_set (self : option policybase) (x : polarg) : res unit * option policybase :=
  match x with
  | APolicy p => (Ok tt, Some p)
  | ANotPolicy _ => (Raise ETypeError, self)
  end.

(** PDP.__init__, pdp.py:30-38; [None] when the argument is omitted or None. *)
Definition pdp_new (policy : option polarg) : res (option policybase) :=
  match policy with
  | None => Ok None
  | Some x => match pdp_set None x with
              | (Ok _, v) => Ok v
              | (Raise e, _) => Raise e
              end
  end.

(** PDP.evaluate, pdp.py:92-103 *)
Definition pdp_evaluate (E : env) (s : store) (c : context) (self : option policybase)
  : res response :=
  match self with
  | None => Raise EAttributeError
  | Some p => evaluateResponse E s c p
  end.

(** ** A program that evaluates policies, makes context errors, and assigns to
    the results it gets.  [w_responses] are the responses obtained so far. *)
Record world := mkWorld { w_store : store; w_responses : list response }.

Inductive wop : Type :=
| WEvaluate (E : env) (c : context) (p : policybase)  (* policybase.py:99-122 *)
| WError (arg : list pyobj)                           (* exceptions.py:24-42 *)
| WDecision (k : nat) (d : decision)   (* responses[k].results[0].decision = Decision.<d>, result.py:581-592 *)
| WValue (k : nat) (x : pyobj).        (* responses[k].results[0].decision.value = x, result.py:342-361 *)

Fixpoint set_nth {A} (k : nat) (a : A) (l : list A) : list A :=
  match l, k with
  | [], _ => []
  | _ :: r, O => a :: r
  | b :: r, S k' => b :: set_nth k' a r
  end.

Definition w_step (w : world) (o : wop) : res unit * world :=
  match o with
  | WEvaluate E c p =>
      match evaluateResponse E (w_store w) c p with
      | Ok r => (Ok tt, mkWorld (w_store w) (w_responses w ++ [r]))
      | Raise e => (Raise e, w)
      end
  | WError arg =>
      match context_error (w_store w) arg with
      | Ok r => (Ok tt, mkWorld (w_store w) (w_responses w ++ [r]))
      | Raise e => (Raise e, w)
      end
  | WDecision k d =>
      match nth_error (w_responses w) k with
      | Some (r :: rest) =>
          (Ok tt, mkWorld (w_store w)
                    (set_nth k (set_decision r (DShared d) :: rest) (w_responses w)))
      | _ => (Raise EIndexError, w)
      end
  | WValue k x =>
      match nth_error (w_responses w) k with
      | Some (r :: rest) =>
          match rs_decision r with
          | None => (Raise EAttributeError, w)
          | Some o =>
              match decision_set (Some (decision_str (value_of (w_store w) o))) x with
              | (Ok _, Some v) =>
                  match decision_of_str v with
                  | Some d =>
                      match o with
                      | DShared k' => (Ok tt, mkWorld (store_set k' d (w_store w)) (w_responses w))
                      | DOwn _ =>
                          (Ok tt, mkWorld (w_store w)
                                    (set_nth k (set_decision r (DOwn d) :: rest) (w_responses w)))
                      end
                  | None => (Raise EAttributeError, w)
                  end
              | (Ok _, None) => (Raise EAttributeError, w)
              | (Raise e, _) => (Raise e, w)
              end
          end
      | _ => (Raise EIndexError, w)
      end
  end.

Definition w_run (ops : list wop) (w : world) : world :=
  fold_left (fun w o => snd (w_step w o)) ops w.

Definition world0 : world := mkWorld store0 [].
