(** Specifications for evaluation, independent of the evaluator's helpers.

    The combining specifications speak about the list of outcomes of the
    combined elements, in document order: for rules, each rule's effect (None if
    it was never set) with the outcome of its evaluation; for policies, the
    outcome of each child.  An outcome is [Ok decision], or [Raise e] when an
    exception escaped (rules and policies only let exceptions outside the
    Exception hierarchy escape). *)
From Verif Require Import Eval.

(** ** Combining rules *)

Definition rule_outcome : Type := (option effect * res decision)%type.

(** Under the override algorithms an Indeterminate rule is asked for its effect;
    a rule without one then makes the algorithm fail. *)
Definition rule_faulty (o : rule_outcome) : Prop :=
  o = (None, Ok Indeterminate) \/ exists e o', o = (o', Raise e).

(** What the caller of Policy.evaluate gets if the algorithm fails at [o]. *)
Definition fault_result (o : rule_outcome) : res decision :=
  match snd o with
  | Raise e => Raise e
  | Ok _ => Ok Indeterminate
  end.

(** Generic override algorithm over rules: [win] is the overriding decision,
    [win_eff] the effect producing it, [lose] the overridden one. *)
Inductive rules_override_spec (win : decision) (win_eff : effect) (lose : decision)
  (os : list rule_outcome) : res decision -> Prop :=
| ROwin : forall pre eff post,
    os = pre ++ (eff, Ok win) :: post ->
    (forall o, In o pre -> ~ rule_faulty o) ->
    rules_override_spec win win_eff lose os (Ok win)
| ROfault : forall pre o post,
    os = pre ++ o :: post ->
    rule_faulty o ->
    (forall o', In o' pre -> ~ rule_faulty o' /\ snd o' <> Ok win) ->
    rules_override_spec win win_eff lose os (fault_result o)
| ROpotential :
    (forall o, In o os -> ~ rule_faulty o /\ snd o <> Ok win) ->
    In (Some win_eff, Ok Indeterminate) os ->
    rules_override_spec win win_eff lose os (Ok Indeterminate)
| ROlose : forall eff,
    (forall o, In o os -> ~ rule_faulty o /\ snd o <> Ok win) ->
    ~ In (Some win_eff, Ok Indeterminate) os ->
    In (eff, Ok lose) os ->
    rules_override_spec win win_eff lose os (Ok lose)
| ROerror : forall eff,
    (forall o, In o os -> ~ rule_faulty o /\ snd o <> Ok win) ->
    ~ In (Some win_eff, Ok Indeterminate) os ->
    (forall o, In o os -> snd o <> Ok lose) ->
    In (eff, Ok Indeterminate) os ->
    rules_override_spec win win_eff lose os (Ok Indeterminate)
| ROnone :
    (forall o, In o os -> snd o = Ok NotApplicable) ->
    rules_override_spec win win_eff lose os (Ok NotApplicable).

Definition deny_overrides_rules_spec := rules_override_spec Deny EffDeny Permit.
Definition permit_overrides_rules_spec := rules_override_spec Permit EffPermit Deny.

(** First applicable, for rules and for policies: the first outcome that is not
    NotApplicable. *)
Inductive first_applicable_spec (os : list (res decision)) : res decision -> Prop :=
| FAfirst : forall pre o post,
    os = pre ++ o :: post ->
    (forall o', In o' pre -> o' = Ok NotApplicable) ->
    o <> Ok NotApplicable ->
    first_applicable_spec os o
| FAnone :
    (forall o, In o os -> o = Ok NotApplicable) ->
    first_applicable_spec os (Ok NotApplicable).

(** ** Combining policies *)

(** Deny-overrides over policies: an Indeterminate child counts as Deny. *)
Inductive deny_overrides_policies_spec (os : list (res decision))
  : res decision -> Prop :=
| PDdeny : forall pre o post,
    os = pre ++ o :: post ->
    o = Ok Deny \/ o = Ok Indeterminate ->
    (forall o', In o' pre -> is_ok o' = true) ->
    deny_overrides_policies_spec os (Ok Deny)
| PDescape : forall pre e post,
    os = pre ++ Raise e :: post ->
    (forall o', In o' pre -> o' = Ok Permit \/ o' = Ok NotApplicable) ->
    deny_overrides_policies_spec os (Raise e)
| PDpermit :
    (forall o, In o os -> o = Ok Permit \/ o = Ok NotApplicable) ->
    In (Ok Permit) os ->
    deny_overrides_policies_spec os (Ok Permit)
| PDnone :
    (forall o, In o os -> o = Ok NotApplicable) ->
    deny_overrides_policies_spec os (Ok NotApplicable).

(** Permit-overrides over policies. *)
Inductive permit_overrides_policies_spec (os : list (res decision))
  : res decision -> Prop :=
| PPpermit : forall pre post,
    os = pre ++ Ok Permit :: post ->
    (forall o', In o' pre -> is_ok o' = true) ->
    permit_overrides_policies_spec os (Ok Permit)
| PPescape : forall pre e post,
    os = pre ++ Raise e :: post ->
    (forall o', In o' pre -> is_ok o' = true /\ o' <> Ok Permit) ->
    permit_overrides_policies_spec os (Raise e)
| PPdeny :
    (forall o, In o os -> is_ok o = true /\ o <> Ok Permit) ->
    In (Ok Deny) os ->
    permit_overrides_policies_spec os (Ok Deny)
| PPerror :
    (forall o, In o os -> o = Ok Indeterminate \/ o = Ok NotApplicable) ->
    In (Ok Indeterminate) os ->
    permit_overrides_policies_spec os (Ok Indeterminate)
| PPnone :
    (forall o, In o os -> o = Ok NotApplicable) ->
    permit_overrides_policies_spec os (Ok NotApplicable).

(** ** Targets, rules, reasons *)

(** The target of a policy, policy set or rule lets the request through. *)
Definition target_accepts (E : env) (c : context) (t : option target) : Prop :=
  forall t', t = Some t' -> target_match E c t' = Ok true.

(** A condition holds when it is absent or evaluates to something true. *)
Definition condition_holds (E : env) (c : context) (cond : option (option expr))
  : Prop :=
  match cond with
  | None => True
  | Some None => False
  | Some (Some x) => exists v, eval_expr E c x = Ok v /\ truthy v = true
  end.

(** The objects that Python takes for false: None, zero, the empty text, False, the empty
    list. *)
Definition false_in_python (v : pyval) : Prop :=
  v = PNat NNone \/ v = PNat (NStr "") \/ v = PNat (NInt 0) \/ v = PNat (NBool false) \/
  (exists e, v = PNat (NFloat (FNum 0 e))) \/ v = PNat (NTimeDelta 0) \/
  (exists et, v = PBag et []) \/ (exists n, v = POpaque n false).

(** Rule [r] has effect [e] and applies to the request. *)
Definition rule_applies (E : env) (c : context) (e : effect) (r : rule) : Prop :=
  rl_effect r = Some e /\ target_accepts E c (rl_target r) /\
  condition_holds E c (rl_condition r).

(** Why a tree may decide Permit: a chain of accepted targets down to a Permit
    rule that applies. *)
Inductive permit_reason (E : env) (c : context) : policybase -> Prop :=
| PRrule : forall m t alg rules r,
    target_accepts E c t -> In r rules -> rule_applies E c EffPermit r ->
    permit_reason E c (PPolicy m t alg rules)
| PRchild : forall m t alg children p,
    target_accepts E c t -> In p children -> permit_reason E c p ->
    permit_reason E c (PPolicySet m t alg children).

(** Why a tree may decide Deny: likewise, or an Indeterminate child of a policy
    set under deny-overrides. *)
Inductive deny_reason (E : env) (c : context) : policybase -> Prop :=
| DRrule : forall m t alg rules r,
    target_accepts E c t -> In r rules -> rule_applies E c EffDeny r ->
    deny_reason E c (PPolicy m t alg rules)
| DRchild : forall m t alg children p,
    target_accepts E c t -> In p children -> deny_reason E c p ->
    deny_reason E c (PPolicySet m t alg children)
| DRindet : forall m t children p,
    target_accepts E c t -> In p children ->
    policy_eval E c p = Ok Indeterminate ->
    deny_reason E c (PPolicySet m t (Some DenyOverrides) children).

(** Matches of a target in document order. *)
Definition target_matches (t : target) : list matchel :=
  concat (tg_subjects t ++ tg_resources t ++ tg_actions t ++ tg_environments t).

(** A section is satisfied when empty or when all matches of one of its children
    are true. *)
Definition section_satisfied (E : env) (c : context) (s : list (list matchel)) : Prop :=
  s = [] \/ exists child, In child s /\ forall m, In m child -> eval_match E c m = Ok true.

(** ** Escaping exceptions *)

(** An external collaborator raised the exception [e]. *)
Definition collaborator_raises (E : env) (e : exn) : Prop :=
  (exists r d, en_pip E r d = Raise e) \/
  (exists r p, en_xpath E r p = Raise e) \/
  (exists n args, fe_custom (en_fenv E) n args = Raise e) \/
  (exists p, fe_compile (en_fenv E) p = Some e).

(** ** Attribute retrieval *)

(** Attribute [a] is one that designator [d] asks for. *)
Definition asks_for (d : designator) (a : attribute) : Prop :=
  at_id a = dg_id d /\ at_dataType a = dg_dataType d /\
  (dg_issuer d = None \/ at_issuer a = dg_issuer d).

(** Value [v] of attribute [a] is one that designator [d] asks for. *)
Definition asks_for_value (d : designator) (a : attribute) (v : attrval) : Prop :=
  asks_for d a /\ Some (av_dataType v) = dg_dataType d.

(** All (attribute, value) pairs of a list of attributes, in order. *)
Definition value_pairs (attrs : list attribute) : list (attribute * attrval) :=
  flat_map (fun a => map (fun v => (a, v)) (at_values a)) attrs.

(** [selection P l l'] : [l'] consists of the elements of [l] that satisfy [P],
    in order. *)
Inductive selection {A} (P : A -> Prop) : list A -> list A -> Prop :=
| sel_nil : selection P [] []
| sel_take : forall x l l', P x -> selection P l l' -> selection P (x :: l) (x :: l')
| sel_skip : forall x l l', ~ P x -> selection P l l' -> selection P (x :: l) l'.

(** [vs] are the values among the attributes [attrs] that [d] asks for. *)
Definition requested_values (d : designator) (attrs : list attribute)
  (vs : list attrval) : Prop :=
  exists ps, selection (fun p => asks_for_value d (fst p) (snd p)) (value_pairs attrs) ps
    /\ vs = map snd ps.

(** The attributes of the section of the request a designator looks at; None if
    the request has no such section. *)
Definition section_attributes (k : designator_kind) (r : request)
  : option (list attribute) :=
  match k with
  | DSubject => Some (concat (map sb_attributes (rq_subjects r)))
  | DResource => Some (concat (map rs_attributes (rq_resources r)))
  | DAction => rq_action r
  | DEnvironment => rq_environment r
  end.

(** All of [vs] are instances of the class registered for [dt]. *)
Definition all_of_type (E : env) (dt : option string) (vs : list attrval) : Prop :=
  vs = [] \/ exists n cls, dt = Some n /\ dict_get n (en_classes E) = Some cls /\
                           forall v, In v vs -> av_isinstance v cls = true.

(** [subseq l l'] : [l] is obtained from [l'] by leaving elements out. *)
Inductive subseq {A} : list A -> list A -> Prop :=
| ss_nil : subseq [] []
| ss_take : forall x l l', subseq l l' -> subseq (x :: l) (x :: l')
| ss_skip : forall x l l', subseq l l' -> subseq l (x :: l').

(** The attribute source contributes nothing: no handler, no subject to ask for, or
    an answer without values. *)
Definition source_silent (E : env) (d : designator) (r : request) : Prop :=
  rq_ctxHandler r = None \/ rq_subjects r = [] \/
  en_pip E r d = Ok None \/ en_pip E r d = Ok (Some []).

(** ** Big-step semantics of expressions *)

(** [evals E c x v]: [x] evaluates to [v]; arguments left to right, then the
    function is applied to their values. *)
Inductive evals (E : env) (c : context) : expr -> pyval -> Prop :=
| EvValue : forall a, evals E c (XValue a) (PAttr a)
| EvDesignator : forall d v,
    eval_designator E d c = Ok v -> evals E c (XDesignator d) v
| EvSelector : forall s v,
    eval_selector E s c = Ok v -> evals E c (XSelector s) v
| EvApply : forall fid f args vs v,
    evals_list E c args vs ->
    fn_eval (en_fenv E) f vs = Ok v ->
    evals E c (XApply fid (Some f) args) v
with evals_list (E : env) (c : context) : list expr -> list pyval -> Prop :=
| EvNil : evals_list E c [] []
| EvCons : forall x xs v vs,
    evals E c x v -> evals_list E c xs vs -> evals_list E c (x :: xs) (v :: vs).

(** [fails E c x e]: evaluation of [x] raises [e]: the first failing argument's
    exception, or else the function's; AttributeError if the function is unset. *)
Inductive fails (E : env) (c : context) : expr -> exn -> Prop :=
| FlDesignator : forall d e,
    eval_designator E d c = Raise e -> fails E c (XDesignator d) e
| FlSelector : forall s e,
    eval_selector E s c = Raise e -> fails E c (XSelector s) e
| FlArg : forall fid f before x after vs e,
    evals_list E c before vs ->
    fails E c x e ->
    fails E c (XApply fid f (before ++ x :: after)) e
| FlApply : forall fid f args vs e,
    evals_list E c args vs ->
    fn_eval (en_fenv E) f vs = Raise e ->
    fails E c (XApply fid (Some f) args) e
| FlNoFunction : forall fid args vs,
    evals_list E c args vs ->
    fails E c (XApply fid None args) EAttributeError.

(** ** Failing rules *)

Definition condition_raises (E : env) (c : context) (cond : option (option expr))
  (e : exn) : Prop :=
  match cond with
  | None => False
  | Some None => e = EAttributeError
  | Some (Some x) => eval_expr E c x = Raise e
  end.
Definition condition_false (E : env) (c : context) (cond : option (option expr))
  : Prop :=
  match cond with
  | Some (Some x) => exists v, eval_expr E c x = Ok v /\ truthy v = false
  | _ => False
  end.

(** Evaluation of the rule meets the exception [e]: in the target, else in the
    condition, else because the rule has no effect. *)
Inductive rule_fails (E : env) (c : context) (r : rule) (e : exn) : Prop :=
| RFtarget : forall t, rl_target r = Some t -> target_match E c t = Raise e ->
    rule_fails E c r e
| RFcondition : target_accepts E c (rl_target r) ->
    condition_raises E c (rl_condition r) e -> rule_fails E c r e
| RFeffect : target_accepts E c (rl_target r) -> condition_holds E c (rl_condition r) ->
    rl_effect r = None -> e = EAttributeError -> rule_fails E c r e.

(** The rule does not apply: its target does not match, or its condition is
    false. *)
Inductive rule_excluded (E : env) (c : context) (r : rule) : Prop :=
| REtarget : forall t, rl_target r = Some t -> target_match E c t = Ok false ->
    rule_excluded E c r
| REcondition : target_accepts E c (rl_target r) ->
    condition_false E c (rl_condition r) -> rule_excluded E c r.

(** ** Matches *)

(** What a match element retrieves from the request: its designator's values if
    it has one, else its selector's. *)
Definition retrieves (E : env) (c : context) (m : matchel) (r : res pyval) : Prop :=
  match mt_designator m, mt_selector m with
  | Some d, _ => r = eval_designator E d c
  | None, Some s => r = eval_selector E s c
  | None, None => r = Raise EXacmlContextError
  end.

(** Outcome of applying the match function to the policy's value and [v]. *)
Definition applied_to (E : env) (m : matchel) (v : attrval) (r : res pyval) : Prop :=
  match mt_fn m, mt_value m with
  | Some f, Some a => r = fn_eval (en_fenv E) f [PAttr a; PAttr v]
  | Some f, None => r = fn_eval (en_fenv E) f [PNat NNone; PAttr v]
  | None, _ => r = Raise EAttributeError
  end.
