(** Data model: XML nodes, request contexts and policies. *)
From Verif Require Export Functions.

(** ** XML nodes (ElementTree elements; children may contain comments or
    processing instructions, whose [tag] is not a string).
    Simplification: tail text is not modelled; no reader looks at it. *)
Inductive node : Type :=
| Elem (tag : string) (attrs : list (string * string)) (text : option string)
       (children : list node)
| Comment (text : string).

(** ** Request context *)

(** core/attribute.py:17-141; unset fields are None *)
Record attribute : Type := mkAttribute {
  at_id : option string;
  at_dataType : option string;
  at_issuer : option string;
  at_values : list attrval
}.

(** core/context/subject.py:15-59 *)
Record subject : Type := mkSubject {
  sb_category : option string;
  sb_attributes : list attribute
}.

(** core/context/resource.py:15-52 *)
Record resource : Type := mkResource {
  rs_content : option node;
  rs_attributes : list attribute
}.

(** core/context/request.py:25-171.  Action and environment (context/action.py,
    context/environment.py) are their attribute lists.  [rq_ctxHandler] and
    [rq_selector] name the context handler and XPath selector objects set, if
    any. *)
Record request : Type := mkRequest {
  rq_subjects : list subject;
  rq_resources : list resource;
  rq_action : option (list attribute);
  rq_environment : option (list attribute);
  rq_ctxHandler : option N;
  rq_selector : option N
}.

(** The object passed as [context]: a Request or anything else. *)
Inductive context : Type :=
| CtxRequest (r : request)
| CtxOther.

(** ** Policies *)

Inductive designator_kind : Type := DSubject | DResource | DAction | DEnvironment.

(** core/attributedesignator.py:24-138 *)
Record designator : Type := mkDesignator {
  dg_kind : designator_kind;
  dg_id : option string;
  dg_dataType : option string;
  dg_issuer : option string;
  dg_mustBePresent : bool
}.

(** core/attributeselector.py:23-107; mustBePresent is initially None *)
Record selector : Type := mkSelector {
  sl_path : option string;
  sl_dataType : option string;
  sl_mustBePresent : option bool
}.

(** Expressions: core/apply.py:19-58, attributevalue.py, attributedesignator.py,
    attributeselector.py.  An Apply has its function id, the function object
    loaded for it (None before loading) and its argument expressions. *)
Inductive expr : Type :=
| XApply (fid : option string) (f : option fn) (args : list expr)
| XValue (v : attrval)
| XDesignator (d : designator)
| XSelector (s : selector).

(** core/match.py:62-86 *)
Record matchel : Type := mkMatch {
  mt_id : option string;
  mt_fn : option fn;
  mt_value : option attrval;
  mt_designator : option designator;
  mt_selector : option selector
}.

(** core/target.py:63-68; a child (core/subject.py, resource.py, action.py,
    environment.py, core/__init__.py:141-170) is the list of its matches. *)
Record target : Type := mkTarget {
  tg_subjects : list (list matchel);
  tg_resources : list (list matchel);
  tg_actions : list (list matchel);
  tg_environments : list (list matchel)
}.

Inductive effect : Type := EffPermit | EffDeny.

(** core/rule.py:212-227; [rl_condition = Some None] is a Condition object whose
    expression was never set (core/condition.py:35-37).  The description may be
    uninitialised. *)
Record rule : Type := mkRule {
  rl_id : option string;
  rl_effect : option effect;
  rl_target : option target;
  rl_condition : option (option expr);
  rl_description : option string
}.

Inductive decision : Type := Permit | Deny | Indeterminate | NotApplicable.

(** The implemented combining algorithms (rule_combining_alg.py,
    policy_combining_alg.py). *)
Inductive comb_alg : Type := DenyOverrides | PermitOverrides | FirstApplicable.

(** Descriptive attributes of Policy (core/policy.py:95-140) and PolicySet
    (core/policyset.py:93-131): id, version, combining algorithm id,
    description, XPath version of the defaults (core/policydefaults.py). *)
Record pmeta : Type := mkMeta {
  pm_id : option string;
  pm_version : option string;
  pm_algId : option string;
  pm_description : option string;
  pm_xpathVersion : option string
}.

(** Policy and PolicySet objects (core/policybase.py:29).  The algorithm object
    is None before a supported id has been assigned. *)
Inductive policybase : Type :=
| PPolicy (m : pmeta) (t : option target) (alg : option comb_alg) (rules : list rule)
| PPolicySet (m : pmeta) (t : option target) (alg : option comb_alg)
             (children : list policybase).
