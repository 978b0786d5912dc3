(** What the objects built through the API are supposed to look like: the documented
    types of their attributes, and the policy and request documents they stand for. *)
From Verif Require Export Objects.
From Coq Require Export Relations.Relation_Operators.

(** ** Types of values *)

(** [has_type h v t]: [v] is an instance of [t]. *)
Inductive has_type (h : heap) : pval -> ptype -> Prop :=
| ht_str : forall s, has_type h (PNat (NStr s)) TStr
| ht_bool : forall b, has_type h (PNat (NBool b)) TBool
| ht_handler : forall n, has_type h (PHandler n) THandler
| ht_xpath : forall n, has_type h (PXPath n) TXPathSelector
| ht_any : forall v, (forall a, v = PRef a -> nth_error h a <> None) -> has_type h v TAny
| ht_class : forall a c attrs, nth_error h a = Some (PInst c attrs) -> has_type h (PRef a) (TCls c)
| ht_designator : forall a k attrs, nth_error h a = Some (PInst (KDesignator k) attrs) ->
    has_type h (PRef a) TDesignator
| ht_designator_expression : forall a k attrs,
    nth_error h a = Some (PInst (KDesignator k) attrs) -> has_type h (PRef a) TExpression
| ht_selector_expression : forall a attrs, nth_error h a = Some (PInst KSelector attrs) ->
    has_type h (PRef a) TExpression
| ht_apply_expression : forall a attrs, nth_error h a = Some (PInst KApply attrs) ->
    has_type h (PRef a) TExpression
| ht_value_expression : forall a v, nth_error h a = Some (PValue v) -> has_type h (PRef a) TExpression
| ht_value : forall a v, nth_error h a = Some (PValue v) -> has_type h (PRef a) TAttributeValue
| ht_policy : forall a attrs, nth_error h a = Some (PInst KPolicy attrs) ->
    has_type h (PRef a) TPolicyBase
| ht_policyset : forall a attrs, nth_error h a = Some (PInst KPolicySet attrs) ->
    has_type h (PRef a) TPolicyBase
| ht_effect : forall a s, nth_error h a = Some (PEffect s) -> has_type h (PRef a) TEffect
| ht_list : forall a t items, nth_error h a = Some (PTypedList t items) ->
    has_type h (PRef a) TTypedList.

(** ** Documented attributes *)

Inductive documented : Type :=
| DOptional (t : ptype)   (* None until set, then an instance of [t] *)
| DFlag                   (* a boolean *)
| DListOf (t : ptype)     (* a list of instances of [t] *)
| DFunction | DAlgorithm  (* None or a function object, a combining algorithm object *)
| DLate (t : ptype).      (* absent until set, then an instance of [t] *)

Definition documented_attributes (c : pcls) : list (string * documented) :=
  match c with
  | KDesignator _ =>
      [("attributeId", DOptional TStr); ("dataType", DOptional TStr);
       ("issuer", DOptional TStr); ("mustBePresent", DFlag)]
  | KSelector =>
      [("requestContextPath", DOptional TStr); ("dataType", DOptional TStr);
       ("mustBePresent", DOptional TBool)]
  | KApply =>
      [("functionId", DOptional TStr); ("dataType", DOptional TStr); ("function", DFunction);
       ("loadFunctionFromId", DFlag); ("expressions", DListOf TExpression)]
  | KCondition => [("expression", DOptional TExpression)]
  | KMatch _ =>
      [("matchId", DOptional TStr); ("function", DFunction); ("loadFunctionFromId", DFlag);
       ("attributeValue", DOptional TAttributeValue);
       ("attributeDesignator", DOptional TDesignator);
       ("attributeSelector", DOptional (TCls KSelector))]
  | KTargetChild k => [("matches", DListOf (TCls (KMatch k)))]
  | KTarget =>
      [("subjects", DListOf (TCls (KTargetChild DSubject)));
       ("resources", DListOf (TCls (KTargetChild DResource)));
       ("actions", DListOf (TCls (KTargetChild DAction)));
       ("environments", DListOf (TCls (KTargetChild DEnvironment)))]
  | KRule =>
      [("id", DOptional TStr); ("effect", DOptional TEffect);
       ("target", DOptional (TCls KTarget)); ("condition", DOptional (TCls KCondition));
       ("description", DLate TStr)]
  | KObligation =>
      [("obligationId", DOptional TStr); ("fulfillOn", DOptional TStr);
       ("attributeAssignments", DListOf TAttributeAssignment)]
  | KPolicyDefaults => [("xpathVersion", DOptional TStr)]
  | KPolicy =>
      [("policyId", DOptional TStr); ("version", DOptional TStr);
       ("description", DOptional TStr); ("ruleCombiningAlgId", DOptional TStr);
       ("ruleCombiningAlg", DAlgorithm); ("target", DOptional (TCls KTarget));
       ("policyDefaults", DOptional (TCls KPolicyDefaults));
       ("rules", DListOf (TCls KRule)); ("obligations", DListOf (TCls KObligation))]
  | KPolicySet =>
      [("policySetId", DOptional TStr); ("version", DOptional TStr);
       ("description", DOptional TStr); ("policyCombiningAlgId", DOptional TStr);
       ("policyCombiningAlg", DAlgorithm); ("target", DOptional (TCls KTarget));
       ("policySetDefaults", DOptional (TCls KPolicyDefaults));
       ("policies", DListOf TPolicyBase); ("obligations", DListOf (TCls KObligation))]
  | KAttribute =>
      [("attributeId", DOptional TStr); ("dataType", DOptional TStr);
       ("issuer", DOptional TStr); ("attributeValues", DListOf TAttributeValue)]
  | KCtxSubject =>
      [("subjectCategory", DOptional TStr); ("attributes", DListOf (TCls KAttribute))]
  | KCtxResource =>
      [("resourceContent", DOptional TAny); ("attributes", DListOf (TCls KAttribute))]
  | KCtxAction | KCtxEnvironment => [("attributes", DListOf (TCls KAttribute))]
  | KRequest =>
      [("subjects", DListOf (TCls KCtxSubject)); ("resources", DListOf (TCls KCtxResource));
       ("action", DOptional (TCls KCtxAction)); ("environment", DOptional (TCls KCtxEnvironment));
       ("ctxHandler", DOptional THandler); ("attributeSelector", DOptional TXPathSelector)]
  | KPdp => [("policy", DOptional TPolicyBase)]
  end.

(** The value [v] of an attribute is as documented. *)
Definition as_documented (h : heap) (d : documented) (v : pval) : Prop :=
  match d with
  | DOptional t => v = PNat NNone \/ has_type h v t
  | DFlag => exists b, v = PNat (NBool b)
  | DListOf t => exists l items, v = PRef l /\ nth_error h l = Some (PTypedList t items)
  | DFunction => v = PNat NNone \/ exists f, v = PFn f
  | DAlgorithm => v = PNat NNone \/ exists a, v = PAlg a
  | DLate t => has_type h v t
  end.

(** ** Careful histories

    The list methods that TypedList inherits without a test, the initial items of a
    list made by the caller and the attributeValues of an Attribute are only used
    with what belongs there. *)
Definition careful (h : heap) (o : oop) : Prop :=
  match o with
  | OInsert a _ v => forall t items, nth_error h a = Some (PTypedList t items) -> has_type h v t
  | ONewList t items => Forall (fun v => has_type h v t) items
  | OSet a name v =>
      forall attrs l t items,
        nth_error h a = Some (PInst KAttribute attrs) -> name = "attributeValues"%string ->
        v = PRef l -> nth_error h l = Some (PTypedList t items) -> t = TAttributeValue
  | _ => True
  end.

Fixpoint careful_history (cm : list (string * avclass)) (s : ostate) (ops : list oop) : Prop :=
  match ops with
  | [] => True
  | o :: ops' => careful (os_heap s) o /\ careful_history cm (snd (ostep cm s o)) ops'
  end.

(** ** The documents that objects stand for *)

Section StandsFor.
Variable h : heap.

(** The attribute [name] of the object at [a] has a value satisfying [P]. *)
Definition attr_is (a : nat) (name : string) (P : pval -> Prop) : Prop :=
  exists v, get_attr h a name = Ok v /\ P v.

(** None for an absent item, otherwise a value standing for it. *)
Definition maybe {X} (R : pval -> X -> Prop) (o : option X) (v : pval) : Prop :=
  match o with
  | None => v = PNat NNone
  | Some x => R v x
  end.

(** A list object whose items stand for [xs]. *)
Definition listing {X} (R : list pval -> X -> Prop) (xs : X) (v : pval) : Prop :=
  exists l t items, v = PRef l /\ nth_error h l = Some (PTypedList t items) /\ R items xs.

Definition for_string (v : pval) (s : string) : Prop := v = PNat (NStr s).
Definition for_bool (v : pval) (b : bool) : Prop := v = PNat (NBool b).
Definition for_function (v : pval) (f : fn) : Prop := v = PFn f.
Definition for_algorithm (v : pval) (x : comb_alg) : Prop := v = PAlg x.

Definition for_value (v : pval) (x : attrval) : Prop :=
  exists a, v = PRef a /\ nth_error h a = Some (PValue x).

Definition for_effect (v : pval) (e : effect) : Prop :=
  exists a, v = PRef a /\
    nth_error h a = Some (PEffect (match e with EffPermit => "Permit" | EffDeny => "Deny" end)).

Definition instance (v : pval) (c : pcls) (a : nat) : Prop :=
  v = PRef a /\ exists attrs, nth_error h a = Some (PInst c attrs).

Definition for_designator (v : pval) (d : designator) : Prop :=
  exists a, instance v (KDesignator (dg_kind d)) a /\
    attr_is a "attributeId" (maybe for_string (dg_id d)) /\
    attr_is a "dataType" (maybe for_string (dg_dataType d)) /\
    attr_is a "issuer" (maybe for_string (dg_issuer d)) /\
    attr_is a "mustBePresent" (fun v => for_bool v (dg_mustBePresent d)).

Definition for_selector (v : pval) (s : selector) : Prop :=
  exists a, instance v KSelector a /\
    attr_is a "requestContextPath" (maybe for_string (sl_path s)) /\
    attr_is a "dataType" (maybe for_string (sl_dataType s)) /\
    attr_is a "mustBePresent" (maybe for_bool (sl_mustBePresent s)).

Inductive for_expr : pval -> expr -> Prop :=
| fe_value : forall v x, for_value v x -> for_expr v (XValue x)
| fe_designator : forall v d, for_designator v d -> for_expr v (XDesignator d)
| fe_selector : forall v s, for_selector v s -> for_expr v (XSelector s)
| fe_apply : forall v a fid f l t items args,
    instance v KApply a ->
    attr_is a "functionId" (maybe for_string fid) ->
    attr_is a "function" (maybe for_function f) ->
    get_attr h a "expressions" = Ok (PRef l) ->
    nth_error h l = Some (PTypedList t items) ->
    for_exprs items args ->
    for_expr v (XApply fid f args)
with for_exprs : list pval -> list expr -> Prop :=
| fes_nil : for_exprs [] []
| fes_cons : forall v x vs xs, for_expr v x -> for_exprs vs xs -> for_exprs (v :: vs) (x :: xs).

Definition for_match (k : designator_kind) (v : pval) (m : matchel) : Prop :=
  exists a, instance v (KMatch k) a /\
    attr_is a "matchId" (maybe for_string (mt_id m)) /\
    attr_is a "function" (maybe for_function (mt_fn m)) /\
    attr_is a "attributeValue" (maybe for_value (mt_value m)) /\
    attr_is a "attributeDesignator" (maybe for_designator (mt_designator m)) /\
    attr_is a "attributeSelector" (maybe for_selector (mt_selector m)).

(** A Subject, Resource, Action or Environment of a target *)
Definition for_child (k : designator_kind) (v : pval) (ms : list matchel) : Prop :=
  exists a, instance v (KTargetChild k) a /\
    attr_is a "matches" (listing (Forall2 (for_match k)) ms).

Definition for_target (v : pval) (t : target) : Prop :=
  exists a, instance v KTarget a /\
    attr_is a "subjects" (listing (Forall2 (for_child DSubject)) (tg_subjects t)) /\
    attr_is a "resources" (listing (Forall2 (for_child DResource)) (tg_resources t)) /\
    attr_is a "actions" (listing (Forall2 (for_child DAction)) (tg_actions t)) /\
    attr_is a "environments" (listing (Forall2 (for_child DEnvironment)) (tg_environments t)).

Definition for_condition (v : pval) (x : option expr) : Prop :=
  exists a, instance v KCondition a /\ attr_is a "expression" (maybe for_expr x).

Definition for_rule (v : pval) (r : rule) : Prop :=
  exists a, instance v KRule a /\
    attr_is a "id" (maybe for_string (rl_id r)) /\
    attr_is a "effect" (maybe for_effect (rl_effect r)) /\
    attr_is a "target" (maybe for_target (rl_target r)) /\
    attr_is a "condition" (maybe for_condition (rl_condition r)) /\
    match rl_description r with
    | None => get_attr h a "description" = Raise EAttributeError
    | Some s => get_attr h a "description" = Ok (PNat (NStr s))
    end.

(** A PolicyDefaults object, of which only the XPath version is kept; no object and
    an object without a version are not told apart. *)
Definition for_defaults (x : option string) (v : pval) : Prop :=
  (v = PNat NNone /\ x = None) \/
  exists a, instance v KPolicyDefaults a /\ attr_is a "xpathVersion" (maybe for_string x).

Inductive for_policy : pval -> policybase -> Prop :=
| fp_policy : forall v a m t alg rules,
    instance v KPolicy a ->
    attr_is a "policyId" (maybe for_string (pm_id m)) ->
    attr_is a "version" (maybe for_string (pm_version m)) ->
    attr_is a "ruleCombiningAlgId" (maybe for_string (pm_algId m)) ->
    attr_is a "description" (maybe for_string (pm_description m)) ->
    attr_is a "policyDefaults" (for_defaults (pm_xpathVersion m)) ->
    attr_is a "target" (maybe for_target t) ->
    attr_is a "ruleCombiningAlg" (maybe for_algorithm alg) ->
    attr_is a "rules" (listing (Forall2 for_rule) rules) ->
    for_policy v (PPolicy m t alg rules)
| fp_policyset : forall v a m t alg l ty items children,
    instance v KPolicySet a ->
    attr_is a "policySetId" (maybe for_string (pm_id m)) ->
    attr_is a "version" (maybe for_string (pm_version m)) ->
    attr_is a "policyCombiningAlgId" (maybe for_string (pm_algId m)) ->
    attr_is a "description" (maybe for_string (pm_description m)) ->
    attr_is a "policySetDefaults" (for_defaults (pm_xpathVersion m)) ->
    attr_is a "target" (maybe for_target t) ->
    attr_is a "policyCombiningAlg" (maybe for_algorithm alg) ->
    get_attr h a "policies" = Ok (PRef l) ->
    nth_error h l = Some (PTypedList ty items) ->
    for_policies items children ->
    for_policy v (PPolicySet m t alg children)
with for_policies : list pval -> list policybase -> Prop :=
| fps_nil : for_policies [] []
| fps_cons : forall v p vs ps, for_policy v p -> for_policies vs ps ->
    for_policies (v :: vs) (p :: ps).

Definition for_attribute (v : pval) (x : attribute) : Prop :=
  exists a, instance v KAttribute a /\
    attr_is a "attributeId" (maybe for_string (at_id x)) /\
    attr_is a "dataType" (maybe for_string (at_dataType x)) /\
    attr_is a "issuer" (maybe for_string (at_issuer x)) /\
    attr_is a "attributeValues" (listing (Forall2 for_value) (at_values x)).

Definition for_attributes (c : pcls) (v : pval) (xs : list attribute) : Prop :=
  exists a, instance v c a /\ attr_is a "attributes" (listing (Forall2 for_attribute) xs).

Definition for_subject (v : pval) (s : subject) : Prop :=
  for_attributes KCtxSubject v (sb_attributes s) /\
  exists a, v = PRef a /\ attr_is a "subjectCategory" (maybe for_string (sb_category s)).

(** Resource content of any other kind than an XML node is not told apart from none. *)
Definition for_resource (v : pval) (r : resource) : Prop :=
  for_attributes KCtxResource v (rs_attributes r) /\
  exists a, v = PRef a /\
    attr_is a "resourceContent"
      (fun c => match rs_content r with
                | Some x => c = PXml x
                | None => forall x, c <> PXml x
                end).

Definition for_request (v : pval) (r : request) : Prop :=
  exists a, instance v KRequest a /\
    attr_is a "subjects" (listing (Forall2 for_subject) (rq_subjects r)) /\
    attr_is a "resources" (listing (Forall2 for_resource) (rq_resources r)) /\
    attr_is a "action" (maybe (for_attributes KCtxAction) (rq_action r)) /\
    attr_is a "environment" (maybe (for_attributes KCtxEnvironment) (rq_environment r)) /\
    attr_is a "ctxHandler" (maybe (fun v n => v = PHandler n) (rq_ctxHandler r)) /\
    attr_is a "attributeSelector" (maybe (fun v n => v = PXPath n) (rq_selector r)).

(** ** References: an object refers to the objects that are its attributes, a list to
    its items. *)
Inductive refers : nat -> nat -> Prop :=
| refers_attribute : forall a b name, get_attr h a name = Ok (PRef b) -> refers a b
| refers_item : forall a b t items, nth_error h a = Some (PTypedList t items) ->
    In (PRef b) items -> refers a b.

(** [reaches a b]: [b] is [a] or is found by following references from [a]. *)
Definition reaches : nat -> nat -> Prop := clos_refl_trans nat refers.

(** No infinite chain of references starts from [a]. *)
Definition not_circular (a : nat) : Prop := Acc (fun b a => refers a b) a.

End StandsFor.

(** ** Effects of an operation *)

(** The object an operation changes, if it changes one that already exists. *)
Definition touches (o : oop) : option nat :=
  match o with
  | OSet a _ _ | OList a _ | OInsert a _ _ | ODelete a _ => Some a
  | ONew _ | ONewValue _ | ONewEffect _ | ONewList _ _ => None
  end.

(** The attribute that an assignment to [name] may change as well: a match has a
    designator or a selector, an id determines the function or algorithm object. *)
Definition linked (name : string) : option string :=
  if String.eqb name "attributeDesignator" then Some "attributeSelector"%string
  else if String.eqb name "attributeSelector" then Some "attributeDesignator"%string
  else if String.eqb name "matchId" then Some "function"%string
  else if String.eqb name "functionId" then Some "function"%string
  else if String.eqb name "ruleCombiningAlgId" then Some "ruleCombiningAlg"%string
  else if String.eqb name "policyCombiningAlgId" then Some "policyCombiningAlg"%string
  else None.

(** Attributes whose assignment looks something up, and may fail after the type test. *)
Definition id_attributes : list string :=
  ["matchId"; "functionId"; "ruleCombiningAlgId"; "policyCombiningAlgId"]%string.

(** The value of a documented attribute of a new object. *)
Definition new_value (h : heap) (d : documented) (name : string) (v : res pval) : Prop :=
  match d with
  | DOptional _ | DFunction | DAlgorithm => v = Ok (PNat NNone)
  | DFlag => v = Ok (PNat (NBool (String.eqb name "loadFunctionFromId")))
  | DListOf t => exists l, v = Ok (PRef l) /\ nth_error h l = Some (PTypedList t [])
  | DLate _ => v = Raise EAttributeError
  end.
