(** Policy and request objects as they are built through the API: Python objects
    with attributes that refer to each other, created by constructors and changed
    by property assignments and list methods. *)
From Verif Require Export Utils Setters.

(** ** Values and objects

    [PNat] are native values (None, strings, booleans, instances of unrelated
    classes), [PRef a] the object at address [a], [PFn] and [PAlg] function and
    combining algorithm objects, [PHandler] and [PXPath] objects implementing
    CtxHandlerInterface and XPathSelectorInterface, [PXml] an XML node. *)
Inductive pval : Type :=
| PNat (v : native)
| PRef (a : nat)
| PFn (f : fn)
| PAlg (a : comb_alg)
| PHandler (n : N)
| PXPath (n : N)
| PXml (x : node).
Definition PNone : pval := PNat NNone.

(** The classes of core/ and core/context/ that are modelled here.  Subclasses
    made by the user are not. *)
Inductive pcls : Type :=
| KDesignator (k : designator_kind)   (* attributedesignator.py:141,219,272,325 *)
| KSelector                           (* attributeselector.py:23 *)
| KApply                              (* apply.py:19 *)
| KCondition                          (* condition.py:16 *)
| KMatch (k : designator_kind)        (* match.py:350-371 *)
| KTargetChild (k : designator_kind)  (* subject.py, resource.py, action.py, environment.py *)
| KTarget                             (* target.py:28 *)
| KRule                               (* rule.py:183 *)
| KObligation                         (* obligation.py:142 *)
| KPolicyDefaults                     (* policydefaults.py:15 *)
| KPolicy                             (* policy.py:36 *)
| KPolicySet                          (* policyset.py:28 *)
| KAttribute                          (* attribute.py:17 *)
| KCtxSubject | KCtxResource | KCtxAction | KCtxEnvironment  (* context/*.py *)
| KRequest                            (* context/request.py:25 *)
| KPdp.                               (* context/pdp.py:20 *)

(** The types named in isinstance tests and as element types of lists. *)
Inductive ptype : Type :=
| TStr | TBool
| TCls (c : pcls)
| TDesignator       (* AttributeDesignator *)
| TExpression
| TAttributeValue
| TAttributeAssignment  (* obligation.py:17: cannot be instantiated, its TYPE is None *)
| TPolicyBase
| TEffect
| THandler          (* CtxHandlerInterface *)
| TXPathSelector    (* XPathSelectorInterface *)
| TTypedList
| TAny.

(** Instances: [PInst] with a value for each initialised attribute, lists with
    their element type, attribute values, effects (rule.py:22, by value). *)
Inductive pobject : Type :=
| PInst (c : pcls) (attrs : list (string * pval))
| PTypedList (elt : ptype) (items : list pval)
| PValue (v : attrval)
| PEffect (s : string).

Definition heap : Type := list pobject.

Definition pcls_eqb (c d : pcls) : bool :=
  let k_eqb j k := match j, k with
                   | DSubject, DSubject | DResource, DResource | DAction, DAction
                   | DEnvironment, DEnvironment => true
                   | _, _ => false
                   end in
  match c, d with
  | KDesignator j, KDesignator k | KMatch j, KMatch k | KTargetChild j, KTargetChild k => k_eqb j k
  | KSelector, KSelector | KApply, KApply | KCondition, KCondition | KTarget, KTarget
  | KRule, KRule | KObligation, KObligation | KPolicyDefaults, KPolicyDefaults
  | KPolicy, KPolicy | KPolicySet, KPolicySet | KAttribute, KAttribute
  | KCtxSubject, KCtxSubject | KCtxResource, KCtxResource | KCtxAction, KCtxAction
  | KCtxEnvironment, KCtxEnvironment | KRequest, KRequest | KPdp, KPdp => true
  | _, _ => false
  end.

(** isinstance of an object: the class hierarchy of core/: AttributeDesignator,
    AttributeSelector, Apply and AttributeValue derive from Expression
    (expression.py:17), Policy and PolicySet from PolicyBase (policybase.py:29). *)
Definition object_is (o : pobject) (t : ptype) : bool :=
  match t, o with
  | TAny, _ => true
  | TCls c, PInst d _ => pcls_eqb c d
  | TDesignator, PInst (KDesignator _) _ => true
  | TExpression, PInst (KDesignator _) _ | TExpression, PInst KSelector _
  | TExpression, PInst KApply _ | TExpression, PValue _ => true
  | TAttributeValue, PValue _ => true
  | TPolicyBase, PInst KPolicy _ | TPolicyBase, PInst KPolicySet _ => true
  | TEffect, PEffect _ => true
  | TTypedList, PTypedList _ _ => true
  | _, _ => false
  end.

(** isinstance(v, t); a reference to no object does not occur in Python and has no
    type *)
Definition isinstance (h : heap) (v : pval) (t : ptype) : bool :=
  match t, v with
  | TStr, PNat (NStr _) => true
  | TBool, PNat (NBool _) => true
  | THandler, PHandler _ => true
  | TXPathSelector, PXPath _ => true
  | _, PRef a => match nth_error h a with Some o => object_is o t | None => false end
  | TAny, _ => true
  | _, _ => false
  end.

(** ** Constructors *)

(** What an [__init__] gives an attribute: a value or a new empty TypedList. *)
Inductive initial : Type := IVal (v : pval) | IList (elt : ptype).

(** The initialised attributes of each class.  The attributes of XacmlCoreBase
    (xmlns, elem, reader, writer) and the attributeValueFactory, functionMap and
    combining algorithm factory attributes keep their defaults here; see Setters.v
    for the latter two.  Rule.__init__ (rule.py:220-227) does not initialise the
    description. *)
Definition init_attrs (c : pcls) : list (string * initial) :=
  match c with
  | KDesignator _ =>   (* expression.py:33-35, attributedesignator.py:56-61 *)
      [("dataType", IVal PNone); ("attributeId", IVal PNone); ("issuer", IVal PNone);
       ("mustBePresent", IVal (PNat (NBool false)))]
  | KSelector =>       (* expression.py:33-35, attributeselector.py:46-51 *)
      [("dataType", IVal PNone); ("mustBePresent", IVal PNone);
       ("requestContextPath", IVal PNone)]
  | KApply =>          (* expression.py:33-35, apply.py:51-58 *)
      [("dataType", IVal PNone); ("functionId", IVal PNone); ("function", IVal PNone);
       ("loadFunctionFromId", IVal (PNat (NBool true))); ("expressions", IList TExpression)]
  | KCondition => [("expression", IVal PNone)]   (* condition.py:35-37 *)
  | KMatch _ =>        (* match.py:72-86 *)
      [("attributeValue", IVal PNone); ("attributeDesignator", IVal PNone);
       ("attributeSelector", IVal PNone); ("matchId", IVal PNone); ("function", IVal PNone);
       ("loadFunctionFromId", IVal (PNat (NBool true)))]
  | KTargetChild k => [("matches", IList (TCls (KMatch k)))]  (* core/__init__.py:156-165 *)
  | KTarget =>         (* target.py:63-68 *)
      [("subjects", IList (TCls (KTargetChild DSubject)));
       ("resources", IList (TCls (KTargetChild DResource)));
       ("actions", IList (TCls (KTargetChild DAction)));
       ("environments", IList (TCls (KTargetChild DEnvironment)))]
  | KRule =>           (* rule.py:220-227 *)
      [("id", IVal PNone); ("effect", IVal PNone); ("target", IVal PNone);
       ("condition", IVal PNone)]
  | KObligation =>     (* obligation.py:167-171 *)
      [("attributeAssignments", IList TAttributeAssignment); ("obligationId", IVal PNone);
       ("fulfillOn", IVal PNone)]
  | KPolicyDefaults => [("xpathVersion", IVal PNone)]  (* policydefaults.py:31-34 *)
  | KPolicy =>         (* policy.py:108-140 *)
      [("policyId", IVal PNone); ("version", IVal PNone); ("ruleCombiningAlgId", IVal PNone);
       ("description", IVal PNone); ("target", IVal PNone); ("policyDefaults", IVal PNone);
       ("rules", IList (TCls KRule)); ("obligations", IList (TCls KObligation));
       ("ruleCombiningAlg", IVal PNone)]
  | KPolicySet =>      (* policyset.py:106-131 *)
      [("policySetId", IVal PNone); ("version", IVal PNone);
       ("policyCombiningAlgId", IVal PNone); ("description", IVal PNone);
       ("target", IVal PNone); ("policySetDefaults", IVal PNone);
       ("policies", IList TPolicyBase); ("obligations", IList (TCls KObligation));
       ("policyCombiningAlg", IVal PNone)]
  | KAttribute =>      (* attribute.py:49-54 *)
      [("attributeValues", IList TAttributeValue); ("dataType", IVal PNone);
       ("attributeId", IVal PNone); ("issuer", IVal PNone)]
  | KCtxSubject =>     (* context/__init__.py:71-74, context/subject.py *)
      [("attributes", IList (TCls KAttribute)); ("subjectCategory", IVal PNone)]
  | KCtxResource =>    (* context/resource.py:32-35 *)
      [("attributes", IList (TCls KAttribute)); ("resourceContent", IVal PNone)]
  | KCtxAction | KCtxEnvironment => [("attributes", IList (TCls KAttribute))]
  | KRequest =>        (* context/request.py:59-68 *)
      [("subjects", IList (TCls KCtxSubject)); ("resources", IList (TCls KCtxResource));
       ("action", IVal PNone); ("environment", IVal PNone); ("ctxHandler", IVal PNone);
       ("attributeSelector", IVal PNone)]
  | KPdp => [("policy", IVal PNone)]   (* context/pdp.py:30-36 *)
  end.

(** The attributes of a new object when the first of its new lists is at address
    [next], and the lists. *)
Fixpoint init_from (next : nat) (l : list (string * initial))
  : list (string * pval) * list pobject :=
  match l with
  | [] => ([], [])
  | (k, IVal v) :: l' => let '(s, o) := init_from next l' in ((k, v) :: s, o)
  | (k, IList t) :: l' =>
      let '(s, o) := init_from (S next) l' in ((k, PRef next) :: s, PTypedList t [] :: o)
  end.

(** A constructor call: the object is put at the end of the heap, followed by its
    lists. *)
Definition construct (h : heap) (c : pcls) : heap :=
  let '(attrs, lists) := init_from (S (length h)) (init_attrs c) in
  h ++ PInst c attrs :: lists.

(** ** Attribute access *)

(** Reading an attribute.  The properties return the instance variable of the same
    name; one that was never initialised raises AttributeError.  Reading other
    attributes (methods, class variables) is not modelled. *)
Definition get_attr (h : heap) (a : nat) (name : string) : res pval :=
  match nth_error h a with
  | Some (PInst _ attrs) =>
      match dict_get name attrs with Some v => Ok v | None => Raise EAttributeError end
  | Some (PValue v) =>   (* attributevalue.py:163-185, expression.py:37-38 *)
      if String.eqb name "value" then Ok (PNat (av_value v))
      else if String.eqb name "dataType" then Ok (PNat (NStr (av_dataType v)))
      else Raise EAttributeError
  | Some (PEffect s) =>  (* rule.py:96-104 *)
      if String.eqb name "value" then Ok (PNat (NStr s)) else Raise EAttributeError
  | Some (PTypedList _ _) | None => Raise EAttributeError
  end.

(** The type a property setter tests for; [None] if the class has no such settable
    attribute: the property is read only, or with __slots__ there is no such
    attribute at all.  Simplification: the match classes, the attribute value
    classes, the Action and Environment of a request and the lists have no
    __slots__, so Python would accept an attribute of any other name on them;
    nothing reads it. *)
Definition setter_type (c : pcls) (name : string) : option ptype :=
  let is n := String.eqb name n in
  match c with
  | KDesignator _ =>   (* expression.py:40-45, attributedesignator.py:76-129 *)
      if is "dataType" then Some TStr
      else if is "attributeId" then Some TStr
      else if is "issuer" then Some TStr
      else if is "mustBePresent" then Some TBool
      else None
  | KSelector =>       (* attributeselector.py:66-98 *)
      if is "dataType" then Some TStr
      else if is "requestContextPath" then Some TStr
      else if is "mustBePresent" then Some TBool
      else None
  | KApply =>          (* apply.py:69-105 *)
      if is "dataType" then Some TStr
      else if is "functionId" then Some TStr
      else if is "loadFunctionFromId" then Some TBool
      else None
  | KCondition =>      (* condition.py:48-60 *)
      if is "expression" then Some TExpression else None
  | KMatch _ =>        (* match.py:96-212 *)
      if is "attributeValue" then Some TAttributeValue
      else if is "attributeDesignator" then Some TDesignator
      else if is "attributeSelector" then Some (TCls KSelector)
      else if is "matchId" then Some TStr
      else if is "loadFunctionFromId" then Some TBool
      else None
  | KTargetChild _ | KTarget => None   (* core/__init__.py:167-170, target.py:70-100 *)
  | KRule =>           (* rule.py:237-337 *)
      if is "target" then Some (TCls KTarget)
      else if is "condition" then Some (TCls KCondition)
      else if is "id" then Some TStr
      else if is "effect" then Some TEffect
      else if is "description" then Some TStr
      else None
  | KObligation =>     (* obligation.py:173-223 *)
      if is "obligationId" then Some TStr
      else if is "fulfillOn" then Some TStr
      else None
  | KPolicyDefaults => if is "xpathVersion" then Some TStr else None  (* policydefaults.py:42-51 *)
  | KPolicy =>         (* policy.py:209-383 *)
      if is "policyId" then Some TStr
      else if is "version" then Some TStr
      else if is "ruleCombiningAlgId" then Some TStr
      else if is "target" then Some (TCls KTarget)
      else if is "description" then Some TStr
      else if is "policyDefaults" then Some (TCls KPolicyDefaults)
      else None
  | KPolicySet =>      (* policyset.py:200-376 *)
      if is "policySetId" then Some TStr
      else if is "version" then Some TStr
      else if is "policyCombiningAlgId" then Some TStr
      else if is "target" then Some (TCls KTarget)
      else if is "description" then Some TStr
      else if is "policySetDefaults" then Some (TCls KPolicyDefaults)
      else None
  | KAttribute =>      (* attribute.py:65-141; any TypedList is accepted *)
      if is "attributeValues" then Some TTypedList
      else if is "dataType" then Some TStr
      else if is "attributeId" then Some TStr
      else if is "issuer" then Some TStr
      else None
  | KCtxSubject =>     (* context/subject.py:40-59 *)
      if is "subjectCategory" then Some TStr else None
  | KCtxResource =>    (* context/resource.py:44-52: not checked *)
      if is "resourceContent" then Some TAny else None
  | KCtxAction | KCtxEnvironment => None
  | KRequest =>        (* context/request.py:94-171 *)
      if is "action" then Some (TCls KCtxAction)
      else if is "environment" then Some (TCls KCtxEnvironment)
      else if is "ctxHandler" then Some THandler
      else if is "attributeSelector" then Some TXPathSelector
      else None
  | KPdp =>            (* context/pdp.py:80-90 *)
      if is "policy" then Some TPolicyBase else None
  end.

Fixpoint replace_nth {A} (n : nat) (x : A) (l : list A) : list A :=
  match l, n with
  | [], _ => []
  | _ :: l', O => x :: l'
  | y :: l', S n' => y :: replace_nth n' x l'
  end.

(** setFunctionFromMap of Match (match.py:214-244) and Apply (apply.py:110-142) with
    the shared function map in state [m] *)
Definition load_function (cm : list (string * avclass)) (id : string) (m : fmap) : res fn * fmap :=
  let '(r, m') := fm_get cm id m in
  match r with
  | Raise e => (Raise e, m')
  | Ok (Some FNotImplemented) => (Raise EUnsupportedStdFunctionError, m')
  | Ok None => (Raise EUnsupportedFunctionError, m')
  | Ok (Some (FUnusable e)) => (Raise e, m')
  | Ok (Some (FImpl f)) => (Ok f, m')
  end.

(** _setRuleCombiningAlgFromId (policy.py:261-289) and
    _setPolicyCombiningAlgFromId (policyset.py:252-282) with the default factory *)
Definition alg_from_table (table : list (string * alg_entry)) (id : string) : res comb_alg :=
  match dict_get id table with
  | Some (AlgClass a) => Ok a
  | Some AlgNotImplemented | Some AlgNotDerived | None => Raise ETypeError
  end.

(** The body of a property setter after its type test: the instance variable is
    assigned; a designator or selector of a match replaces the other
    (match.py:133-134, 159-160); an id loads the function or the algorithm. *)
Definition assign (cm : list (string * avclass)) (c : pcls) (name : string) (v : pval)
  (attrs : list (string * pval)) (m : fmap) : res unit * list (string * pval) * fmap :=
  let attrs1 := dict_set name v attrs in
  let load_function_from_id :=
    match v, dict_get "loadFunctionFromId" attrs1 with
    | PNat (NStr id), Some (PNat (NBool true)) =>
        match load_function cm id m with
        | (Ok f, m') => (Ok tt, dict_set "function" (PFn f) attrs1, m')
        | (Raise e, m') => (Raise e, attrs1, m')
        end
    | _, _ => (Ok tt, attrs1, m)
    end in
  let set_alg table attr :=
    match v with
    | PNat (NStr id) =>
        match alg_from_table table id with
        | Ok a => (Ok tt, dict_set attr (PAlg a) attrs1, m)
        | Raise e => (Raise e, attrs1, m)
        end
    | _ => (Ok tt, attrs1, m)
    end in
  match c with
  | KMatch _ =>
      if String.eqb name "attributeDesignator"
      then (Ok tt, dict_set "attributeSelector" PNone attrs1, m)
      else if String.eqb name "attributeSelector"
      then (Ok tt, dict_set "attributeDesignator" PNone attrs1, m)
      else if String.eqb name "matchId" then load_function_from_id
      else (Ok tt, attrs1, m)
  | KApply =>
      if String.eqb name "functionId" then load_function_from_id else (Ok tt, attrs1, m)
  | KPolicy =>
      if String.eqb name "ruleCombiningAlgId" then set_alg RULE_ALG_MAP "ruleCombiningAlg"
      else (Ok tt, attrs1, m)
  | KPolicySet =>
      if String.eqb name "policyCombiningAlgId" then set_alg POLICY_ALG_MAP "policyCombiningAlg"
      else (Ok tt, attrs1, m)
  | _ => (Ok tt, attrs1, m)
  end.

(** The value of a pval given to the setters of Setters.v *)
Definition as_pyobj (h : heap) (v : pval) : pyobj :=
  match v with
  | PNat n => ONat n
  | PRef a => match nth_error h a with
              | Some (PValue x) => OAttrVal x
              | Some (PEffect s) => OEffect s
              | _ => ONat (NOther "object" 0)
              end
  | _ => ONat (NOther "object" 0)
  end.
Definition as_native (v : pval) : native :=
  match v with PNat n => n | _ => NOther "object" 0 end.

(** ** Operations *)

Record ostate : Type := mkOState {
  os_heap : heap;
  os_map : fmap        (* the shared function map, functions/__init__.py:760 *)
}.

Inductive oop : Type :=
| ONew (c : pcls)                              (* c() *)
| ONewValue (v : attrval)                      (* an attribute value class called *)
| ONewEffect (x : pval)                        (* Effect(x) *)
| ONewList (elt : ptype) (items : list pval)   (* TypedList(elt, items) *)
| OSet (a : nat) (name : string) (v : pval)    (* object.name = v *)
| OList (a : nat) (o : lop pval)               (* append, extend, += *)
| OInsert (a : nat) (i : nat) (v : pval)       (* list.insert, inherited unchecked *)
| ODelete (a : nat) (i : nat).                 (* del list[i] *)

(** An operation: what it raises, if anything, and the state after it.
    Simplification: insert positions beyond the end append, negative ones are not
    modelled. *)
Definition ostep (cm : list (string * avclass)) (s : ostate) (o : oop) : res unit * ostate :=
  let h := os_heap s in
  let m := os_map s in
  match o with
  | ONew c => (Ok tt, mkOState (construct h c) m)
  | ONewValue v => (Ok tt, mkOState (h ++ [PValue v]) m)
  | ONewEffect x =>
      match effect_new (as_pyobj h x) with
      | Ok e => (Ok tt, mkOState (h ++ [PEffect e]) m)
      | Raise e => (Raise e, s)
      end
  | ONewList t items => (Ok tt, mkOState (h ++ [PTypedList t (tl_new items)]) m)
  | OSet a name v =>
      match nth_error h a with
      | Some (PInst c attrs) =>
          match setter_type c name with
          | None => (Raise EAttributeError, s)
          | Some t =>
              if isinstance h v t then
                let '(r, attrs', m') := assign cm c name v attrs m in
                (r, mkOState (replace_nth a (PInst c attrs') h) m')
              else (Raise ETypeError, s)
          end
      | Some (PValue x) =>
          let set o := let '(r, x') := av_step x o in
                       (r, mkOState (replace_nth a (PValue x') h) m) in
          if String.eqb name "value" then set (AVSetValue (as_native v))
          else if String.eqb name "dataType" then set (AVSetDataType (as_native v))
          else (Raise EAttributeError, s)
      | Some (PEffect e) =>
          if String.eqb name "value" then
            match effect_set (Some e) (as_pyobj h v) with
            | (r, Some e') => (r, mkOState (replace_nth a (PEffect e') h) m)
            | (r, None) => (r, s)
            end
          else (Raise EAttributeError, s)
      | Some (PTypedList _ _) | None => (Raise EAttributeError, s)
      end
  | OList a lo =>
      match nth_error h a with
      | Some (PTypedList t items) =>
          let '(r, items') := tl_step (fun v => isinstance h v t) items lo in
          (r, mkOState (replace_nth a (PTypedList t items') h) m)
      | _ => (Raise EAttributeError, s)
      end
  | OInsert a i v =>
      match nth_error h a with
      | Some (PTypedList t items) =>
          (Ok tt, mkOState (replace_nth a (PTypedList t (firstn i items ++ v :: skipn i items)) h) m)
      | _ => (Raise EAttributeError, s)
      end
  | ODelete a i =>
      match nth_error h a with
      | Some (PTypedList t items) =>
          if Nat.ltb i (length items) then
            (Ok tt, mkOState (replace_nth a (PTypedList t (firstn i items ++ skipn (S i) items)) h) m)
          else (Raise EIndexError, s)
      | _ => (Raise EAttributeError, s)
      end
  end.

(** A history of operations on a fresh interpreter state. *)
Definition orun (cm : list (string * avclass)) (s : ostate) (ops : list oop) : ostate :=
  fold_left (fun s o => snd (ostep cm s o)) ops s.
Definition ostart : ostate := mkOState [] fm_new.
