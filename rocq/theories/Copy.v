(** Copying of objects: copy.copy, copy.deepcopy and pickle on the policy and context
    classes, which declare __slots__ and define __getstate__ and __setstate__ for it.

    The part of the copy and pickle modules and of object.__reduce_ex__ that acts on
    such objects (documented in the Python library reference under "Pickling Class
    Instances" and in copy.py, pickle.py and copyreg.py of the distribution) is
    modelled too: the order in which an object is made, entered in the memo and
    given its state and its list items. *)
From Verif Require Export Objects.

(** ** Objects *)

(** The classes of Objects.v, attribute value classes, rule.py:22 Effect, and those of
    a response: context/response.py:20, context/result.py:19,115,242,416-470,483.
    [CDecision (Some d)] are PermitDecision, DenyDecision and so on. *)
Inductive ccls : Type :=
| CCore (c : pcls)
| CValue (c : avclass)
| CEffect
| CResponse | CResult | CStatus | CStatusCode
| CDecision (d : option decision).

(** The element type of a TypedList: Response.results is a TypedList(Result)
    (context/response.py:36). *)
Inductive celt : Type := EltType (t : ptype) | EltResult.

(** An object with a value for each slot that is set, under the name of the property
    that reads it; the slots of XacmlCoreBase (core/__init__.py:39) are xmlns,
    reader, writer and elem.  A slot that is not set cannot be read: AttributeError.
    Simplification: an entry of an instance __dict__ with the name of a slot is not
    kept here: the slot hides it (data descriptors come first in attribute lookup)
    and nothing else reads it. *)
Inductive cobject : Type :=
| CInst (c : ccls) (attrs : list (string * pval))
| CList (elt : celt) (items : list pval).

Definition cheap : Type := list cobject.

(** isinstance of an item; see Objects.isinstance *)
Definition cobject_is (o : cobject) (t : celt) : bool :=
  match t, o with
  | EltResult, CInst CResult _ => true
  | EltResult, _ => false
  | EltType t, CInst (CCore c) _ => object_is (PInst c []) t
  | EltType t, CInst (CValue c) _ => object_is (PValue (mkAV c "" NNone)) t
  | EltType t, CInst CEffect _ => object_is (PEffect "") t
  | EltType t, CList _ _ => object_is (PTypedList TAny []) t
  | EltType TAny, CInst _ _ => true
  | EltType _, CInst _ _ => false
  end.
Definition item_is (h : cheap) (v : pval) (t : celt) : bool :=
  match v with
  | PRef a => match nth_error h a with Some o => cobject_is o t | None => false end
  | _ => match t with EltType t => isinstance [] v t | EltResult => false end
  end.

(** ** What is outside: objects of the user's classes and XML nodes *)
Record copy_env : Type := mkCopyEnv {
  ce_lxml : bool;                       (* Config.use_lxml *)
  ce_handler : N -> res N;              (* copying a context handler *)
  ce_selector : N -> res N;             (* copying an XPath selector *)
  ce_object : string -> N -> res N;     (* copying another object; the class is kept *)
  ce_xml : node -> res node;            (* copying an XML node *)
  ce_tostring : node -> res string;     (* ElementTree.tostring(node, encoding=str) *)
  ce_parse : string -> res node;        (* ElementTree.XML(text) *)
  ce_importable : avclass -> bool       (* a custom class is found by its name *)
}.

(** ** __getstate__ *)

(** A value in the state dictionary: a value, or a SerialisedElementTree
    (parsers/etree/__init__.py:19-22).  Simplification: a resource content that is
    a SerialisedElementTree from the start is not modelled. *)
Inductive sval : Type := SVal (v : pval) | SSerialised (s : string).
Definition state : Type := list (string * sval).

(** getattr(self, attrName) of a slot *)
Definition slot (attrs : list (string * pval)) (name : string) : res pval :=
  match dict_get name attrs with Some v => Ok v | None => Raise EAttributeError end.

(** for attrName in X.__slots__: _dict[attrName] = getattr(self, attrName) *)
Definition save (names : list string) (attrs : list (string * pval)) : res state :=
  mapM (fun k => let* v := slot attrs k in Ok (k, SVal v)) names.

Section Copy.
Variable E : copy_env.

(** XacmlCoreBase.__getstate__, core/__init__.py:105-120 *)
Definition core_getstate (attrs : list (string * pval)) : res state :=
  save ["xmlns"; "reader"; "writer"; "elem"] attrs.
(** XacmlContextBase.__getstate__, context/__init__.py:40-55: __slots__ is () *)
Definition context_getstate (attrs : list (string * pval)) : res state :=
  let* d := core_getstate attrs in
  let* s := save [] attrs in
  Ok (d ++ s)%list.
(** RequestChildBase.__getstate__, context/__init__.py:84-97; also that of the request
    classes Subject, Action and Environment, which do not override it *)
Definition request_child_getstate (attrs : list (string * pval)) : res state :=
  let* d := context_getstate attrs in
  let* s := save ["attributes"] attrs in
  Ok (d ++ s)%list.
(** serialiseIfElementTree, parsers/etree/__init__.py:32-37,53-54 *)
Definition serialise_if_element (v : pval) : res sval :=
  match v with
  | PXml x => if ce_lxml E then let* s := ce_tostring E x in Ok (SSerialised s) else Ok (SVal v)
  | _ => Ok (SVal v)
  end.
(** Resource.__getstate__, context/resource.py:54-68 *)
Definition resource_getstate (attrs : list (string * pval)) : res state :=
  let* d := request_child_getstate attrs in
  let* v := slot attrs "resourceContent" in
  let* s := serialise_if_element v in
  Ok (d ++ [("resourceContent", s)])%list.
(** Request.__getstate__, context/request.py:173-188 *)
Definition request_getstate (attrs : list (string * pval)) : res state :=
  let* d := context_getstate attrs in
  let* s := save ["subjects"; "resources"; "action"; "environment"; "ctxHandler";
                  "attributeSelector"] attrs in
  Ok (d ++ s)%list.
(** Response.__getstate__, context/response.py:46-61 *)
Definition response_getstate (attrs : list (string * pval)) : res state :=
  let* d := context_getstate attrs in
  let* s := save ["results"] attrs in
  Ok (d ++ s)%list.
(** Result.__getstate__, context/result.py:646-661 *)
Definition result_getstate (attrs : list (string * pval)) : res state :=
  let* d := context_getstate attrs in
  let* s := save ["resourceId"; "decision"; "status"; "obligations"] attrs in
  Ok (d ++ s)%list.
(** Attribute.__getstate__, attribute.py:143-158: that of the base class is not called *)
Definition attribute_getstate (attrs : list (string * pval)) : res state :=
  save ["attributeValues"; "dataType"; "attributeId"; "issuer"] attrs.
(** Expression.__getstate__, expression.py:63-78; also that of Apply, of the designators
    and of AttributeSelector *)
Definition expression_getstate (attrs : list (string * pval)) : res state :=
  let* d := core_getstate attrs in
  let* s := save ["dataType"] attrs in
  Ok (d ++ s)%list.
(** AttributeValue.__getstate__, attributevalue.py:198-213 *)
Definition value_getstate (attrs : list (string * pval)) : res state :=
  let* d := expression_getstate attrs in
  let* s := save ["value"] attrs in
  Ok (d ++ s)%list.
(** Effect.__getstate__ and Decision.__getstate__, rule.py:49-64, context/result.py:316-331 *)
Definition effect_getstate (attrs : list (string * pval)) : res state := save ["value"] attrs.
(** object.__getstate__, for PDP (context/pdp.py:28): the slots that are set *)
Definition pdp_getstate (attrs : list (string * pval)) : res state :=
  Ok (match dict_get "policy" attrs with Some v => [("policy", SVal v)] | None => [] end).

(** Which of them a class uses.  Status and StatusCode inherit that of
    XacmlContextBase; the other policy classes inherit that of XacmlCoreBase. *)
Definition getstate (c : ccls) (attrs : list (string * pval)) : res state :=
  match c with
  | CCore (KDesignator _) | CCore KSelector | CCore KApply => expression_getstate attrs
  | CCore KCondition | CCore (KMatch _) | CCore (KTargetChild _) | CCore KTarget
  | CCore KRule | CCore KObligation | CCore KPolicyDefaults | CCore KPolicy
  | CCore KPolicySet => core_getstate attrs
  | CCore KAttribute => attribute_getstate attrs
  | CCore KCtxSubject | CCore KCtxAction | CCore KCtxEnvironment => request_child_getstate attrs
  | CCore KCtxResource => resource_getstate attrs
  | CCore KRequest => request_getstate attrs
  | CCore KPdp => pdp_getstate attrs
  | CValue _ => value_getstate attrs
  | CEffect | CDecision _ => effect_getstate attrs
  | CResponse => response_getstate attrs
  | CResult => result_getstate attrs
  | CStatus | CStatusCode => context_getstate attrs
  end.

(** ** __setstate__ *)

(** deserialiseIfElementTree, parsers/etree/__init__.py:39-43 (only values for which
    the isinstance test of context/resource.py:72 holds get there) *)
Definition deserialise (v : sval) : res pval :=
  match v with
  | SVal v => Ok v
  | SSerialised s => let* x := ce_parse E s in Ok (PXml x)
  end.
(** for attr, val in attrDict.items(): setattr(self, attr, val):
    context/__init__.py:57-60, context/resource.py:70-75, rule.py:66-73,
    context/result.py:333-340.  The keys are the mangled slot names, so the slots are
    set without the tests of the properties. *)
Definition setstate_slots (st : state) : res (list (string * pval)) :=
  mapM (fun p => let* v := deserialise (snd p) in Ok (fst p, v)) st.

(** The state is given to the new object: with __setstate__ by the class; without, the
    entries go to its __dict__ (the match and attribute value classes, whose
    __slots__ are those of their base classes only: match.py:350-371,
    attributevalue.py:285), where the slots hide them; and without __dict__
    AttributeError is raised.  For a PDP the state is a pair and the slots are set. *)
Definition setstate (c : ccls) (st : state) : res (list (string * pval)) :=
  match c with
  | CCore KCtxSubject | CCore KCtxResource | CCore KCtxAction | CCore KCtxEnvironment
  | CCore KRequest | CResponse | CResult | CStatus | CStatusCode
  | CEffect | CDecision _ | CCore KPdp => setstate_slots st
  | CCore (KMatch _) | CValue _ => Ok []
  | CCore _ => Raise EAttributeError
  end.

(** ** copy.deepcopy and unpickling *)

(** deepcopy; pickle with protocol 2 or later; pickle with protocol 0 or 1 *)
Inductive how : Type := Deep | Pickle2 | Pickle01.

(** the memo: the address of an object and that of its copy *)
Definition memo : Type := list (nat * nat).
Fixpoint memo_get (a : nat) (m : memo) : option nat :=
  match m with
  | [] => None
  | (x, y) :: m' => if Nat.eqb a x then Some y else memo_get a m'
  end.

Section Level.
Variable rec : cheap -> memo -> pval -> res (cheap * memo * pval).
(** the values of a state dictionary, in order *)
Fixpoint rebuild_state (h : cheap) (m : memo) (st : state) : res (cheap * memo * state) :=
  match st with
  | [] => Ok (h, m, [])
  | (k, SSerialised s) :: st' =>
      let* (h1, m1, r) := rebuild_state h m st' in
      Ok (h1, m1, (k, SSerialised s) :: r)
  | (k, SVal v) :: st' =>
      let* (h1, m1, w) := rec h m v in
      let* (h2, m2, r) := rebuild_state h1 m1 st' in
      Ok (h2, m2, (k, SVal w) :: r)
  end.
(** the items of a list; with [Some t] each copy is appended with TypedList.append
    (utils/__init__.py:107-118), which tests its type *)
Fixpoint rebuild_items (t : option celt) (h : cheap) (m : memo) (items : list pval)
  : res (cheap * memo * list pval) :=
  match items with
  | [] => Ok (h, m, [])
  | v :: r =>
      let* (h1, m1, w) := rec h m v in
      if match t with Some t => item_is h1 w t | None => true end then
        let* (h2, m2, r') := rebuild_items t h1 m1 r in
        Ok (h2, m2, w :: r')
      else Raise ETypeError
  end.
End Level.

(** The copy of a value: the heap with the new objects, the memo and the copy.  [n]
    bounds the depth of the recursion.  An object is made by cls.__new__ without
    calling __init__, entered in the memo, and then given its state.
    A TypedList is made empty; deepcopy sets its element type and appends the copies of
    the items; pickle with protocol 2 or later calls extend with the items
    (utils/__init__.py:77-89) before the element type is set, so that a list with
    items raises AttributeError; with protocol 0 or 1 the list is made with its items
    by list.__init__, after them, unless it came into the memo with them.
    Simplification: the copies of the items are put in the new list together; nothing
    reads the list before.  A reference to no object does not occur. *)
Fixpoint rebuild (how : how) (n : nat) (h : cheap) (m : memo) (v : pval)
  : res (cheap * memo * pval) :=
  match n with
  | O => Raise ERecursionError
  | S n' =>
      match v with
      | PNat (NOther ty k) => let* k' := ce_object E ty k in Ok (h, m, PNat (NOther ty k'))
      | PNat _ | PFn _ | PAlg _ => Ok (h, m, v)
      | PHandler k => let* k' := ce_handler E k in Ok (h, m, PHandler k')
      | PXPath k => let* k' := ce_selector E k in Ok (h, m, PXPath k')
      | PXml x => let* x' := ce_xml E x in Ok (h, m, PXml x')
      | PRef a =>
          match memo_get a m with
          | Some b => Ok (h, m, PRef b)
          | None =>
              match nth_error h a with
              | None => Raise EAttributeError
              | Some (CInst c attrs) =>
                  let y := length h in
                  let* st := getstate c attrs in
                  let* (h1, m1, st1) :=
                    rebuild_state (rebuild how n') (h ++ [CInst c []])%list ((a, y) :: m) st in
                  let* attrs1 := setstate c st1 in
                  Ok (replace_nth y (CInst c attrs1) h1, m1, PRef y)
              | Some (CList t items) =>
                  match how with
                  | Deep =>
                      let y := length h in
                      let* (h1, m1, items1) :=
                        rebuild_items (rebuild how n') (Some t)
                          (h ++ [CList t []])%list ((a, y) :: m) items in
                      Ok (replace_nth y (CList t items1) h1, m1, PRef y)
                  | Pickle2 =>
                      let y := length h in
                      let* (h1, m1, items1) :=
                        rebuild_items (rebuild how n') None
                          (h ++ [CList t []])%list ((a, y) :: m) items in
                      match items1 with
                      | [] => Ok (h1, m1, PRef y)
                      | _ :: _ => Raise EAttributeError
                      end
                  | Pickle01 =>
                      let* (h1, m1, items1) :=
                        rebuild_items (rebuild how n') None h m items in
                      match memo_get a m1 with
                      | Some b => Ok (h1, m1, PRef b)
                      | None => Ok (h1 ++ [CList t items1], (a, length h1) :: m1, PRef (length h1))%list
                      end
                  end
              end
          end
      end
  end.

(** ** pickle.dumps *)

Definition PicklingError : exn := EOther 1.

(** The class is saved by its module and name.  Those that
    AttributeValueClassFactory makes with type() (attributevalue.py:280-289) are
    attributes of no module. *)
Definition importable (c : ccls) : bool :=
  match c with
  | CValue k => negb (existsb (fun p => class_eqb k (snd p)) STD_CLASS_MAP) && ce_importable E k
  | _ => true
  end.
(** copyreg._reduce_ex, protocol 0 and 1: a class with __slots__ needs a __getstate__ *)
Definition reducible (how : how) (c : ccls) : bool :=
  match how, c with
  | Pickle01, CCore KPdp => false
  | _, _ => true
  end.

Section Visit.
Variable rec : list nat -> pval -> res (list nat).
Fixpoint dump_all (m : list nat) (l : list pval) : res (list nat) :=
  match l with
  | [] => Ok m
  | v :: r => let* m1 := rec m v in dump_all m1 r
  end.
End Visit.

Definition state_values (st : state) : list pval :=
  flat_map (fun p => match snd p with SVal v => [v] | SSerialised _ => [] end) st.

(** pickle.dumps visits what the object consists of and raises for what cannot be
    saved; [m] are the objects saved already.  Simplification: an object from outside
    that can be saved but not loaded counts as one that cannot be saved. *)
Fixpoint dump (how : how) (n : nat) (h : cheap) (m : list nat) (v : pval) : res (list nat) :=
  match n with
  | O => Raise ERecursionError
  | S n' =>
      match v with
      | PNat (NOther ty k) => let* _ := ce_object E ty k in Ok m
      | PNat _ | PFn _ | PAlg _ => Ok m
      | PHandler k => let* _ := ce_handler E k in Ok m
      | PXPath k => let* _ := ce_selector E k in Ok m
      | PXml x => let* _ := ce_xml E x in Ok m
      | PRef a =>
          if existsb (Nat.eqb a) m then Ok m
          else match nth_error h a with
               | None => Raise EAttributeError
               | Some (CInst c attrs) =>
                   if reducible how c then
                     let* st := getstate c attrs in
                     if importable c then dump_all (dump how n' h) (a :: m) (state_values st)
                     else Raise PicklingError
                   else Raise ETypeError
               | Some (CList _ items) =>
                   match how with
                   | Pickle01 => let* m1 := dump_all (dump how n' h) m items in Ok (a :: m1)
                   | _ => dump_all (dump how n' h) (a :: m) items
                   end
               end
      end
  end.

(** copy.deepcopy(x), and pickle.loads(pickle.dumps(x, protocol)): the heap with the
    new objects and the copy *)
Definition make_copy (how : how) (n : nat) (h : cheap) (v : pval) : res (cheap * pval) :=
  match how with
  | Deep => let* (h1, _, w) := rebuild Deep n h [] v in Ok (h1, w)
  | _ =>
      let* _ := dump how n h [] v in
      let* (h1, _, w) := rebuild how n h [] v in
      Ok (h1, w)
  end.

(** ** copy.copy *)

Fixpoint append_all (h : cheap) (t : celt) (items : list pval) : res (list pval) :=
  match items with
  | [] => Ok []
  | v :: r => if item_is h v t then let* r' := append_all h t r in Ok (v :: r')
              else Raise ETypeError
  end.

(** The state and the items go to the new object as they are.  Simplification: only
    objects and lists of this package are given to it. *)
Definition shallow_copy (h : cheap) (a : nat) : res (cheap * nat) :=
  match nth_error h a with
  | None => Raise EAttributeError
  | Some (CInst c attrs) =>
      let* st := getstate c attrs in
      let* attrs1 := setstate c st in
      Ok (h ++ [CInst c attrs1], length h)%list
  | Some (CList t items) =>
      let* items1 := append_all h t items in
      Ok (h ++ [CList t items1], length h)%list
  end.
End Copy.
