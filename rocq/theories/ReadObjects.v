(** The policy readers as programs that create and change objects:
    parsers/etree/*reader.py with the setters of core/ (Objects.v) and the finders of
    ndg/xacml/finder, whose maps hold objects.  Readers.v says which policy a document
    means; here is what happens in memory while it is read. *)
From Verif Require Export Readers Objects.

(** The interpreter state while documents are read: objects and shared function map, the
    maps of the finder, and, as a ghost, the URLs fetched so far. *)
Record lstate : Type := mkLState {
  ls_os : ostate;
  ls_policies : list (option string * pval);   (* policyMap, policyfinderbase.py:26 *)
  ls_sets : list (option string * pval);       (* policySetMap, policyfinderbase.py:27 *)
  ls_fetched : list string
}.
Definition ls_heap (s : lstate) : heap := os_heap (ls_os s).
Definition with_os (s : lstate) (o : ostate) : lstate :=
  mkLState o (ls_policies s) (ls_sets s) (ls_fetched s).

(** Programs: an exception leaves the changes made before it. *)
Definition lm (A : Type) : Type := lstate -> res A * lstate.
Definition ret_l {A} (x : A) : lm A := fun s => (Ok x, s).
Definition fail_l {A} (e : exn) : lm A := fun s => (Raise e, s).
Definition lift_l {A} (r : res A) : lm A := fun s => (r, s).
Definition bind_l {A B} (m : lm A) (k : A -> lm B) : lm B := fun s =>
  match m s with
  | (Ok x, s') => k x s'
  | (Raise e, s') => (Raise e, s')
  end.
Notation "'let>' x ':=' e1 'in' e2" := (bind_l e1 (fun x => e2))
  (at level 200, x pattern, e1 at level 100, e2 at level 200, right associativity).

(** [for k in ks: f(k)] *)
Fixpoint each_l {X} (f : X -> lm unit) (ks : list X) : lm unit :=
  match ks with
  | [] => ret_l tt
  | k :: rest => let> _ := f k in each_l f rest
  end.

Section Programs.
Variable E : renv.

(** ** Statements *)

(** An operation of the API *)
Definition do_l (o : oop) : lm unit := fun s =>
  let '(r, os) := ostep (re_cm E) (ls_os s) o in (r, with_os s os).
(** [x = c()] and the like: the new object *)
Definition make_l (o : oop) : lm nat := fun s =>
  match do_l o s with
  | (Ok _, s') => (Ok (length (ls_heap s)), s')
  | (Raise e, s') => (Raise e, s')
  end.
(** [x.name] *)
Definition get_l (a : nat) (name : string) : lm pval := fun s => (get_attr (ls_heap s) a name, s).
(** [x.name = v] *)
Definition set_l (a : nat) (name : string) (v : pval) : lm unit := do_l (OSet a name v).
Definition set_str (a : nat) (name : string) (s : string) : lm unit := set_l a name (PNat (NStr s)).
(** [x.name.append(v)].  Simplification: the attribute is read after [v] was computed; no
    reader replaces a list. *)
Definition append_l (a : nat) (name : string) (v : pval) : lm unit :=
  let> l := get_l a name in
  match l with
  | PRef l => do_l (OList l (LAppend v))
  | _ => fail_l EAttributeError
  end.

(** ** Expressions *)

(** [reader.parse(elem, attributeValue)], attributevaluereader.py:87-88: the reader of the
    data type changes the value object. *)
Definition content_l (reader : dtreader) (n : node) (a : nat) : lm unit := fun s =>
  match nth_error (ls_heap s) a with
  | Some (PValue v) =>
      match reader n v with
      | Ok v' => (Ok tt, with_os s (mkOState (replace_nth a (PValue v') (ls_heap s)) (os_map (ls_os s))))
      | Raise e => (Raise e, s)
      end
  | _ => (Raise EAttributeError, s)
  end.

(** AttributeValueReader, attributevaluereader.py:33-88 *)
Definition value_l (n : node) : lm pval :=
  let> _ := lift_l (expect "AttributeValue" n) in
  let> dt := lift_l (required n "DataType") in
  match dict_get dt (re_cm E) with
  | None => fail_l EXMLParseError
  | Some c =>
      let> a := make_l (ONewValue (mkAV c (ac_id c) NNone)) in
      let> _ := set_str a "dataType" dt in
      match dict_get dt (re_readers E) with
      | None => fail_l EKeyError
      | Some reader => let> _ := content_l reader n a in ret_l (PRef a)
      end
  end.

(** ExpressionReader, expressionreader.py:28-62, with
    AttributeDesignatorReaderBase._parseExtension, attributedesignatorreader.py:21-59 *)
Definition designator_l (k : designator_kind) (n : node) : lm pval :=
  let> a := make_l (ONew (KDesignator k)) in
  let> _ := lift_l (expect (designator_name k) n) in
  let> dt := lift_l (required n "DataType") in
  let> _ := set_str a "dataType" dt in
  let> id := lift_l (required n "AttributeId") in
  let> _ := set_str a "attributeId" id in
  let> _ := match dict_get "Issuer" (el_attrs n) with
            | Some i => set_str a "issuer" i
            | None => ret_l tt
            end in
  let> _ := match dict_get "MustBePresent" (el_attrs n) with
            | Some b => set_l a "mustBePresent" (PNat (NBool (str2bool b)))
            | None => ret_l tt
            end in
  ret_l (PRef a).

(** ExpressionReader with AttributeSelectorReader._parseExtension,
    attributeselectorreader.py:27-67 *)
Definition selector_l (n : node) : lm pval :=
  let> a := make_l (ONew KSelector) in
  let> _ := lift_l (expect "AttributeSelector" n) in
  let> dt := lift_l (required n "DataType") in
  let> _ := set_str a "dataType" dt in
  let> _ := lift_l (expect "AttributeSelector" n) in
  let> path := lift_l (required n "RequestContextPath") in
  let> _ := set_str a "requestContextPath" path in
  let> _ := match dict_get "MustBePresent" (el_attrs n) with
            | Some b => set_l a "mustBePresent" (PNat (NBool (str2bool b)))
            | None => ret_l tt
            end in
  ret_l (PRef a).

(** ConditionReader, conditionreader.py:29-70, given what ApplyReader does with each
    child *)
Definition condition_with (n : node) (kids : list (node * lm pval)) : lm pval :=
  let> a := make_l (ONew KCondition) in
  let> _ := lift_l (expect "Condition" n) in
  match filter (fun p => match fst p with Elem _ _ _ _ => true | Comment _ => false end) kids with
  | [(sub, m)] =>
      let> l := lift_l (local_name sub) in
      if String.eqb l "Apply" then
        let> v := m in
        let> _ := set_l a "expression" v in
        ret_l (PRef a)
      else fail_l EXMLParseError
  | _ => fail_l EXMLParseError
  end.

(** ApplyReader, applyreader.py:51-151; see [read_apply] for the branch of
    EnvironmentAttributeDesignator.  A Condition is read and then refused by the list of
    expressions. *)
Fixpoint apply_l (n : node) : lm pval :=
  let> a := make_l (ONew KApply) in
  match n with
  | Comment _ => fail_l EAttributeError
  | Elem tag attrs _ kids =>
      if negb (String.eqb (get_local_part tag) "Apply") then fail_l EXMLParseError
      else
        match dict_get "FunctionId" attrs with
        | None => fail_l EXMLParseError
        | Some id =>
            let> _ := set_str a "functionId" id in
            let> _ :=
              (fix go (ks : list node) : lm unit :=
                 match ks with
                 | [] => ret_l tt
                 | k :: rest =>
                     match k with
                     | Comment _ => go rest
                     | Elem t _ _ sub =>
                         let l := get_local_part t in
                         let> e :=
                           (if String.eqb l "Apply" then apply_l k
                            else if String.eqb l "AttributeValue" then value_l k
                            else if String.eqb l "SubjectAttributeDesignator" then designator_l DSubject k
                            else if String.eqb l "ResourceAttributeDesignator" then designator_l DResource k
                            else if String.eqb l "EnvironmentAttributeDesignator" then fail_l EImportError
                            else if String.eqb l "ActionAttributeDesignator" then designator_l DAction k
                            else if String.eqb l "AttributeSelector" then selector_l k
                            else if String.eqb l "Condition" then
                              condition_with k (map (fun c => (c, apply_l c)) sub)
                            else if String.eqb l "Function" then fail_l ENotImplementedError
                            else if String.eqb l "VariableReference" then fail_l ENotImplementedError
                            else fail_l EXMLParseError) in
                         let> _ := append_l a "expressions" e in
                         go rest
                     end
                 end) kids in
            ret_l (PRef a)
        end
  end.

(** ConditionReader, conditionreader.py:29-70 *)
Definition condition_l (n : node) : lm pval :=
  condition_with n (map (fun c => (c, apply_l c)) (el_kids n)).

(** ** Targets *)

(** The loop body of MatchReaderBase.__call__, matchreader.py:85-120 *)
Definition match_child_l (k : designator_kind) (a : nat) (c : node) : lm unit :=
  let> l := lift_l (local_name c) in
  if String.eqb l "AttributeValue" then
    let> v := value_l c in set_l a "attributeValue" v
  else if String.eqb l (designator_name k) then
    let> other := get_l a "attributeSelector" in
    match other with
    | PNat NNone => let> v := designator_l k c in set_l a "attributeDesignator" v
    | _ => fail_l EXMLParseError
    end
  else if String.eqb l "AttributeSelector" then
    let> other := get_l a "attributeDesignator" in
    match other with
    | PNat NNone => let> v := selector_l c in set_l a "attributeSelector" v
    | _ => fail_l EXMLParseError
    end
  else fail_l EAttributeError.

(** MatchReaderBase.__call__, matchreader.py:45-122; there is no reader for
    EnvironmentMatch (factory.py:99-107) *)
Definition match_l (k : designator_kind) (n : node) : lm pval :=
  match k with
  | DEnvironment => fail_l EImportError
  | _ =>
      let> a := make_l (ONew (KMatch k)) in
      let> _ := lift_l (expect (match_name k) n) in
      let> id := lift_l (required n "MatchId") in
      let> _ := set_str a "matchId" id in
      let> _ := each_l (match_child_l k a) (elements (el_kids n)) in
      ret_l (PRef a)
  end.

(** TargetChildReader, targetchildreader.py:25-58 *)
Definition target_child_l (k : designator_kind) (n : node) : lm pval :=
  let> a := make_l (ONew (KTargetChild k)) in
  let> _ := lift_l (expect (target_child_name k) n) in
  let> _ := each_l (fun c =>
              let> l := lift_l (local_name c) in
              if String.eqb l (match_name k) then
                let> m := match_l k c in append_l a "matches" m
              else fail_l EXMLParseError) (elements (el_kids n)) in
  ret_l (PRef a).

Definition container_attr (k : designator_kind) : string :=
  match k with
  | DSubject => "subjects"
  | DResource => "resources"
  | DAction => "actions"
  | DEnvironment => "environments"
  end.

(** The four loops over the target's containers, targetreader.py:54-74 *)
Definition container_l (k : designator_kind) (a : nat) (n : node) : lm unit :=
  each_l (fun c => let> v := target_child_l k c in append_l a (container_attr k) v)
         (elements (el_kids n)).

(** TargetReader, targetreader.py:31-81 *)
Definition target_l (n : node) : lm pval :=
  let> a := make_l (ONew KTarget) in
  let> _ := lift_l (expect "Target" n) in
  let> _ := each_l (fun c =>
              let> l := lift_l (local_name c) in
              if String.eqb l "Subjects" then container_l DSubject a c
              else if String.eqb l "Resources" then container_l DResource a c
              else if String.eqb l "Actions" then container_l DAction a c
              else if String.eqb l "Environments" then container_l DEnvironment a c
              else fail_l EXMLParseError) (elements (el_kids n)) in
  ret_l (PRef a).

(** ** Rules *)

(** [if childElem.text is not None: x.description = childElem.text.strip()] *)
Definition description_l (a : nat) (c : node) : lm unit :=
  match el_text c with
  | Some t => set_str a "description" (py_strip t)
  | None => ret_l tt
  end.

(** RuleReader, rulereader.py:29-84 *)
Definition rule_l (n : node) : lm pval :=
  let> a := make_l (ONew KRule) in
  let> _ := lift_l (expect "Rule" n) in
  let> id := lift_l (required n "RuleId") in
  let> eff := lift_l (required n "Effect") in
  let> e := make_l (ONewEffect (PNat (NStr "Deny"))) in
  let> _ := set_l a "effect" (PRef e) in
  let> _ := set_str a "id" id in
  let> x := get_l a "effect" in
  let> _ := match x with PRef e => set_str e "value" eff | _ => fail_l EAttributeError end in
  let> _ := each_l (fun c =>
              let> l := lift_l (local_name c) in
              if String.eqb l "Description" then description_l a c
              else if String.eqb l "Condition" then
                let> v := condition_l c in set_l a "condition" v
              else if String.eqb l "Target" then
                let> v := target_l c in set_l a "target" v
              else fail_l EXMLParseError) (elements (el_kids n)) in
  ret_l (PRef a).

(** ** Policies *)

(** PolicyDefaultsReader, policydefaultsreader.py:26-65 *)
Definition defaults_l (n : node) : lm pval :=
  let> a := make_l (ONew KPolicyDefaults) in
  let> _ := lift_l (expect "PolicyDefaults" n) in
  match el_kids n with
  | [c] =>
      let> l := lift_l (local_name c) in
      if String.eqb l "XPathVersion" then
        match el_text c with
        | None => fail_l EXMLParseError
        | Some v => let> _ := set_str a "xpathVersion" v in ret_l (PRef a)
        end
      else fail_l EXMLParseError
  | _ => fail_l EXMLParseError
  end.

(** The key of a policy in the finder's maps: its id, None if it has none.
    Simplification: other values do not occur as ids. *)
Definition key_of (v : pval) : option string :=
  match v with PNat (NStr s) => Some s | _ => None end.

(** [\[r.name for r in l\]] *)
Fixpoint attrs_l (name : string) (items : list pval) : lm (list (option string)) :=
  match items with
  | [] => ret_l []
  | PRef r :: rest =>
      let> v := get_l r name in
      let> vs := attrs_l name rest in
      ret_l (key_of v :: vs)
  | _ :: _ => fail_l EAttributeError
  end.
(** The items of a list attribute *)
Definition items_l (a : nat) (name : string) : lm (list pval) :=
  let> l := get_l a name in
  match l with
  | PRef l => fun s => match nth_error (ls_heap s) l with
                       | Some (PTypedList _ items) => (Ok items, s)
                       | _ => (Raise ETypeError, s)
                       end
  | _ => fail_l ETypeError
  end.

(** The loop body of PolicyReader.processElement, policyreader.py:103-144 *)
Definition policy_child_l (a : nat) (c : node) : lm unit :=
  let> l := lift_l (local_name c) in
  if String.eqb l "Description" then description_l a c
  else if String.eqb l "PolicyDefaults" then
    let> v := defaults_l c in set_l a "policyDefaults" v
  else if String.eqb l "Target" then
    let> v := target_l c in set_l a "target" v
  else if String.eqb l "CombinerParameters" then fail_l ENotImplementedError
  else if String.eqb l "RuleCombinerParameters" then fail_l ENotImplementedError
  else if String.eqb l "VariableDefinition" then fail_l EImportError
  else if String.eqb l "Rule" then
    let> r := rule_l c in
    let> ids := attrs_l "id" [r] in
    let> rules := items_l a "rules" in
    let> known := attrs_l "id" rules in
    if existsb (fun i => existsb (opt_eqb String.eqb i) known) ids then fail_l EXMLParseError
    else append_l a "rules" r
  else if String.eqb l "Obligations" then fail_l ENotImplementedError
  else fail_l EXMLParseError.

(** PolicyReader.processElement, policyreader.py:60-153, up to the registration with the
    finder *)
Definition policy_l (n : node) : lm pval :=
  let> a := make_l (ONew KPolicy) in
  let> _ := lift_l (expect "Policy" n) in
  let> id := lift_l (required n "PolicyId") in
  let> algId := lift_l (required n "RuleCombiningAlgId") in
  let> _ := set_str a "policyId" id in
  let> _ := set_str a "ruleCombiningAlgId" algId in
  let> _ := set_str a "version" (version_of n) in
  let> _ := each_l (policy_child_l a) (elements (el_kids n)) in
  ret_l (PRef a).

(** ** Finders *)

Fixpoint object_for (k : option string) (d : list (option string * pval)) : option pval :=
  match d with
  | [] => None
  | (k', v) :: d' => if opt_eqb String.eqb k k' then Some v else object_for k d'
  end.

(** addPolicyReference, policyfinderbase.py:63-72 *)
Definition add_policy_l (v : pval) : lm unit :=
  match v with
  | PRef a =>
      let> id := get_l a "policyId" in
      fun s =>
        match object_for (key_of id) (ls_policies s) with
        | Some _ => (Raise EXMLParseError, s)
        | None => (Ok tt, mkLState (ls_os s) (ls_policies s ++ [(key_of id, v)]) (ls_sets s) (ls_fetched s))
        end
  | _ => fail_l EAttributeError
  end.
(** addPolicySetReference, policyfinderbase.py:74-83 *)
Definition add_policy_set_l (v : pval) : lm unit :=
  match v with
  | PRef a =>
      let> id := get_l a "policySetId" in
      fun s =>
        match object_for (key_of id) (ls_sets s) with
        | Some _ => (Raise EXMLParseError, s)
        | None => (Ok tt, mkLState (ls_os s) (ls_policies s) (ls_sets s ++ [(key_of id, v)]) (ls_fetched s))
        end
  | _ => fail_l EAttributeError
  end.

(** Reading a Policy element with a finder, policyreader.py:149-152 *)
Definition policy_reg_l (n : node) : lm pval :=
  let> v := policy_l n in
  let> _ := add_policy_l v in
  ret_l v.

Variable fetch : string -> res node.   (* see Readers.v *)
Variable fd : finder.

Section Sets.
(** PolicyBase.fromNestedSource, policybase.py:81-97, one level down *)
Variable nested : node -> lm pval.

(** UrlPolicyFinder._findPolicyFromReference, urlpolicyfinder.py:88-103 *)
Definition from_reference_l (base : option string) (ref : option string) : lm unit :=
  match ref with
  | None => fail_l EAttributeError
  | Some r =>
      let> url := lift_l (make_url base r) in
      let> d := (fun s => (fetch url, mkLState (ls_os s) (ls_policies s) (ls_sets s)
                                        (ls_fetched s ++ [url]))) in
      let> _ := nested d in
      ret_l tt
  end.

(** findPolicy and findPolicySet, localpolicyfinder.py:20-48, urlpolicyfinder.py:43-86,
    on the map chosen by [which] *)
Definition find_l (which : lstate -> list (option string * pval)) (ref : option string) : lm pval :=
  let> _ := match fd with
            | LocalFinder => ret_l tt
            | UrlFinder base => fun s =>
                match object_for ref (which s) with
                | Some _ => (Ok tt, s)
                | None => from_reference_l base ref s
                end
            end in
  fun s => match object_for ref (which s) with
           | Some v => (Ok v, s)
           | None => (Raise EXMLParseError, s)
           end.

(** PolicySetReader.processElement, policysetreader.py:46-151.  A PolicySet has no
    property policyDefaults. *)
Fixpoint set_reader_l (n : node) : lm pval :=
  let> a := make_l (ONew KPolicySet) in
  match n with
  | Comment _ => fail_l EAttributeError
  | Elem tag _ _ kids =>
      if negb (String.eqb (get_local_part tag) "PolicySet") then fail_l EXMLParseError
      else
        let> id := lift_l (required n "PolicySetId") in
        let> algId := lift_l (required n "PolicyCombiningAlgId") in
        let> _ := set_str a "policySetId" id in
        let> _ := set_str a "policyCombiningAlgId" algId in
        let> _ := set_str a "version" (version_of n) in
        let> _ :=
          (fix go (ks : list node) : lm unit :=
             match ks with
             | [] => ret_l tt
             | k :: rest =>
                 match k with
                 | Comment _ => go rest
                 | Elem t _ _ _ =>
                     let l := get_local_part t in
                     let> _ :=
                       (if String.eqb l "Description" then description_l a k
                        else if String.eqb l "PolicySetDefaults" then
                          let> v := defaults_l k in set_l a "policyDefaults" v
                        else if String.eqb l "Target" then
                          let> v := target_l k in set_l a "target" v
                        else if String.eqb l "CombinerParameters" then fail_l ENotImplementedError
                        else if String.eqb l "PolicyCombinerParameters" then
                          fail_l ENotImplementedError
                        else if String.eqb l "PolicySetCombinerParameters" then
                          fail_l ENotImplementedError
                        else if String.eqb l "VariableDefinition" then fail_l EImportError
                        else if String.eqb l "Policy" then
                          let> v := policy_reg_l k in append_l a "policies" v
                        else if String.eqb l "PolicyIdReference" then
                          let> v := find_l ls_policies (el_text k) in append_l a "policies" v
                        else if String.eqb l "PolicySet" then
                          let> v := set_reader_l k in append_l a "policies" v
                        else if String.eqb l "PolicySetIdReference" then
                          let> v := find_l ls_sets (el_text k) in append_l a "policies" v
                        else if String.eqb l "Obligations" then fail_l ENotImplementedError
                        else fail_l EXMLParseError) in
                     go rest
                 end
             end) kids in
        let> _ := add_policy_set_l (PRef a) in
        ret_l (PRef a)
  end.
End Sets.

(** PolicyBaseReader, policybasereader.py:30-55; [limit] as in [read_doc] *)
Fixpoint doc_l (limit : nat) (n : node) : lm pval :=
  match limit with
  | O => fail_l ERecursionError
  | S limit' =>
      let> l := lift_l (local_name n) in
      if String.eqb l "Policy" then policy_reg_l n
      else if String.eqb l "PolicySet" then set_reader_l (doc_l limit') n
      else fail_l EXMLParseError
  end.
End Programs.

(** Before anything is read: no objects, a new finder *)
Definition lstart : lstate := mkLState ostart [] [] [].
