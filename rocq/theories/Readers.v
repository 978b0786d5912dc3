(** Policy readers: parsers/etree/*reader.py, with the policy finders of
    ndg/xacml/finder.

    Documents are element trees ([node]).  Simplification: the step from bytes to
    an element tree (xml.etree or lxml) is not modelled; neither is Python's
    recursion limit inside one document. *)
From Verif Require Export Base Strings Values Functions Syntax FuncMap Setters Text Registry.

(** What a reader uses besides the document: the attribute value class map
    (attributevalue.py:272, AttributeValueReader.FACTORY), the data type readers
    (attributevaluereader.py:144-165) and the shared function map.
    Simplification: looking up a function may add it to the map; the answers of
    later look-ups do not change (C28), so the map is only read here. *)
Definition dtreader : Type := node -> attrval -> res attrval.
Record renv : Type := mkRenv {
  re_cm : list (string * avclass);
  re_readers : list (string * dtreader);
  re_fmap : fmap
}.

Fixpoint foldM {A B} (f : A -> B -> res A) (l : list B) (a : A) : res A :=
  match l with
  | [] => Ok a
  | x :: xs => let* a' := f a x in foldM f xs a'
  end.

(** getElementChildren, parsers/etree/__init__.py:59-67 *)
Definition elements (kids : list node) : list node :=
  filter (fun k => match k with Elem _ _ _ _ => true | Comment _ => false end) kids.

(** [QName.getLocalPart(elem.tag)]; the tag of a comment is a function, which has
    no rsplit *)
Definition local_name (n : node) : res string :=
  match n with
  | Elem tag _ _ _ => Ok (get_local_part tag)
  | Comment _ => Raise EAttributeError
  end.

Definition el_attrs (n : node) : list (string * string) :=
  match n with Elem _ a _ _ => a | Comment _ => [] end.
Definition el_text (n : node) : option string :=
  match n with Elem _ _ t _ => t | Comment t => Some t end.
Definition el_kids (n : node) : list node :=
  match n with Elem _ _ _ k => k | Comment _ => [] end.

(** The check at the start of every reader, e.g. rulereader.py:43-46. *)
Definition expect (name : string) (n : node) : res unit :=
  let* l := local_name n in
  if String.eqb l name then Ok tt else Raise EXMLParseError.

(** Required XML attributes, e.g. rulereader.py:49-60. *)
Definition required (n : node) (attr : string) : res string :=
  match dict_get attr (el_attrs n) with
  | Some v => Ok v
  | None => Raise EXMLParseError
  end.

(** ** Expressions *)

(** ETreeDataTypeReaderBase.parse, attributevaluereader.py:91-99 *)
Definition default_dtreader : dtreader := fun n v =>
  match el_text n with
  | None => Raise EXMLParseError
  | Some t => av_set_value v (NStr t)
  end.

(** The maps after import: STD_CLASS_MAP, attributevaluereader.py:150-156 and an empty
    function map, which loads functions on demand. *)
Definition std_renv : renv :=
  mkRenv STD_CLASS_MAP (map (fun p => (fst (snd p), default_dtreader)) TYPE_TABLE) fm_new.

(** AttributeValueReader, attributevaluereader.py:33-88.  A new value object has
    the data type of its class, then the one of the element; the content reader is
    looked up by data type (KeyError if there is none, 163-165). *)
Definition read_value (E : renv) (n : node) : res attrval :=
  let* _ := expect "AttributeValue" n in
  let* dt := required n "DataType" in
  match dict_get dt (re_cm E) with
  | None => Raise EXMLParseError
  | Some c =>
      match dict_get dt (re_readers E) with
      | None => Raise EKeyError
      | Some reader => reader n (mkAV c dt NNone)
      end
  end.

Definition designator_name (k : designator_kind) : string :=
  match k with
  | DSubject => "SubjectAttributeDesignator"
  | DResource => "ResourceAttributeDesignator"
  | DAction => "ActionAttributeDesignator"
  | DEnvironment => "EnvironmentAttributeDesignator"
  end.

(** ExpressionReader, expressionreader.py:28-62, with
    AttributeDesignatorReaderBase._parseExtension,
    attributedesignatorreader.py:21-59 *)
Definition read_designator (k : designator_kind) (n : node) : res designator :=
  let* _ := expect (designator_name k) n in
  let* dt := required n "DataType" in
  let* id := required n "AttributeId" in
  let issuer := dict_get "Issuer" (el_attrs n) in
  let mbp := match dict_get "MustBePresent" (el_attrs n) with
             | Some s => str2bool s
             | None => false
             end in
  Ok (mkDesignator k (Some id) (Some dt) issuer mbp).

(** ExpressionReader with AttributeSelectorReader._parseExtension,
    attributeselectorreader.py:27-67 *)
Definition read_selector (n : node) : res selector :=
  let* _ := expect "AttributeSelector" n in
  let* dt := required n "DataType" in
  let* _ := expect "AttributeSelector" n in
  let* path := required n "RequestContextPath" in
  let mbp := match dict_get "MustBePresent" (el_attrs n) with
             | Some s => Some (str2bool s)
             | None => None
             end in
  Ok (mkSelector (Some path) (Some dt) mbp).

(** Assigning functionId (apply.py:91-142) or matchId (match.py:169-244) of a new
    object: the function loaded from the shared map. *)
Definition load_fn (E : renv) (id : string) : res fn :=
  match fst (fm_get (re_cm E) id (re_fmap E)) with
  | Raise e => Raise e
  | Ok (Some FNotImplemented) => Raise EUnsupportedStdFunctionError
  | Ok None => Raise EUnsupportedFunctionError
  | Ok (Some (FUnusable e)) => Raise e
  | Ok (Some (FImpl f)) => Ok f
  end.

(** ConditionReader, conditionreader.py:29-70, given the outcome of ApplyReader on
    each child. *)
Definition condition_of (tag : string) (kids : list (node * res expr)) : res expr :=
  if negb (String.eqb (get_local_part tag) "Condition") then Raise EXMLParseError
  else
    match filter (fun p => match fst p with Elem _ _ _ _ => true | Comment _ => false end) kids with
    | [(sub, r)] =>
        let* l := local_name sub in
        if String.eqb l "Apply" then r else Raise EXMLParseError
    | _ => Raise EXMLParseError
    end.

(** ApplyReader, applyreader.py:51-151.  There is no module
    environmentattributedesignatorreader, so that branch raises ImportError
    (factory.py:99-107); a Condition is not an Expression, so appending it to the
    expressions raises TypeError. *)
Fixpoint read_apply (E : renv) (n : node) : res expr :=
  match n with
  | Comment _ => Raise EAttributeError
  | Elem tag attrs _ kids =>
      if negb (String.eqb (get_local_part tag) "Apply") then Raise EXMLParseError
      else
        match dict_get "FunctionId" attrs with
        | None => Raise EXMLParseError
        | Some id =>
            let* f := load_fn E id in
            let* args :=
              (fix go (ks : list node) : res (list expr) :=
                 match ks with
                 | [] => Ok []
                 | k :: rest =>
                     match k with
                     | Comment _ => go rest
                     | Elem t _ _ sub =>
                         let l := get_local_part t in
                         let* e :=
                           (if String.eqb l "Apply" then read_apply E k
                            else if String.eqb l "AttributeValue" then
                              let* v := read_value E k in Ok (XValue v)
                            else if String.eqb l "SubjectAttributeDesignator" then
                              let* d := read_designator DSubject k in Ok (XDesignator d)
                            else if String.eqb l "ResourceAttributeDesignator" then
                              let* d := read_designator DResource k in Ok (XDesignator d)
                            else if String.eqb l "EnvironmentAttributeDesignator" then
                              Raise EImportError
                            else if String.eqb l "ActionAttributeDesignator" then
                              let* d := read_designator DAction k in Ok (XDesignator d)
                            else if String.eqb l "AttributeSelector" then
                              let* s := read_selector k in Ok (XSelector s)
                            else if String.eqb l "Condition" then
                              let* _ := condition_of t (map (fun c => (c, read_apply E c)) sub) in
                              Raise ETypeError
                            else if String.eqb l "Function" then Raise ENotImplementedError
                            else if String.eqb l "VariableReference" then Raise ENotImplementedError
                            else Raise EXMLParseError) in
                         let* es := go rest in
                         Ok (e :: es)
                     end
                 end) kids in
            Ok (XApply (Some id) (Some f) args)
        end
  end.

(** ConditionReader, conditionreader.py:29-70 *)
Definition read_condition (E : renv) (n : node) : res expr :=
  match n with
  | Comment _ => Raise EAttributeError
  | Elem tag _ _ kids => condition_of tag (map (fun c => (c, read_apply E c)) kids)
  end.

(** ** Targets *)

Definition match_name (k : designator_kind) : string :=
  match k with
  | DSubject => "SubjectMatch"
  | DResource => "ResourceMatch"
  | DAction => "ActionMatch"
  | DEnvironment => "EnvironmentMatch"
  end.

(** The loop body of MatchReaderBase.__call__, matchreader.py:85-120.  A child
    that is not recognised makes the error message refer to MATCH_TYPE, which
    match classes do not have.  Setting a designator removes a selector and vice
    versa (match.py:118-160), but the checks exclude that. *)
Definition match_child (E : renv) (k : designator_kind) (m : matchel) (c : node) : res matchel :=
  let* l := local_name c in
  if String.eqb l "AttributeValue" then
    let* v := read_value E c in
    Ok (mkMatch (mt_id m) (mt_fn m) (Some v) (mt_designator m) (mt_selector m))
  else if String.eqb l (designator_name k) then
    match mt_selector m with
    | Some _ => Raise EXMLParseError
    | None =>
        let* d := read_designator k c in
        Ok (mkMatch (mt_id m) (mt_fn m) (mt_value m) (Some d) None)
    end
  else if String.eqb l "AttributeSelector" then
    match mt_designator m with
    | Some _ => Raise EXMLParseError
    | None =>
        let* s := read_selector c in
        Ok (mkMatch (mt_id m) (mt_fn m) (mt_value m) None (Some s))
    end
  else Raise EAttributeError.

(** MatchReaderBase.__call__, matchreader.py:45-122, for the subject, resource and
    action match types (subjectmatchreader.py, resourcematchreader.py,
    actionmatchreader.py); for environments there is no reader module
    (factory.py:99-107). *)
Definition read_match (E : renv) (k : designator_kind) (n : node) : res matchel :=
  match k with
  | DEnvironment => Raise EImportError
  | _ =>
      let* _ := expect (match_name k) n in
      let* id := required n "MatchId" in
      let* f := load_fn E id in
      foldM (match_child E k) (elements (el_kids n)) (mkMatch (Some id) (Some f) None None None)
  end.

Definition target_child_name (k : designator_kind) : string :=
  match k with
  | DSubject => "Subject"
  | DResource => "Resource"
  | DAction => "Action"
  | DEnvironment => "Environment"
  end.

(** TargetChildReader, targetchildreader.py:25-58 *)
Definition read_target_child (E : renv) (k : designator_kind) (n : node) : res (list matchel) :=
  let* _ := expect (target_child_name k) n in
  foldM (fun ms c =>
           let* l := local_name c in
           if String.eqb l (match_name k) then
             let* m := read_match E k c in Ok (ms ++ [m])
           else Raise EXMLParseError)
        (elements (el_kids n)) [].

(** The four loops over the target's containers, targetreader.py:54-74 *)
Definition read_container (E : renv) (k : designator_kind) (acc : list (list matchel)) (n : node)
  : res (list (list matchel)) :=
  foldM (fun l c => let* ms := read_target_child E k c in Ok (l ++ [ms]))
        (elements (el_kids n)) acc.

(** TargetReader, targetreader.py:31-81 *)
Definition read_target (E : renv) (n : node) : res target :=
  let* _ := expect "Target" n in
  foldM (fun t c =>
           let* l := local_name c in
           if String.eqb l "Subjects" then
             let* x := read_container E DSubject (tg_subjects t) c in
             Ok (mkTarget x (tg_resources t) (tg_actions t) (tg_environments t))
           else if String.eqb l "Resources" then
             let* x := read_container E DResource (tg_resources t) c in
             Ok (mkTarget (tg_subjects t) x (tg_actions t) (tg_environments t))
           else if String.eqb l "Actions" then
             let* x := read_container E DAction (tg_actions t) c in
             Ok (mkTarget (tg_subjects t) (tg_resources t) x (tg_environments t))
           else if String.eqb l "Environments" then
             let* x := read_container E DEnvironment (tg_environments t) c in
             Ok (mkTarget (tg_subjects t) (tg_resources t) (tg_actions t) x)
           else Raise EXMLParseError)
        (elements (el_kids n)) (mkTarget [] [] [] []).

(** ** Rules *)

(** [rule.effect.value = s] on a new Effect, rulereader.py:62-63, rule.py:75-94 *)
Definition effect_of (s : string) : res effect :=
  match effect_set (Some "Deny") (ONat (NStr s)) with
  | (Raise e, _) => Raise e
  | (Ok _, _) => if String.eqb s "Permit" then Ok EffPermit else Ok EffDeny
  end.

(** [if childElem.text is not None: x.description = childElem.text.strip()] *)
Definition description_of (n : node) (old : option string) : option string :=
  match el_text n with Some t => Some (py_strip t) | None => old end.

(** RuleReader, rulereader.py:29-84 *)
Definition read_rule (E : renv) (n : node) : res rule :=
  let* _ := expect "Rule" n in
  let* id := required n "RuleId" in
  let* eff := required n "Effect" in
  let* ef := effect_of eff in
  foldM (fun r c =>
           let* l := local_name c in
           if String.eqb l "Description" then
             Ok (mkRule (rl_id r) (rl_effect r) (rl_target r) (rl_condition r)
                   (description_of c (rl_description r)))
           else if String.eqb l "Condition" then
             let* e := read_condition E c in
             Ok (mkRule (rl_id r) (rl_effect r) (rl_target r) (Some (Some e)) (rl_description r))
           else if String.eqb l "Target" then
             let* t := read_target E c in
             Ok (mkRule (rl_id r) (rl_effect r) (Some t) (rl_condition r) (rl_description r))
           else Raise EXMLParseError)
        (elements (el_kids n)) (mkRule (Some id) (Some ef) None None None).

(** ** Policies *)

(** PolicyDefaultsReader, policydefaultsreader.py:26-65; [len(elem)] and [elem[0]]
    count comments *)
Definition read_defaults (n : node) : res string :=
  let* _ := expect "PolicyDefaults" n in
  match el_kids n with
  | [c] =>
      let* l := local_name c in
      if String.eqb l "XPathVersion" then
        match el_text c with
        | None => Raise EXMLParseError
        | Some v => Ok v
        end
      else Raise EXMLParseError
  | _ => Raise EXMLParseError
  end.

(** [policy.ruleCombiningAlgId = id] on a new Policy, policy.py:249-289 *)
Definition rule_alg_of (id : string) : res comb_alg :=
  match policy_alg_step policy_alg_new (PASetId (ONat (NStr id))) with
  | (Raise e, _) => Raise e
  | (Ok _, s) => match pa_alg s with Some a => Ok a | None => Raise EAttributeError end
  end.

(** [policySet.policyCombiningAlgId = id] on a new PolicySet, policyset.py:240-282 *)
Definition policy_alg_of (id : string) : res comb_alg :=
  match policyset_alg_step policyset_alg_new (PASetId (ONat (NStr id))) with
  | (Raise e, _) => Raise e
  | (Ok _, s) => match pa_alg s with Some a => Ok a | None => Raise EAttributeError end
  end.

(** [elem.attrib.get("Version") or "2.0"], policyreader.py:99-100 and
    policysetreader.py:83-84 *)
Definition version_of (n : node) : string :=
  match dict_get "Version" (el_attrs n) with
  | Some (String a s) => String a s
  | _ => "2.0"
  end.

(** Policy under construction: description, xpath version, target, rules. *)
Record pacc : Type := mkPacc {
  pc_description : option string;
  pc_xpath : option string;
  pc_target : option target;
  pc_rules : list rule
}.

(** The loop body of PolicyReader.processElement, policyreader.py:103-144.  There is
    no module variabledefinitionreader (factory.py:99-107). *)
Definition policy_child (E : renv) (a : pacc) (c : node) : res pacc :=
  let* l := local_name c in
  if String.eqb l "Description" then
    Ok (mkPacc (description_of c (pc_description a)) (pc_xpath a) (pc_target a) (pc_rules a))
  else if String.eqb l "PolicyDefaults" then
    let* v := read_defaults c in
    Ok (mkPacc (pc_description a) (Some v) (pc_target a) (pc_rules a))
  else if String.eqb l "Target" then
    let* t := read_target E c in
    Ok (mkPacc (pc_description a) (pc_xpath a) (Some t) (pc_rules a))
  else if String.eqb l "CombinerParameters" then Raise ENotImplementedError
  else if String.eqb l "RuleCombinerParameters" then Raise ENotImplementedError
  else if String.eqb l "VariableDefinition" then Raise EImportError
  else if String.eqb l "Rule" then
    let* r := read_rule E c in
    if existsb (opt_eqb String.eqb (rl_id r)) (map rl_id (pc_rules a)) then Raise EXMLParseError
    else Ok (mkPacc (pc_description a) (pc_xpath a) (pc_target a) (pc_rules a ++ [r]))
  else if String.eqb l "Obligations" then Raise ENotImplementedError
  else Raise EXMLParseError.

(** PolicyReader.processElement, policyreader.py:60-153, up to the registration
    with the finder (149-150): what Policy.fromSource (policy.py:175-200) returns *)
Definition read_policy (E : renv) (n : node) : res policybase :=
  let* _ := expect "Policy" n in
  let* id := required n "PolicyId" in
  let* algId := required n "RuleCombiningAlgId" in
  let* alg := rule_alg_of algId in
  let* a := foldM (policy_child E) (elements (el_kids n)) (mkPacc None None None []) in
  Ok (PPolicy (mkMeta (Some id) (Some (version_of n)) (Some algId) (pc_description a) (pc_xpath a))
        (pc_target a) (Some alg) (pc_rules a)).

(** ** Finders *)

(** The finder object: its registry and, as a ghost, the URLs fetched so far. *)
Record fstate : Type := mkFstate {
  fs_reg : registry;
  fs_fetched : list string
}.

Inductive finder : Type :=
| LocalFinder                          (* finder/localpolicyfinder.py *)
| UrlFinder (base : option string).    (* finder/urlpolicyfinder.py *)

Section Sets.
Variable E : renv.
Variable fetch : string -> res node.   (* urlfetcher.fetch_stream_from_url, then the XML parser *)
Variable fd : finder.
(** PolicyBase.fromNestedSource, policybase.py:81-97, one level down *)
Variable nested : node -> fstate -> res (policybase * fstate).

(** Reading a Policy element with a finder, policyreader.py:149-152 *)
Definition read_policy_reg (n : node) (st : fstate) : res (policybase * fstate) :=
  let* p := read_policy E n in
  let* g := add_policy (fs_reg st) p in
  Ok (p, mkFstate g (fs_fetched st)).

(** UrlPolicyFinder._findPolicyFromReference, urlpolicyfinder.py:88-103; a
    reference element without text gives None *)
Definition find_from_reference (base : option string) (ref : option string) (st : fstate)
  : res fstate :=
  match ref with
  | None => Raise EAttributeError
  | Some r =>
      let* url := make_url base r in
      let st1 := mkFstate (fs_reg st) (fs_fetched st ++ [url]) in
      let* d := fetch url in
      let* (_, st2) := nested d st1 in
      Ok st2
  end.

(** findPolicy, localpolicyfinder.py:20-33, urlpolicyfinder.py:43-63 *)
Definition find_policy (ref : option string) (st : fstate) : res (policybase * fstate) :=
  match fd with
  | LocalFinder =>
      match key_get ref (rg_policies (fs_reg st)) with
      | Some p => Ok (p, st)
      | None => Raise EXMLParseError
      end
  | UrlFinder base =>
      let* st1 := match key_get ref (rg_policies (fs_reg st)) with
                  | Some _ => Ok st
                  | None => find_from_reference base ref st
                  end in
      match key_get ref (rg_policies (fs_reg st1)) with
      | Some p => Ok (p, st1)
      | None => Raise EXMLParseError
      end
  end.

(** findPolicySet, localpolicyfinder.py:35-48, urlpolicyfinder.py:65-86 *)
Definition find_policy_set (ref : option string) (st : fstate) : res (policybase * fstate) :=
  match fd with
  | LocalFinder =>
      match key_get ref (rg_sets (fs_reg st)) with
      | Some p => Ok (p, st)
      | None => Raise EXMLParseError
      end
  | UrlFinder base =>
      let* st1 := match key_get ref (rg_sets (fs_reg st)) with
                  | Some _ => Ok st
                  | None => find_from_reference base ref st
                  end in
      match key_get ref (rg_sets (fs_reg st1)) with
      | Some p => Ok (p, st1)
      | None => Raise EXMLParseError
      end
  end.

(** Policy set under construction: description, target, children. *)
Record sacc : Type := mkSacc {
  sc_description : option string;
  sc_target : option target;
  sc_policies : list policybase
}.

Definition sacc_add (a : sacc) (p : policybase) : sacc :=
  mkSacc (sc_description a) (sc_target a) (sc_policies a ++ [p]).

(** PolicySetReader.processElement, policysetreader.py:46-151.  PolicyDefaultsReader
    expects the name PolicyDefaults, so it rejects a PolicySetDefaults element; the
    second exception in that branch is not reached. *)
Fixpoint read_set (n : node) (st : fstate) : res (policybase * fstate) :=
  match n with
  | Comment _ => Raise EAttributeError
  | Elem tag attrs text kids =>
      if negb (String.eqb (get_local_part tag) "PolicySet") then Raise EXMLParseError
      else
        let* id := required n "PolicySetId" in
        let* algId := required n "PolicyCombiningAlgId" in
        let* alg := policy_alg_of algId in
        let* (a, st1) :=
          (fix go (ks : list node) (a : sacc) (st : fstate) : res (sacc * fstate) :=
             match ks with
             | [] => Ok (a, st)
             | k :: rest =>
                 match k with
                 | Comment _ => go rest a st
                 | Elem t _ _ _ =>
                     let l := get_local_part t in
                     let* (a', st') :=
                       (if String.eqb l "Description" then
                          Ok (mkSacc (description_of k (sc_description a)) (sc_target a)
                                (sc_policies a), st)
                        else if String.eqb l "PolicySetDefaults" then
                          let* _ := read_defaults k in Raise EAttributeError
                        else if String.eqb l "Target" then
                          let* t := read_target E k in
                          Ok (mkSacc (sc_description a) (Some t) (sc_policies a), st)
                        else if String.eqb l "CombinerParameters" then Raise ENotImplementedError
                        else if String.eqb l "PolicyCombinerParameters" then
                          Raise ENotImplementedError
                        else if String.eqb l "PolicySetCombinerParameters" then
                          Raise ENotImplementedError
                        else if String.eqb l "VariableDefinition" then Raise EImportError
                        else if String.eqb l "Policy" then
                          let* (p, st') := read_policy_reg k st in Ok (sacc_add a p, st')
                        else if String.eqb l "PolicyIdReference" then
                          let* (p, st') := find_policy (el_text k) st in Ok (sacc_add a p, st')
                        else if String.eqb l "PolicySet" then
                          let* (p, st') := read_set k st in Ok (sacc_add a p, st')
                        else if String.eqb l "PolicySetIdReference" then
                          let* (p, st') := find_policy_set (el_text k) st in Ok (sacc_add a p, st')
                        else if String.eqb l "Obligations" then Raise ENotImplementedError
                        else Raise EXMLParseError) in
                     go rest a' st'
                 end
             end) kids (mkSacc None None []) st in
        let p := PPolicySet (mkMeta (Some id) (Some (version_of n)) (Some algId)
                               (sc_description a) None)
                   (sc_target a) (Some alg) (sc_policies a) in
        let* g := add_policy_set (fs_reg st1) p in
        Ok (p, mkFstate g (fs_fetched st1))
  end.
End Sets.

(** PolicyBaseReader, policybasereader.py:30-55: what PolicyBase.fromSource
    (policybase.py:46-79) does with the root element.  [limit] bounds the nesting
    of fetched documents, as Python's recursion limit does. *)
Fixpoint read_doc (limit : nat) (E : renv) (fetch : string -> res node) (fd : finder)
  (n : node) (st : fstate) : res (policybase * fstate) :=
  match limit with
  | O => Raise ERecursionError
  | S limit' =>
      let* l := local_name n in
      if String.eqb l "Policy" then read_policy_reg E n st
      else if String.eqb l "PolicySet" then
        read_set E fetch fd (read_doc limit' E fetch fd) n st
      else Raise EXMLParseError
  end.

(** A new finder object, policyfinderbase.py:25-27 *)
Definition fstate0 : fstate := mkFstate registry0 [].
