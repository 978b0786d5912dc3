(** What can be wrong with a policy document, and the exception that says so. *)
From Verif Require Import Readers ContextXml SpecText SpecSetters SpecRead.
Open Scope string_scope.

(** The elements whose children are read, with the names of those that are understood,
    of those that are recognised but not implemented, and of those whose reader class
    does not exist. *)
Record content : Type := mkContent { understood : list string; not_implemented : list string; no_class : list string }.
Definition contents : list (string * content) :=
  [ ("Policy", mkContent ["Description"; "PolicyDefaults"; "Target"; "Rule"]
       ["CombinerParameters"; "RuleCombinerParameters"; "Obligations"] ["VariableDefinition"]);
    ("PolicySet", mkContent ["Description"; "PolicySetDefaults"; "Target"; "Policy"; "PolicySet";
                             "PolicyIdReference"; "PolicySetIdReference"]
       ["CombinerParameters"; "PolicyCombinerParameters"; "PolicySetCombinerParameters"; "Obligations"]
       ["VariableDefinition"]);
    ("Rule", mkContent ["Description"; "Condition"; "Target"] [] []);
    ("Target", mkContent ["Subjects"; "Resources"; "Actions"; "Environments"] [] []);
    ("Subjects", mkContent ["Subject"] [] []); ("Resources", mkContent ["Resource"] [] []);
    ("Actions", mkContent ["Action"] [] []); ("Environments", mkContent ["Environment"] [] []);
    ("Subject", mkContent ["SubjectMatch"] [] []); ("Resource", mkContent ["ResourceMatch"] [] []);
    ("Action", mkContent ["ActionMatch"] [] []); ("Environment", mkContent [] [] ["EnvironmentMatch"]);
    ("Apply", mkContent ["Apply"; "AttributeValue"; "SubjectAttributeDesignator"; "ResourceAttributeDesignator";
                         "ActionAttributeDesignator"; "AttributeSelector"; "Condition"]
       ["Function"; "VariableReference"] ["EnvironmentAttributeDesignator"]) ].
(** Elements that say what is to match. *)
Definition matches : list (string * string) :=
  [("SubjectMatch", "SubjectAttributeDesignator"); ("ResourceMatch", "ResourceAttributeDesignator");
   ("ActionMatch", "ActionAttributeDesignator")].

(** The XML attributes that an element must have. *)
Definition needed : list (string * string) :=
  [("Policy", "PolicyId"); ("Policy", "RuleCombiningAlgId");
   ("PolicySet", "PolicySetId"); ("PolicySet", "PolicyCombiningAlgId");
   ("Rule", "RuleId"); ("Rule", "Effect"); ("Apply", "FunctionId");
   ("SubjectMatch", "MatchId"); ("ResourceMatch", "MatchId"); ("ActionMatch", "MatchId");
   ("AttributeValue", "DataType");
   ("SubjectAttributeDesignator", "DataType"); ("SubjectAttributeDesignator", "AttributeId");
   ("ResourceAttributeDesignator", "DataType"); ("ResourceAttributeDesignator", "AttributeId");
   ("ActionAttributeDesignator", "DataType"); ("ActionAttributeDesignator", "AttributeId");
   ("AttributeSelector", "DataType"); ("AttributeSelector", "RequestContextPath")].
(** Those that name a function. *)
Definition function_names : list (string * string) :=
  [("Apply", "FunctionId"); ("SubjectMatch", "MatchId"); ("ResourceMatch", "MatchId"); ("ActionMatch", "MatchId")].

(** The function map gives no implementation of [id]: looking it up raises, or there is
    none, or it cannot be instantiated. *)
Inductive no_function (E : renv) (id : string) : exn -> Prop :=
| nf_raises : forall e, fst (fm_get (re_cm E) id (re_fmap E)) = Raise e -> no_function E id e
| nf_standard : fst (fm_get (re_cm E) id (re_fmap E)) = Ok (Some FNotImplemented) ->
    no_function E id EUnsupportedStdFunctionError
| nf_none : fst (fm_get (re_cm E) id (re_fmap E)) = Ok None -> no_function E id EUnsupportedFunctionError
| nf_unusable : forall e, fst (fm_get (re_cm E) id (re_fmap E)) = Ok (Some (FUnusable e)) -> no_function E id e.

Section Mistakes.
Variable E : renv.

(** [mistake m e]: something is wrong with the element [m] itself, its attributes, its
    text or the names of its children, and [e] is the exception for it. *)
Inductive mistake (m : node) : exn -> Prop :=
(* attributes *)
| lacks_attribute : forall tag a, In (tag, a) needed -> called tag m = true -> xml_attr a m = None ->
    mistake m EXMLParseError
| lacks_function : forall tag a id e, In (tag, a) function_names -> called tag m = true ->
    xml_attr a m = Some id -> no_function E id e -> mistake m e
| bad_effect : forall s, called "Rule" m = true -> xml_attr "Effect" m = Some s -> s <> "Permit" -> s <> "Deny" ->
    mistake m EAttributeError
| bad_rule_algorithm : forall id, called "Policy" m = true -> xml_attr "RuleCombiningAlgId" m = Some id ->
    rule_algorithm id = None -> mistake m ETypeError
| bad_policy_algorithm : forall id, called "PolicySet" m = true -> xml_attr "PolicyCombiningAlgId" m = Some id ->
    policy_algorithm id = None -> mistake m ETypeError
(* values *)
| unknown_type : forall dt, called "AttributeValue" m = true -> xml_attr "DataType" m = Some dt ->
    dict_get dt (re_cm E) = None -> mistake m EXMLParseError
| no_value_reader : forall dt, called "AttributeValue" m = true -> xml_attr "DataType" m = Some dt ->
    dict_get dt (re_readers E) = None -> mistake m EKeyError
| no_text : called "AttributeValue" m = true -> xml_text m = None -> mistake m EXMLParseError
| not_a_string_type : forall dt c, called "AttributeValue" m = true -> xml_attr "DataType" m = Some dt ->
    dict_get dt (re_cm E) = Some c -> ac_type c <> NTStr -> mistake m ETypeError
(* children *)
| stray_child : forall tag ct c, In (tag, ct) contents -> called tag m = true -> In c (elems m) ->
    ~ called_one_of (understood ct ++ not_implemented ct ++ no_class ct) c -> mistake m EXMLParseError
| unimplemented_child : forall tag ct c, In (tag, ct) contents -> called tag m = true -> In c (elems m) ->
    called_one_of (not_implemented ct) c -> mistake m ENotImplementedError
| classless_child : forall tag ct c, In (tag, ct) contents -> called tag m = true -> In c (elems m) ->
    called_one_of (no_class ct) c -> mistake m EImportError
| stray_in_match : forall tag d c, In (tag, d) matches -> called tag m = true -> In c (elems m) ->
    ~ called_one_of ["AttributeValue"; d; "AttributeSelector"] c -> mistake m EAttributeError
| two_sources : forall tag d, In (tag, d) matches -> called tag m = true ->
    elems_called d m <> [] -> elems_called "AttributeSelector" m <> [] -> mistake m EXMLParseError
| bad_condition : called "Condition" m = true -> ~ (exists k, elems m = [k] /\ called "Apply" k = true) ->
    mistake m EXMLParseError
| condition_in_apply : forall c, called "Apply" m = true -> In c (elems m) -> called "Condition" c = true ->
    mistake m ETypeError
| same_rule_twice : forall l1 k1 l2 k2 l3 id, called "Policy" m = true ->
    elems m = (l1 ++ k1 :: l2 ++ k2 :: l3)%list -> called "Rule" k1 = true -> called "Rule" k2 = true ->
    xml_attr "RuleId" k1 = Some id -> xml_attr "RuleId" k2 = Some id -> mistake m EXMLParseError
| bad_defaults : called "PolicyDefaults" m = true -> (forall v, ~ defaults_doc m v) ->
    (forall tag attrs text t, m <> Elem tag attrs text [Comment t]) -> mistake m EXMLParseError
| comment_in_defaults : forall tag attrs text t, called "PolicyDefaults" m = true ->
    m = Elem tag attrs text [Comment t] -> mistake m EAttributeError
| set_defaults : forall c, called "PolicySet" m = true -> In c (elems m) -> called "PolicySetDefaults" c = true ->
    mistake m EXMLParseError.
End Mistakes.

(** [m] is an element of the document [n] that is read: [n] itself or below it through
    elements whose children are read. *)
Definition with_children : list string := (map fst contents ++ map fst matches ++ ["Condition"])%list.
Inductive part (m : node) : node -> Prop :=
| part_self : part m m
| part_below : forall n k, called_one_of with_children n -> In k (elems n) -> part m k -> part m n.

(** The document has a mistake for which [e] is the exception. *)
Definition wrong (E : renv) (n : node) (e : exn) : Prop := exists m, part m n /\ mistake E m e.

(** ** Documents with policy sets *)
Section Documents.
Variable E : renv.
Variable fetch : string -> res node.
Variable fd : finder.

(** [refuses n K e]: the document [n], when the policies [K] are known, is refused with
    the exception [e].  The members before the one at fault are read (see C45). *)
Inductive refuses : node -> list policybase -> exn -> Prop :=
| refuses_comment : forall text K, refuses (Comment text) K EAttributeError
| refuses_root : forall tag attrs text kids K,
    ~ called_one_of ["Policy"; "PolicySet"] (Elem tag attrs text kids) ->
    refuses (Elem tag attrs text kids) K EXMLParseError
| refuses_policy : forall n K e, called "Policy" n = true -> wrong E n e -> refuses n K e
| refuses_taken : forall n K p, policy_doc E n p -> In (name_of p) (map name_of K) -> refuses n K EXMLParseError
| refuses_set : forall n K e, called "PolicySet" n = true -> mistake E n e -> refuses n K e
| refuses_target : forall n k K e, called "PolicySet" n = true -> In k (elems_called "Target" n) ->
    wrong E k e -> refuses n K e
| refuses_for_member : forall n pre k post K K1 urls ps e, called "PolicySet" n = true ->
    members n = (pre ++ k :: post)%list -> reads_members E fetch fd pre K K1 urls ps ->
    member_refused k K1 e -> refuses n K e
| refuses_set_taken : forall n id K K' urls ps, called "PolicySet" n = true ->
    reads_members E fetch fd (members n) K K' urls ps ->
    xml_attr "PolicySetId" n = Some id -> In (SetName (Some id)) (map name_of K') ->
    refuses n K EXMLParseError
with member_refused : node -> list policybase -> exn -> Prop :=
| refused_inline : forall k K e, wanted k = None -> refuses k K e -> member_refused k K e
| refused_unknown : forall k x K, fd = LocalFinder -> wanted k = Some x -> ~ In x (map name_of K) ->
    member_refused k K EXMLParseError
| refused_no_text : forall base k x K, fd = UrlFinder base -> wanted k = Some x -> ~ In x (map name_of K) ->
    xml_text k = None -> member_refused k K EAttributeError
| refused_url : forall base k x r K e, fd = UrlFinder base -> wanted k = Some x -> ~ In x (map name_of K) ->
    xml_text k = Some r -> make_url base r = Raise e -> member_refused k K e
| refused_fetch : forall base k x r url K e, fd = UrlFinder base -> wanted k = Some x -> ~ In x (map name_of K) ->
    xml_text k = Some r -> make_url base r = Ok url -> fetch url = Raise e -> member_refused k K e
| refused_document : forall base k x r url d K e, fd = UrlFinder base -> wanted k = Some x ->
    ~ In x (map name_of K) -> xml_text k = Some r -> make_url base r = Ok url -> fetch url = Ok d ->
    refuses d K e -> member_refused k K e
| refused_not_there : forall base k x r url d K K' urls q, fd = UrlFinder base -> wanted k = Some x ->
    ~ In x (map name_of K) -> xml_text k = Some r -> make_url base r = Ok url -> fetch url = Ok d ->
    reads E fetch fd d K K' urls q -> ~ In x (map name_of K') -> member_refused k K EXMLParseError.
End Documents.

(** ** Requests and responses *)

(** Elements whose children are read, with the names of those that are. *)
Definition context_children : list (string * list string) :=
  [("Request", ["Subject"; "Resource"; "Action"; "Environment"]);
   ("Subject", ["Attribute"]); ("Resource", ["Attribute"]); ("Action", ["Attribute"]); ("Environment", ["Attribute"]);
   ("Response", ["Result"]); ("Result", ["Decision"])].
(** Those in which nothing else may occur. *)
Definition closed_elements : list string := ["Request"; "Response"; "Result"].

Inductive context_mistake (cm : list (string * avclass)) (m : node) : exn -> Prop :=
| cm_stray : forall tag names c, In tag closed_elements -> In (tag, names) context_children ->
    called tag m = true -> In c (elems m) -> ~ called_one_of names c -> context_mistake cm m EXMLParseError
| cm_attribute : forall a, In a ["AttributeId"; "DataType"] -> called "Attribute" m = true ->
    xml_attr a m = None -> context_mistake cm m ETypeError
| cm_empty : forall tag attrs text, called "Attribute" m = true -> m = Elem tag attrs text [] ->
    context_mistake cm m EXMLParseError
| cm_not_value : forall c, called "Attribute" m = true -> In c (elems m) -> called "AttributeValue" c = false ->
    context_mistake cm m EXMLParseError
| cm_type : forall c dt, called "Attribute" m = true -> In c (elems m) -> called "AttributeValue" c = true ->
    xml_attr "DataType" m = Some dt -> dict_get dt cm = None -> context_mistake cm m ETypeError
| cm_value : forall c dt k, called "Attribute" m = true -> In c (elems m) -> called "AttributeValue" c = true ->
    xml_attr "DataType" m = Some dt -> dict_get dt cm = Some k -> ac_type k <> NTStr -> xml_text c <> None ->
    context_mistake cm m ETypeError
| cm_no_decision : called "Decision" m = true -> xml_text m = None -> context_mistake cm m ETypeError
| cm_decision : forall s, called "Decision" m = true -> xml_text m = Some s ->
    ~ In s ["Permit"; "Deny"; "Indeterminate"; "NotApplicable"] -> context_mistake cm m EAttributeError.

(** [m] is an element that is read when [n] is. *)
Inductive context_part (m : node) : node -> Prop :=
| cp_self : context_part m m
| cp_below : forall tag names n k, In (tag, names) context_children -> called tag n = true ->
    In k (elems n) -> called_one_of names k -> context_part m k -> context_part m n.
Definition context_wrong (cm : list (string * avclass)) (n : node) (e : exn) : Prop :=
  exists m, context_part m n /\ context_mistake cm m e.
(** A root element with another name, or a comment. *)
Definition wrong_root (tag : string) (n : node) (e : exn) : Prop :=
  called tag n = false /\ e = match n with Elem _ _ _ _ => EXMLParseError | Comment _ => EAttributeError end.
