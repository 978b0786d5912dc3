(** Reading and writing requests and responses as XML: parsers/etree/context.py.

    Simplifications: the step between bytes and element trees is not modelled.
    Writing a value that is no string raises TypeError, as lxml does (xml.etree
    raises when the tree is serialised).  [elem.getchildren()] (context.py:419) is
    the list of children, as in lxml (xml.etree of Python 3.9 and later has no such
    method).  [elem.append] copies; lxml moves a ResourceContent element. *)
From Verif Require Export Readers Response.

(** XacmlContextBase.XACML_2_0_CONTEXT_NS and _PREFIX, core/context/__init__.py:24-25 *)
Definition CONTEXT_NS : string := "urn:oasis:names:tc:xacml:2.0:context:schema:os".
Definition CONTEXT_PREFIX : string := "xacml-context".
(** Identifiers.SubjectCategory.ACCESS_SUBJECT, core/__init__.py:193 *)
Definition ACCESS_SUBJECT : string := "urn:oasis:names:tc:xacml:1.0:subject-category:access-subject".

(** [str(QName(ns, name))] *)
Definition context_tag (name : string) : string := "{" ++ CONTEXT_NS ++ "}" ++ name.

(** makeEtreeElement, parsers/etree/__init__.py:24-50, then text, children and
    further attributes.  The lxml variant passes the namespace map as the
    attributes of the element. *)
Definition make_element (lxml : bool) (tag ns_uri : string) (attrs : list (string * string))
  (text : option string) (kids : list node) : node :=
  Elem tag ((if lxml then [(CONTEXT_PREFIX, ns_uri)] else []) ++ attrs) text kids.

Section Write.
Variable lxml : bool.

(** The loop over attribute values of AttributeElementTree.toXML, context.py:380-390;
    the namespace argument is the local name by mistake. *)
Definition value_xml (v : attrval) : res node :=
  let* text := match av_value v with
               | NStr s => Ok (Some s)
               | NNone => Ok None
               | _ => Raise ETypeError
               end in
  Ok (make_element lxml (context_tag "AttributeValue") "AttributeValue" [] text []).

(** AttributeElementTree.toXML, context.py:355-392 *)
Definition attribute_xml (a : attribute) : res node :=
  match at_id a with
  | None => Raise ETypeError
  | Some id =>
      match at_dataType a with
      | None => Raise ETypeError
      | Some dt =>
          let issuer := match at_issuer a with Some i => [("Issuer", i)] | None => [] end in
          let* kids := mapM value_xml (at_values a) in
          Ok (make_element lxml (context_tag "Attribute") CONTEXT_NS
                ([("AttributeId", id); ("DataType", dt)] ++ issuer) None kids)
      end
  end.

(** The loops over attributes in toXML, e.g. context.py:144-146 *)
Definition attributes_xml (name : string) (content : list node) (attrs : list attribute) : res node :=
  let* kids := mapM attribute_xml attrs in
  Ok (make_element lxml (context_tag name) CONTEXT_NS [] None (content ++ kids)).

(** SubjectElementTree.toXML, context.py:125-148: the category is not written *)
Definition subject_xml (s : subject) : res node := attributes_xml "Subject" [] (sb_attributes s).

(** ResourceElementTree.toXML, context.py:181-215 *)
Definition resource_xml (r : resource) : res node :=
  attributes_xml "Resource" (match rs_content r with Some n => [n] | None => [] end) (rs_attributes r).

(** RequestElementTree.toXML, context.py:37-74, with ActionElementTree.toXML
    (248-271) and EnvironmentElementTree.toXML (301-324) *)
Definition request_xml (r : request) : res node :=
  let* subjects := mapM subject_xml (rq_subjects r) in
  let* resources := mapM resource_xml (rq_resources r) in
  let* action := match rq_action r with
                 | None => Raise ETypeError
                 | Some attrs => attributes_xml "Action" [] attrs
                 end in
  let* environment := match rq_environment r with
                      | None => Raise ETypeError
                      | Some attrs => attributes_xml "Environment" [] attrs
                      end in
  Ok (make_element lxml (context_tag "Request") CONTEXT_NS [] None
        (subjects ++ resources ++ [action; environment])).

(** ResultElementTree.toXML, context.py:494-526, with DecisionElementTree.toXML
    (566-589).  [attrib.append[...]] raises: a dict has no append.  Status and
    obligations are not written. *)
Definition result_xml (s : store) (r : result) : res node :=
  match rs_resourceId r with
  | Some _ => Raise EAttributeError
  | None =>
      match rs_decision r with
      | None => Raise ETypeError
      | Some d =>
          Ok (make_element lxml (context_tag "Result") CONTEXT_NS [] None
                [make_element lxml (context_tag "Decision") CONTEXT_NS []
                   (Some (decision_str (value_of s d))) []])
      end
  end.

(** ResponseElementTree.toXML, context.py:438-461 *)
Definition response_xml (s : store) (r : response) : res node :=
  let* kids := mapM (result_xml s) r in
  Ok (make_element lxml (context_tag "Response") CONTEXT_NS [] None kids).
End Write.

(** ** Reading *)

(** [obj.attributeId = elem.get(name)] with a setter that takes strings only,
    core/attribute.py:79-120 *)
Definition string_attr (name : string) (n : node) : res string :=
  match dict_get name (el_attrs n) with
  | Some s => Ok s
  | None => Raise ETypeError
  end.

(** AttributeElementTree.fromXML, context.py:394-433.  [cm] is the class map; a data
    type that is not in it gives None, which cannot be called. *)
Definition attribute_of_xml (cm : list (string * avclass)) (n : node) : res attribute :=
  let* _ := expect "Attribute" n in
  let* id := string_attr "AttributeId" n in
  let* dt := string_attr "DataType" n in
  let issuer := dict_get "Issuer" (el_attrs n) in
  match el_kids n with
  | [] => Raise EXMLParseError
  | _ =>
      let* vs := mapM (fun c =>
                   let* l := local_name c in
                   if String.eqb l "AttributeValue" then
                     match dict_get dt cm with
                     | None => Raise ETypeError
                     | Some k => av_new k (match el_text c with Some t => NStr t | None => NNone end)
                     end
                   else Raise EXMLParseError) (elements (el_kids n)) in
      Ok (mkAttribute (Some id) (Some dt) issuer vs)
  end.

(** The loops over Attribute children in fromXML, e.g. context.py:170-175: other
    elements are skipped *)
Definition attributes_of_xml (cm : list (string * avclass)) (n : node) : res (list attribute) :=
  foldM (fun l c =>
           let* name := local_name c in
           if String.eqb name "Attribute" then
             let* a := attribute_of_xml cm c in Ok (l ++ [a])
           else Ok l) (elements (el_kids n)) [].

(** SubjectElementTree.fromXML, context.py:150-176 *)
Definition subject_of_xml (cm : list (string * avclass)) (n : node) : res subject :=
  let* _ := expect "Subject" n in
  let category := match dict_get "SubjectCategory" (el_attrs n) with
                  | Some s => s
                  | None => ACCESS_SUBJECT
                  end in
  let* attrs := attributes_of_xml cm n in
  Ok (mkSubject (Some category) attrs).

(** ResourceElementTree.fromXML, context.py:217-243 *)
Definition resource_of_xml (cm : list (string * avclass)) (n : node) : res resource :=
  let* _ := expect "Resource" n in
  foldM (fun r c =>
           let* name := local_name c in
           if String.eqb name "Attribute" then
             let* a := attribute_of_xml cm c in
             Ok (mkResource (rs_content r) (rs_attributes r ++ [a]))
           else if String.eqb name "ResourceContent" then
             Ok (mkResource (Some c) (rs_attributes r))
           else Ok r) (elements (el_kids n)) (mkResource None []).

(** ActionElementTree.fromXML, context.py:273-296; EnvironmentElementTree.fromXML,
    326-349 *)
Definition part_of_xml (name : string) (cm : list (string * avclass)) (n : node) : res (list attribute) :=
  let* _ := expect name n in
  attributes_of_xml cm n.

(** RequestElementTree.fromXML, context.py:76-120.  [request.elem] is left out: it is
    used by XPath selectors only, which are oracles here. *)
Definition request_of_xml (cm : list (string * avclass)) (n : node) : res request :=
  let* _ := expect "Request" n in
  foldM (fun r c =>
           let* name := local_name c in
           if String.eqb name "Subject" then
             let* s := subject_of_xml cm c in
             Ok (mkRequest (rq_subjects r ++ [s]) (rq_resources r) (rq_action r)
                   (rq_environment r) None None)
           else if String.eqb name "Resource" then
             let* s := resource_of_xml cm c in
             Ok (mkRequest (rq_subjects r) (rq_resources r ++ [s]) (rq_action r)
                   (rq_environment r) None None)
           else if String.eqb name "Action" then
             let* a := part_of_xml "Action" cm c in
             Ok (mkRequest (rq_subjects r) (rq_resources r) (Some a) (rq_environment r) None None)
           else if String.eqb name "Environment" then
             let* a := part_of_xml "Environment" cm c in
             Ok (mkRequest (rq_subjects r) (rq_resources r) (rq_action r) (Some a) None None)
           else Raise EXMLParseError)
        (elements (el_kids n)) (mkRequest [] [] None None None None).

(** DecisionElementTree.fromXML, context.py:591-610: the value setter
    (result.py:342-361) takes the text; a missing text is no string *)
Definition decision_of_xml (n : node) : res decision :=
  let* _ := expect "Decision" n in
  match el_text n with
  | None => Raise ETypeError
  | Some s =>
      match decision_of_str s with
      | Some d => Ok d
      | None => Raise EAttributeError
      end
  end.

(** ResultElementTree.fromXML, context.py:528-561 *)
Definition result_of_xml (n : node) : res result :=
  let* _ := expect "Result" n in
  foldM (fun r c =>
           let* name := local_name c in
           if String.eqb name "Decision" then
             let* d := decision_of_xml c in
             Ok (mkResult (Some (DOwn d)) (rs_status r) (rs_resourceId r) (rs_obligations r))
           else Raise EXMLParseError)
        (elements (el_kids n)) (mkResult None None (dict_get "ResourceId" (el_attrs n)) None).

(** ResponseElementTree.fromXML, context.py:463-489 *)
Definition response_of_xml (n : node) : res response :=
  let* _ := expect "Response" n in
  mapM (fun c =>
          let* name := local_name c in
          if String.eqb name "Result" then result_of_xml c else Raise EXMLParseError)
       (elements (el_kids n)).
