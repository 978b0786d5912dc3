(** What request and response documents mean, and which requests can be written and
    read back. *)
From Verif Require Import ContextXml SpecRead.

(** ** Request documents *)

(** All children, comments included. *)
Definition xml_children (n : node) : list node :=
  match n with Elem _ _ _ kids => kids | Comment _ => [] end.

(** An AttributeValue element of data type [dt]: a value of the class registered for
    the type, which must be a class of strings, or without value if the element has
    no text. *)
Definition context_value_doc (cm : list (string * avclass)) (dt : string) (n : node) (v : attrval)
  : Prop :=
  called "AttributeValue" n = true /\
  exists c, dict_get dt cm = Some c /\
    match xml_text n with
    | Some s => ac_type c = NTStr /\ v = mkAV c (ac_id c) (NStr s)
    | None => v = mkAV c (ac_id c) NNone
    end.

Definition attribute_doc (cm : list (string * avclass)) (n : node) (a : attribute) : Prop :=
  called "Attribute" n = true /\ xml_children n <> [] /\
  exists id dt, xml_attr "AttributeId" n = Some id /\ xml_attr "DataType" n = Some dt /\
    at_id a = Some id /\ at_dataType a = Some dt /\ at_issuer a = xml_attr "Issuer" n /\
    Forall2 (context_value_doc cm dt) (elems n) (at_values a).

(** The Attribute children; other children are ignored. *)
Definition attributes_doc (cm : list (string * avclass)) (n : node) (l : list attribute) : Prop :=
  Forall2 (attribute_doc cm) (elems_called "Attribute" n) l.

Definition subject_doc (cm : list (string * avclass)) (n : node) (s : subject) : Prop :=
  called "Subject" n = true /\
  sb_category s = Some (match xml_attr "SubjectCategory" n with
                        | Some c => c
                        | None => "urn:oasis:names:tc:xacml:1.0:subject-category:access-subject"
                        end) /\
  attributes_doc cm n (sb_attributes s).

Definition resource_doc (cm : list (string * avclass)) (n : node) (r : resource) : Prop :=
  called "Resource" n = true /\
  attributes_doc cm n (rs_attributes r) /\
  last_one (fun k k' => k = k') (elems_called "ResourceContent" n) (rs_content r).

Definition part_doc (name : string) (cm : list (string * avclass)) (n : node) (l : list attribute)
  : Prop :=
  called name n = true /\ attributes_doc cm n l.

Definition request_doc (cm : list (string * avclass)) (n : node) (r : request) : Prop :=
  called "Request" n = true /\
  (forall k, In k (elems n) -> called_one_of ["Subject"; "Resource"; "Action"; "Environment"] k) /\
  Forall2 (subject_doc cm) (elems_called "Subject" n) (rq_subjects r) /\
  Forall2 (resource_doc cm) (elems_called "Resource" n) (rq_resources r) /\
  last_one (part_doc "Action" cm) (elems_called "Action" n) (rq_action r) /\
  last_one (part_doc "Environment" cm) (elems_called "Environment" n) (rq_environment r) /\
  rq_ctxHandler r = None /\ rq_selector r = None.

(** ** Response documents *)
Definition decision_doc (n : node) (d : decision) : Prop :=
  called "Decision" n = true /\
  xml_text n = Some (match d with
                     | Permit => "Permit" | Deny => "Deny"
                     | Indeterminate => "Indeterminate" | NotApplicable => "NotApplicable"
                     end).

(** A result read has a decision object of its own and neither status nor
    obligations. *)
Definition result_doc (n : node) (r : result) : Prop :=
  called "Result" n = true /\
  (forall k, In k (elems n) -> called "Decision" k = true) /\
  last_one (fun k o => exists d, decision_doc k d /\ o = DOwn d) (elems n) (rs_decision r) /\
  rs_resourceId r = xml_attr "ResourceId" n /\ rs_status r = None /\ rs_obligations r = None.

Definition response_doc (n : node) (r : response) : Prop :=
  called "Response" n = true /\
  (forall k, In k (elems n) -> called "Result" k = true) /\
  Forall2 result_doc (elems n) r.

(** ** Requests that can be exchanged *)

(** A value as it is read: of the class registered for the data type, with the
    class's own data type, a string or nothing. *)
Definition sendable_value (cm : list (string * avclass)) (dt : string) (v : attrval) : Prop :=
  dict_get dt cm = Some (av_class v) /\ av_dataType v = ac_id (av_class v) /\
  (av_value v = NNone \/ ac_type (av_class v) = NTStr /\ exists s, av_value v = NStr s).

(** An attribute with id, data type and at least one value. *)
Definition sendable_attribute (cm : list (string * avclass)) (a : attribute) : Prop :=
  at_id a <> None /\ at_values a <> [] /\
  exists dt, at_dataType a = Some dt /\ forall v, In v (at_values a) -> sendable_value cm dt v.

Definition sendable_attributes (cm : list (string * avclass)) (l : list attribute) : Prop :=
  forall a, In a l -> sendable_attribute cm a.

Definition sendable_part (cm : list (string * avclass)) (o : option (list attribute)) : Prop :=
  exists l, o = Some l /\ sendable_attributes cm l.

(** A request with action and environment, and contents in ResourceContent
    elements. *)
Definition sendable (cm : list (string * avclass)) (r : request) : Prop :=
  (forall s, In s (rq_subjects r) -> sendable_attributes cm (sb_attributes s)) /\
  (forall s, In s (rq_resources r) -> sendable_attributes cm (rs_attributes s) /\
     forall n, rs_content s = Some n -> called "ResourceContent" n = true) /\
  sendable_part cm (rq_action r) /\ sendable_part cm (rq_environment r).

(** What the receiver gets: the same request, but every subject with the category
    access-subject, and without context handler and selector. *)
Definition received (r : request) : request :=
  mkRequest
    (map (fun s => mkSubject
            (Some "urn:oasis:names:tc:xacml:1.0:subject-category:access-subject")
            (sb_attributes s)) (rq_subjects r))
    (rq_resources r) (rq_action r) (rq_environment r) None None.

(** The decision of each result, read with the current values of the shared
    decision objects. *)
Definition decisions (s : store) (r : response) : list (option decision) :=
  map (fun x => option_map (value_of s) (rs_decision x)) r.

(** Writing with either element implementation. *)
Definition exchange_request (lxml : bool) (cm : list (string * avclass)) (r : request) : res request :=
  let* n := request_xml lxml r in request_of_xml cm n.
Definition exchange_response (lxml : bool) (s : store) (r : response) : res response :=
  let* n := response_xml lxml s r in response_of_xml n.
