(** C49, C50, C60 and C61: requests and responses as XML documents. *)
From Verif Require Import Eval SpecEval SpecRelate ContextXml SpecRead SpecContext ContextFacts.
From Verif Require Import PropertiesRelate Sample.

(** ** C49: requests survive writing and reading *)

(** With either element implementation, reading what was written gives the request
    back, up to the subject categories, exactly for the sendable requests. *)
Theorem C49_round_trip : forall lxml cm r,
  exchange_request lxml cm r = Ok (received r) <-> sendable cm r.
Proof. exact exchange_iff. Qed.

(** The receiver's policies decide as the sender's. *)
Theorem C49_same_decisions : forall lxml cm E p r r',
  self_contained r -> sendable cm r -> exchange_request lxml cm r = Ok r' ->
  policy_eval E (CtxRequest r') p = policy_eval E (CtxRequest r) p.
Proof.
  intros lxml cm E p r r' Hr Hs H. apply C49_round_trip with (lxml := lxml) in Hs.
  rewrite Hs in H. injection H as <-.
  apply C59_grouping; [split; reflexivity|exact Hr| |reflexivity|reflexivity|reflexivity].
  cbn [received rq_subjects]. rewrite map_map. reflexivity.
Qed.

(** A request without action or environment cannot be written. *)
Theorem C49_action_and_environment : forall lxml r n,
  request_xml lxml r = Ok n -> rq_action r <> None /\ rq_environment r <> None.
Proof. exact no_action_written. Qed.

(** ** C50: responses survive writing and reading *)
Theorem C50_round_trip : forall lxml s r,
  (forall x, In x r -> rs_resourceId x = None /\ rs_decision x <> None) ->
  exists r', exchange_response lxml s r = Ok r' /\
    forall s', decisions s' r' = decisions s r.
Proof.
  intros lxml s r H. destruct (response_writes lxml s r H) as (n & Hn).
  destruct (response_written lxml s r n Hn) as (r' & Hr & _ & Hd & _).
  exists r'. split; [|exact Hd]. unfold exchange_response. rewrite Hn. apply response_iff, Hr.
Qed.

(** A response with a result that has a resource id, or no decision, cannot be
    written. *)
Theorem C50_resource_id : forall lxml s r,
  (exists x, In x r /\ (rs_resourceId x <> None \/ rs_decision x = None)) ->
  exists e, response_xml lxml s r = Raise e.
Proof.
  intros lxml s r (x & Hx & H). destruct (response_xml lxml s r) as [n|e] eqn:E; [|exists e; reflexivity].
  destruct (response_written lxml s r n E) as (r' & _ & _ & _ & K). destruct (K x Hx). tauto.
Qed.

(** ** C60: what request documents mean *)
Theorem C60_request_documents : forall cm n r,
  request_of_xml cm n = Ok r <-> request_doc cm n r.
Proof. exact request_iff. Qed.

(** ** C61: what response documents mean *)
Theorem C61_response_documents : forall n r,
  response_of_xml n = Ok r <-> response_doc n r.
Proof. exact response_iff. Qed.

(** ** Cases *)

(** A request with an issuer, resource content and a subject category. *)
Definition mail : attribute :=
  mkAttribute (Some "mail") (Some (xs "string")) (Some "admin@localhost") [sstr "eve@localhost"; mkAV StringAV (xs "string") NNone].
Definition content : node := Elem "{http://example.org}ResourceContent" [] None [Elem "record" [] (Some "x") []].
Definition creq : request :=
  mkRequest [mkSubject (Some "codebase") [mail; sattr "role" [sstr "staff"]]; mkSubject None []]
    [mkResource (Some content) [sattr "url" [sstr "http://localhost/data"]]]
    (Some [sattr "action" [sstr "read"]]) (Some []) None None.

Example C49_case_sendable : sendable STD_CLASS_MAP creq /\ self_contained creq.
Proof.
  assert (V : forall s, sendable_value STD_CLASS_MAP (xs "string") (sstr s)).
  { intros s. split; [reflexivity|]. split; [reflexivity|]. right. split; [reflexivity|].
    exists s. reflexivity. }
  assert (A : forall id s, sendable_attribute STD_CLASS_MAP (sattr id [sstr s])).
  { intros id s. split; [discriminate|]. split; [discriminate|]. exists (xs "string").
    split; [reflexivity|]. intros v [<-|[]]. apply V. }
  assert (M : sendable_attribute STD_CLASS_MAP mail).
  { split; [discriminate|]. split; [discriminate|]. exists (xs "string").
    split; [reflexivity|]. intros v [<-|[<-|[]]]; [apply V|].
    split; [reflexivity|]. split; [reflexivity|]. left. reflexivity. }
  split; [|split; reflexivity].
  split; [intros s [<-|[<-|[]]]; [intros a [<-|[<-|[]]]; [apply M|apply A]|intros a []]|].
  split; [intros s [<-|[]]; split; [intros a [<-|[]]; apply A|intros n [= <-]; reflexivity]|].
  split; eexists; (split; [reflexivity|]); [intros a [<-|[]]; apply A|intros a []].
Qed.

Example C49_case : forall lxml,
  exchange_request lxml STD_CLASS_MAP creq =
  Ok (mkRequest [mkSubject (Some ACCESS_SUBJECT) [mail; sattr "role" [sstr "staff"]];
                 mkSubject (Some ACCESS_SUBJECT) []]
        (rq_resources creq) (rq_action creq) (Some []) None None).
Proof. intros []; vm_compute; reflexivity. Qed.

(** An integer value is written but not read. *)
Example C49_integer : exists e, exchange_request false STD_CLASS_MAP
  (mkRequest [] [] (Some [mkAttribute (Some "n") (Some (xs "integer")) None [sint 1]]) (Some []) None None)
  = Raise e.
Proof. eexists. vm_compute. reflexivity. Qed.

Definition some_store : store := fun d => d.
Definition cresp : response :=
  [mkResult (Some (DShared Deny)) None None None; mkResult (Some (DOwn Permit)) None None None].
Example C50_case : forall lxml, exchange_response lxml some_store cresp =
  Ok [mkResult (Some (DOwn Deny)) None None None; mkResult (Some (DOwn Permit)) None None None].
Proof. intros []; vm_compute; reflexivity. Qed.
Example C50_case_id :
  response_xml true some_store [mkResult (Some (DOwn Permit)) None (Some "doc") None] = Raise EAttributeError.
Proof. reflexivity. Qed.

Definition request_text (kids : list node) : node :=
  Elem "{urn:other}Request" [] (Some "text is ignored") (Comment "comment" :: kids).
Definition value_text (s : option string) : node := Elem "AttributeValue" [] s [].
Definition attribute_text (vs : list node) : node :=
  Elem "Attribute" [("DataType", xs "string"); ("AttributeId", "a"); ("Issuer", "i")] None vs.
Example C60_case :
  request_of_xml STD_CLASS_MAP
    (request_text [Elem "Environment" [] None []; Elem "Action" [] None [attribute_text [value_text None]];
       Elem "Subject" [("SubjectCategory", "codebase")] None
         [Elem "Unknown" [] None []; attribute_text [value_text (Some "x"); Comment "c"; value_text (Some "")]];
       Elem "Environment" [] None [attribute_text [Comment "no values"]]]) =
  Ok (mkRequest
        [mkSubject (Some "codebase") [mkAttribute (Some "a") (Some (xs "string")) (Some "i") [sstr "x"; sstr ""]]]
        [] (Some [mkAttribute (Some "a") (Some (xs "string")) (Some "i") [mkAV StringAV (xs "string") NNone]])
        (Some [mkAttribute (Some "a") (Some (xs "string")) (Some "i") []]) None None) /\
  request_of_xml STD_CLASS_MAP (request_text [Elem "Subjects" [] None []]) = Raise EXMLParseError /\
  request_of_xml STD_CLASS_MAP (request_text [Elem "Action" [] None [attribute_text []]]) = Raise EXMLParseError.
Proof. vm_compute. auto. Qed.

Example C61_case :
  response_of_xml (Elem "Response" [] None
    [Elem "Result" [("ResourceId", "doc")] None [Comment "c"; Elem "Decision" [] (Some "Deny") []];
     Elem "Result" [] None []]) =
  Ok [mkResult (Some (DOwn Deny)) None (Some "doc") None; mkResult None None None None] /\
  response_of_xml (Elem "Response" [] None [Elem "Result" [] None [Elem "Status" [] None []]])
    = Raise EXMLParseError /\
  response_of_xml (Elem "Response" [] None [Elem "Result" [] None [Elem "Decision" [] (Some "deny") []]])
    = Raise EAttributeError.
Proof. vm_compute. auto. Qed.

Print Assumptions C49_round_trip.
Print Assumptions C49_same_decisions.
Print Assumptions C49_action_and_environment.
Print Assumptions C50_round_trip.
Print Assumptions C50_resource_id.
Print Assumptions C60_request_documents.
Print Assumptions C61_response_documents.
