(** C68: documents that differ in layout only are read the same. *)
From Verif Require Import Readers SpecText SpecSetters SpecRead ContextXml SpecContext Service SpecService SpecAlike.
From Verif Require Import ReadFacts ReadFacts3 ReadFacts4 ContextFacts AlikeFacts.
From Coq Require Import Permutation.
From Verif Require Import PropertiesRead PropertiesContext PropertiesService Sample.

(** ** C68: layout does not matter *)

(** Policies. *)
Theorem C68_policy : forall E d d' p, default_readers E -> alike d d' ->
  (read_policy E d = Ok p <-> read_policy E d' = Ok p).
Proof.
  intros E d d' p HE H. rewrite !(read_policy_iff E HE). split; apply policy_alike; [exact H|apply alike_sym, H].
Qed.

(** Policy sets with references, from a web of documents: the same policy is read, the
    same documents are fetched and the same policies are known afterwards. *)
Theorem C68_policy_set : forall E fetch fetch' fd K F d d' p st, default_readers E ->
  NoDup (map name_of K) -> alike d d' -> alike_web fetch fetch' ->
  ((exists limit, read_doc limit E fetch fd d (mkFstate (holding K) F) = Ok (p, st)) <->
   (exists limit, read_doc limit E fetch' fd d' (mkFstate (holding K) F) = Ok (p, st))).
Proof.
  intros E f f' fd K F d d' p st HE Hnd H Hw.
  rewrite (C45_read_iff E f fd K F d p st HE Hnd), (C45_read_iff E f' fd K F d' p st HE Hnd).
  split; intros (K' & U & Hr & ->); exists K', U; (split; [|reflexivity]).
  - exact (proj1 (reads_alike E f f' Hw fd) _ _ _ _ _ Hr d' H).
  - exact (proj1 (reads_alike E f' f (alike_web_sym _ _ Hw) fd) _ _ _ _ _ Hr d (alike_sym _ _ H)).
Qed.

(** Requests and responses. *)
Theorem C68_request : forall cm n n' r, alike n n' ->
  (request_of_xml cm n = Ok r <-> request_of_xml cm n' = Ok r).
Proof.
  intros cm n n' r H. rewrite !C60_request_documents.
  split; apply request_alike; [exact H|apply alike_sym, H].
Qed.
Theorem C68_response : forall n n' r, alike n n' ->
  (response_of_xml n = Ok r <-> response_of_xml n' = Ok r).
Proof.
  intros n n' r H. rewrite !C61_response_documents.
  split; apply response_alike; [exact H|apply alike_sym, H].
Qed.

(** Decisions: the answers are the same whatever the layout of the policy, of the
    documents it refers to and of the request. *)
Theorem C68_answer : forall lxml RE fetch fetch' fd EE cm handler selector pd pd' rd rd' d,
  default_readers RE -> alike pd pd' -> alike_web fetch fetch' -> alike rd rd' ->
  ((exists limit out,
      answers lxml limit RE fetch fd EE cm handler selector pd rd = Ok out /\ answer_doc out d) <->
   (exists limit out,
      answers lxml limit RE fetch' fd EE cm handler selector pd' rd' = Ok out /\ answer_doc out d)).
Proof.
  intros lxml RE f f' fd EE cm h x pd pd' rd rd' d HE Hp Hw Hr. rewrite !(C65_answer _ _ _ _ _ _ _ _ _ _ _ HE).
  split; intros (K & U & p & c & Hrd & (r & Hc & ->) & He); exists K, U, p; eexists; (split; [|split; [|exact He]]).
  - exact (proj1 (reads_alike RE f f' Hw fd) _ _ _ _ _ Hrd pd' Hp).
  - exists r. split; [exact (request_alike cm rd rd' r Hr Hc)|reflexivity].
  - exact (proj1 (reads_alike RE f' f (alike_web_sym _ _ Hw) fd) _ _ _ _ _ Hrd pd (alike_sym _ _ Hp)).
  - exists r. split; [exact (request_alike cm rd' rd r (alike_sym _ _ Hr) Hc)|reflexivity].
Qed.

(** Being alike is a symmetric relation that holds between every document and itself,
    and between documents that differ in the order of the XML attributes. *)
Theorem C68_alike : forall n n', alike n n' -> alike n' n.
Proof. exact alike_sym. Qed.
Theorem C68_attribute_order : forall tag attrs attrs' text kids,
  named (Elem tag attrs text kids) -> called "ResourceContent" (Elem tag attrs text kids) = false ->
  NoDup (map fst attrs) -> Permutation attrs attrs' ->
  alike (Elem tag attrs text kids) (Elem tag attrs' text kids).
Proof.
  intros tag attrs attrs' text kids Hn Hr Hnd Hp. inversion Hn as [name ? ? ? ? Hpl Ht Hk|]; subst.
  rewrite (called_tag name) in Hr by (auto; apply brace_free_iff; reflexivity). apply String.eqb_neq in Hr.
  apply alike_elem with (name := name); auto.
  - intros a _. exact (dict_get_permutation _ a attrs attrs' Hnd Hp).
  - apply alike_all_refl, Hk.
Qed.

(** A comment does matter in two places: in PolicyDefaults the document is then
    rejected; an Attribute element without values is rejected, but accepted with a
    comment in it. *)
Theorem C68_comment_refuted :
  (exists E tag attrs text kids p tag1 attrs1 text1 kids1 s,
     read_policy E (Elem tag attrs text (Elem tag1 attrs1 text1 kids1 :: kids)) = Ok p /\
     forall p', read_policy E (Elem tag attrs text (Elem tag1 attrs1 text1 (Comment s :: kids1) :: kids)) <> Ok p') /\
  (exists cm attrs s r,
     let req kids := Elem "Request" [] None [Elem "Subject" [] None [Elem "Attribute" attrs None kids]] in
     request_of_xml cm (req [Comment s]) = Ok r /\ forall r', request_of_xml cm (req []) <> Ok r').
Proof.
  split.
  - exists std_renv, "Policy", [("PolicyId", "p"); ("RuleCombiningAlgId", deny_overrides)], None, [].
    eexists. exists "PolicyDefaults", [], None, [Elem "XPathVersion" [] (Some "1.0") []], "note". split.
    + vm_compute. reflexivity.
    + intros p'. vm_compute. discriminate.
  - exists STD_CLASS_MAP, [("AttributeId", "mail"); ("DataType", xs "string")], "none".
    eexists. split; [vm_compute; reflexivity|]. intros r'. vm_compute. discriminate.
Qed.

(** The policy of C65 without namespaces, with comments, indentation and a schema
    location. *)
Definition plain_rule (id effect role : string) : node :=
  Elem "Rule" [("Effect", effect); ("RuleId", id)] (Some " ")
    [Elem "Target" [] None [Comment "who"; Elem "Subjects" [] (Some "  ") [Elem "Subject" [] None
       [Elem "SubjectMatch" [("MatchId", string_equal)] None
          [Elem "AttributeValue" [("DataType", xs "string")] (Some role) []; Comment "or";
           Elem "{urn:x}SubjectAttributeDesignator"
             [("MustBePresent", "true"); ("AttributeId", "role"); ("DataType", xs "string"); ("hint", "x")] (Some " ") []]]]]].
Definition plain_doc : node :=
  Elem "{urn:other}Policy" [("schemaLocation", "x.xsd"); ("PolicyId", "roles"); ("RuleCombiningAlgId", deny_overrides)] (Some "
")
    [Comment "roles"; plain_rule "a" "Permit" "staff"; plain_rule "b" "Deny" "guest"; Comment "end"].

Ltac alike_tac :=
  repeat first
    [ apply alike_nil | apply alike_comment_l | apply alike_comment_r | apply alike_cons
    | match goal with
      | |- alike (Elem (String.append _ (String.append _ (String.append _ ?t))) _ _ _) _ =>
          apply alike_elem with (name := t);
          [ apply brace_free_iff; reflexivity
          | exact (tag_in _ "urn:oasis:names:tc:xacml:2.0:policy:schema:os")
          | first [apply tag_plain | exact (tag_in _ "urn:other") | exact (tag_in _ "urn:x")]
          | discriminate
          | intros a Ha; cbn [In xacml_attributes] in Ha; repeat (destruct Ha as [<-|Ha]; [reflexivity|]); destruct Ha
          | cbn; intuition discriminate | cbn; intuition discriminate | ]
      end ].
Example C68_case : alike roles_doc plain_doc /\
  exists out, answers false 5 std_renv no_web LocalFinder sE STD_CLASS_MAP None None plain_doc
                (role_request ["staff"; "guest"]) = Ok out /\ answer_doc out Deny.
Proof.
  split.
  - unfold roles_doc, role_policy, role_rule, plain_doc, plain_rule, d_value, d_designator, xe, el. alike_tac.
  - eexists. split; [vm_compute; reflexivity|]. split; [reflexivity|]. eexists. split; [reflexivity|].
    split; [reflexivity|]. eexists. split; [reflexivity|]. split; reflexivity.
Qed.
Example C68_case_web : alike_web no_web no_web.
Proof. intros u. exact I. Qed.

Print Assumptions C68_policy.
Print Assumptions C68_policy_set.
Print Assumptions C68_request.
Print Assumptions C68_response.
Print Assumptions C68_answer.
Print Assumptions C68_alike.
Print Assumptions C68_attribute_order.
Print Assumptions C68_comment_refuted.
