(** When two documents should count as the same: they differ in layout only. *)
From Verif Require Import Readers SpecRead.

(** [tag] is the name, alone or in some namespace. *)
Inductive tag_of (name : string) : string -> Prop :=
| tag_plain : tag_of name name
| tag_in : forall uri, tag_of name ("{" ++ uri ++ "}" ++ name).

(** A name: without closing brace. *)
Definition plain_name (s : string) : Prop := ~ In "}"%char (list_ascii_of_string s).

(** The XML attributes and the elements with text of XACML policies, requests and
    responses. *)
Definition xacml_attributes : list string :=
  ["PolicyId"; "PolicySetId"; "Version"; "RuleCombiningAlgId"; "PolicyCombiningAlgId"; "RuleId";
   "Effect"; "MatchId"; "FunctionId"; "AttributeId"; "DataType"; "Issuer"; "MustBePresent";
   "RequestContextPath"; "SubjectCategory"; "ResourceId"].
Definition elements_with_text : list string :=
  ["AttributeValue"; "Description"; "XPathVersion"; "PolicyIdReference"; "PolicySetIdReference";
   "Decision"].
(** The elements in which a comment counts as a child, see [C68_comment_refuted]. *)
Definition comments_count : list string := ["PolicyDefaults"; "Attribute"].

(** [alike n n']: the same elements in the same order, with the same values of the
    XACML attributes.  They may differ in
    - the namespace of each element,
    - the order of the XML attributes, and attributes XACML does not define,
    - the text of elements that have none in XACML (indentation),
    - comments, except inside [comments_count] where their number must be the same.
    The content of a resource must be literally the same. *)
Inductive alike : node -> node -> Prop :=
| alike_content : forall n, called "ResourceContent" n = true -> alike n n
| alike_elem : forall name tag tag' attrs attrs' text text' kids kids',
    plain_name name -> tag_of name tag -> tag_of name tag' -> name <> "ResourceContent" ->
    (forall a, In a xacml_attributes -> dict_get a attrs = dict_get a attrs') ->
    (In name elements_with_text -> text = text') ->
    (In name comments_count -> length kids = length kids') ->
    alike_all kids kids' ->
    alike (Elem tag attrs text kids) (Elem tag' attrs' text' kids')
with alike_all : list node -> list node -> Prop :=
| alike_nil : alike_all [] []
| alike_cons : forall n n' l l', alike n n' -> alike_all l l' -> alike_all (n :: l) (n' :: l')
| alike_comment_l : forall s l l', alike_all l l' -> alike_all (Comment s :: l) l'
| alike_comment_r : forall s l l', alike_all l l' -> alike_all l (Comment s :: l').

(** The same web of documents, up to layout. *)
Definition alike_web (fetch fetch' : string -> res node) : Prop :=
  forall u, match fetch u, fetch' u with
            | Ok d, Ok d' => alike d d'
            | Raise _, Raise _ => True
            | _, _ => False
            end.

(** All elements have proper names. *)
Inductive named : node -> Prop :=
| named_elem : forall name tag attrs text kids,
    plain_name name -> tag_of name tag -> Forall named kids -> named (Elem tag attrs text kids)
| named_comment : forall s, named (Comment s).
