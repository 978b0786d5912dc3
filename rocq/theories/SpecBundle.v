(** References to other documents, and documents that include them instead. *)
From Verif Require Export Readers SpecText SpecRead.

Section Included.
Variable fetch : string -> res node.
Variable base : option string.

(** [n'] is the document [n] with some of its references, at any depth, replaced by
    the documents they refer to, in which some references may be replaced too. *)
Inductive included : node -> node -> Prop :=
| included_same : forall n, included n n
| included_set : forall tag attrs text kids kids',
    called "PolicySet" (Elem tag attrs text kids) = true ->
    Forall2 child_included kids kids' ->
    included (Elem tag attrs text kids) (Elem tag attrs text kids')
with child_included : node -> node -> Prop :=
| child_inside : forall k k', included k k' -> child_included k k'
| child_replaced : forall k r url d k',
    xml_text k = Some r -> make_url base r = Ok url -> fetch url = Ok d ->
    called "Policy" d = true \/ called "PolicySet" d = true ->
    wanted k = Some (root_name d) ->
    included d k' -> child_included k k'.

(** Every reference in the document [n], or in any document on the web, that leads
    to a document leads to one that is the policy or policy set it names, and not
    merely to one that has it inside. *)
Definition well_addressed (n : node) : Prop :=
  forall k r url d,
    inside k n \/ (exists u m, fetch u = Ok m /\ inside k m) ->
    wanted k <> None -> xml_text k = Some r ->
    make_url base r = Ok url -> fetch url = Ok d -> wanted k = Some (root_name d).
End Included.
