(** What exactly a document that cannot be read leaves in the finder. *)
From Verif Require Export Readers SpecText SpecSetters SpecRead.
Local Open Scope string_scope.
Local Open Scope list_scope.

(** A policy set element whose own attributes are in order. *)
Definition set_begun (n : node) : Prop :=
  called "PolicySet" n = true /\
  exists id algId alg, xml_attr "PolicySetId" n = Some id /\
    xml_attr "PolicyCombiningAlgId" n = Some algId /\ policy_algorithm algId = Some alg.

(** A child that stands for a policy or policy set. *)
Definition stands (k : node) : bool :=
  called "Policy" k || called "PolicySet" k || called "PolicyIdReference" k || called "PolicySetIdReference" k.
(** Another child that is in order: a description, or a target with a meaning. *)
Definition in_order (E : renv) (k : node) : Prop :=
  called "Description" k = true \/ (called "Target" k = true /\ exists t, target_doc E k t).

Section Left.
Variable E : renv.
Variable fetch : string -> res node.
Variable fd : finder.

(** [left_by n K K1]: the document [n] cannot be read by a finder that holds [K], and
    [K1] is what it holds afterwards:
    - nothing more, if [n] is a policy, or none of both, or a set without proper
      attributes;
    - what reading the children before the first one at fault adds, and what that one
      leaves;
    - what reading all children adds, if the name of the set is taken then. *)
Inductive left_by : node -> list policybase -> list policybase -> Prop :=
| left_nothing : forall n K, ~ set_begun n -> (forall K' urls p, ~ reads E fetch fd n K K' urls p) ->
    left_by n K K
| left_child : forall n K before k after K0 urls ps K1, set_begun n ->
    elems n = before ++ k :: after ->
    (forall x, In x before -> stands x = true \/ in_order E x) ->
    reads_members E fetch fd (filter stands before) K K0 urls ps ->
    left_at k K0 K1 -> left_by n K K1
| left_taken : forall n K K1 urls ps id, set_begun n -> xml_attr "PolicySetId" n = Some id ->
    (forall x, In x (elems n) -> stands x = true \/ in_order E x) ->
    reads_members E fetch fd (members n) K K1 urls ps ->
    In (SetName (Some id)) (map name_of K1) -> left_by n K K1
(** The child [k] is at fault:
    - it has no place here, or is a target without a meaning;
    - it is a policy or policy set that cannot be read;
    - it is a reference to something not held, and there is no document for it;
    - there is one, and it cannot be read;
    - it can, but what is wanted is not held then either. *)
with left_at : node -> list policybase -> list policybase -> Prop :=
| at_other : forall k K, stands k = false -> ~ in_order E k -> left_at k K K
| at_written : forall k K K1, stands k = true -> wanted k = None -> left_by k K K1 -> left_at k K K1
| at_nowhere : forall k x K, wanted k = Some x -> ~ In x (map name_of K) ->
    (forall base r url d, fd = UrlFinder base -> xml_text k = Some r -> make_url base r = Ok url -> fetch url <> Ok d) ->
    left_at k K K
| at_document : forall base k x r url d K K1, fd = UrlFinder base -> wanted k = Some x -> ~ In x (map name_of K) ->
    xml_text k = Some r -> make_url base r = Ok url -> fetch url = Ok d ->
    left_by d K K1 -> left_at k K K1
| at_missing : forall base k x r url d K K1 urls q, fd = UrlFinder base -> wanted k = Some x -> ~ In x (map name_of K) ->
    xml_text k = Some r -> make_url base r = Ok url -> fetch url = Ok d ->
    reads E fetch fd d K K1 urls q -> ~ In x (map name_of K1) -> left_at k K K1.
End Left.
