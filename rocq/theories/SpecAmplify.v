(** How much larger than its documents a policy can be. *)
From Verif Require Export Readers EvalState SpecRead SpecState SpecQueries.

(** The number of elements of a document. *)
Fixpoint size_of (n : node) : nat :=
  match n with
  | Elem _ _ _ kids => S (list_sum (map size_of kids))
  | Comment _ => 0
  end.
(** That of the documents at these places of the web. *)
Definition size_at (fetch : string -> res node) (urls : list string) : nat :=
  list_sum (map (fun u => match fetch u with Ok d => size_of d | Raise _ => 0 end) urls).

(** The policies and policy sets of a policy tree, counted as often as they occur: each
    occurrence may have to be evaluated. *)
Definition occurrences (p : policybase) : nat := length (all_policies p).

(** No element of the document is a reference. *)
Definition without_references (d : node) : Prop := forall m, inside m d -> wanted m = None.
