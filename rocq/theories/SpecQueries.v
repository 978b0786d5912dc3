(** How often the attribute source is asked. *)
From Verif Require Import EvalState SpecEval SpecState.

Definition about_subjects (d : designator) : bool :=
  match dg_kind d with DSubject => true | _ => false end.

(** Subject designators of a policy tree, counted as often as they occur. *)
Definition subject_designators (p : policybase) : nat :=
  length (filter about_subjects (designators_policy p)).

Definition subjects_of (c : context) : nat :=
  match c with CtxRequest r => length (rq_subjects r) | CtxOther => 0 end.
