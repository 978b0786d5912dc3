(** Requests that hold more than others, and policies that can only gain from
    it. *)
From Verif Require Export SpecEval SpecStandard.

(** The section of kind [k] of request [r] has an attribute with this id, data
    type and issuer, and [v] among its values. *)
Definition has_value (r : request) (k : designator_kind) (id dt : option string)
  (iss : option string) (v : attrval) : Prop :=
  exists attrs a, section_attributes k r = Some attrs /\ In a attrs /\
    at_id a = id /\ at_dataType a = dt /\ at_issuer a = iss /\ In v (at_values a).

(** [r'] has every value [r] has, in whatever order and however grouped into
    attributes; it may have more. *)
Definition holds_more (r r' : request) : Prop :=
  forall k id dt iss v, has_value r k id dt iss v -> has_value r' k id dt iss v.

(** Neither not, round nor a function from outside the package is applied, and
    no selector is used. *)
Definition plain_function (f : fn) : bool :=
  match f with
  | FnNot | FnRound | FnCustom _ => false
  | _ => true
  end.
Fixpoint positive (x : expr) : bool :=
  match x with
  | XApply _ (Some f) args => plain_function f && forallb positive args
  | XApply _ None args => forallb positive args
  | XSelector _ => false
  | _ => true
  end.
Definition positive_policy (p : policybase) : Prop :=
  (forall x, condition_within x p -> positive x = true) /\
  (forall m, match_within m p -> mt_designator m <> None).

(** Every rule of [p], at any depth, has effect [e]. *)
Definition only (e : effect) (p : policybase) : Prop :=
  forall r, In r (rules_within p) -> rl_effect r = Some e.
