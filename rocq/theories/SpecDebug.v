(** Notions used in the statements about debug logging. *)
From Verif Require Import EvalState EvalDebug SpecRelate.

(** Whatever [f] returns can be compared with True. *)
Definition comparable_results (S : senv) (O : N -> option exn) (f : fn) : Prop :=
  forall args v w w', fn_eval_s S f args w = (Ok v, w') -> compare_true O v = None.

(** The functions that return a truth value. *)
Definition truth_function (f : fn) : Prop :=
  match f with
  | FnAnd | FnNot | FnEqual _ | FnMatch _ | FnAtLeastOne _ | FnRegexp _ => True
  | _ => False
  end.
