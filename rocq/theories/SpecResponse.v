(** Notions used in the statements about responses and decision objects. *)
From Verif Require Import Eval Setters Response.

(** The decision a caller reads from the only result of a response. *)
Definition reads (s : store) (r : response) : option decision :=
  match r with
  | [x] => match rs_decision x with Some o => Some (value_of s o) | None => None end
  | _ => None
  end.

(** The decision in the response is the shared object [d]. *)
Definition holds (r : response) (d : decision) : Prop :=
  exists x, r = [x] /\ rs_decision x = Some (DShared d).

(** The operation assigns to the value of a decision object. *)
Definition assigns_value (o : wop) : bool :=
  match o with WValue _ _ => true | _ => false end.

(** The operation puts another decision object in response number [k]. *)
Definition replaces (k : nat) (o : wop) : bool :=
  match o with WDecision j _ => Nat.eqb j k | _ => false end.

(** The Python value names the decision [d]: its string, or a decision object
    with that value. *)
Definition names (x : pyobj) (d : decision) : Prop :=
  x = ONat (NStr (decision_str d)) \/ x = ODecision (decision_str d).

(** Status of a result nobody has changed. *)
Definition plain_status (message : string) : status :=
  mkStatus (Some "urn:oasis:names:tc:xacml:1.0:status:ok") (Some message) (Some (ONat (NStr ""))).

(** The policy assigned, if it is one. *)
Definition as_policy (x : polarg) : option policybase :=
  match x with APolicy p => Some p | ANotPolicy _ => None end.

(** The target of a policy or policy set. *)
Definition target_of (p : policybase) : option target :=
  match p with PPolicy _ t _ _ => t | PPolicySet _ t _ _ => t end.
