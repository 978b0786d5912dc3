(** Notions used in the statements about the algebra of combining. *)
From Verif Require Import Eval.

(** The algorithms rank decisions; the decision of two groups of children together is
    the one of higher rank.  Deny-overrides never yields Indeterminate. *)
Definition rank (alg : comb_alg) (d : decision) : nat :=
  match alg, d with
  | DenyOverrides, NotApplicable => 0
  | DenyOverrides, Permit => 1
  | DenyOverrides, _ => 2
  | PermitOverrides, NotApplicable => 0
  | PermitOverrides, Indeterminate => 1
  | PermitOverrides, Deny => 2
  | PermitOverrides, Permit => 3
  | FirstApplicable, NotApplicable => 0
  | FirstApplicable, _ => 1
  end.
Definition highest (alg : comb_alg) (d : decision) : Prop :=
  match alg with
  | DenyOverrides => d = Deny
  | PermitOverrides => d = Permit
  | FirstApplicable => d <> NotApplicable
  end.

(** [together alg a b o]: a group with outcome [a] followed by a group with outcome
    [b] has outcome [o].  The second group is not looked at if the first escapes or
    decides with the highest rank. *)
Inductive together (alg : comb_alg) : res decision -> res decision -> res decision -> Prop :=
| TEscape : forall e b, together alg (Raise e) b (Raise e)
| THighest : forall d b, highest alg d -> together alg (Ok d) b (Ok d)
| TEscape2 : forall d e, ~ highest alg d -> together alg (Ok d) (Raise e) (Raise e)
| THigher : forall d d', ~ highest alg d -> rank alg d <= rank alg d' ->
    together alg (Ok d) (Ok d') (Ok d')
| TLower : forall d d', ~ highest alg d -> rank alg d' < rank alg d ->
    together alg (Ok d) (Ok d') (Ok d).

(** The same tree with some subtrees replaced, each by one that decides the same. *)
Inductive same_but_equal_parts (E : env) (c : context) : policybase -> policybase -> Prop :=
| SPart : forall p q, policy_eval E c p = policy_eval E c q -> same_but_equal_parts E c p q
| SSet : forall m t alg ps qs, Forall2 (same_but_equal_parts E c) ps qs ->
    same_but_equal_parts E c (PPolicySet m t alg ps) (PPolicySet m t alg qs).
