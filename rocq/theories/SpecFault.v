(** Evaluation while collaborators fail now and then. *)
From Verif Require Import EvalState SpecEval SpecState.

(** [y] is [x], or an Exception in its place. *)
Definition or_fault {A} (x y : res A) : Prop :=
  y = x \/ exists e, is_exception e = true /\ y = Raise e.

(** [S] is the environment [E] with faults: at any time the attribute source, and on
    any arguments the XPath engine, custom functions and the compilation of regular
    expressions, may raise an Exception instead of doing what they do in [E]. *)
Definition faulty_version (S : senv) (E : env) : Prop :=
  sn_classes S = en_classes E /\
  (forall history r d, or_fault (en_pip E r d) (sn_pip S history r d)) /\
  (forall r path, or_fault (en_xpath E r path) (sn_xpath S r path)) /\
  (forall n args, or_fault (fe_custom (en_fenv E) n args) (fe_custom (sn_fenv S) n args)) /\
  (forall p, fe_compile (sn_fenv S) p = fe_compile (en_fenv E) p \/
     exists e, is_exception e = true /\ fe_compile (sn_fenv S) p = Some e) /\
  (forall p s, fe_match (sn_fenv S) p s = fe_match (en_fenv E) p s).

(** The decisions of the policy sets in a tree are not combined by deny-overrides or
    permit-overrides. *)
Inductive no_overriding_sets : policybase -> Prop :=
| no_overriding_policy : forall m t alg rules, no_overriding_sets (PPolicy m t alg rules)
| no_overriding_set : forall m t alg ps,
    alg <> Some DenyOverrides -> alg <> Some PermitOverrides ->
    Forall no_overriding_sets ps -> no_overriding_sets (PPolicySet m t alg ps).
