(** Rules that always apply, and rules that cannot matter. *)
From Verif Require Export SpecEval SpecTighten.

(** A rule without target and without condition: it applies to every request. *)
Definition catch_all (r : rule) (e : effect) : Prop :=
  rl_target r = None /\ rl_condition r = None /\ rl_effect r = Some e.

(** [r] applies wherever [r'] applies, to be seen from their text: its target and
    its condition ask for less. *)
Definition covers (r r' : rule) : Prop :=
  narrower_target (rl_target r) (rl_target r') /\
  stronger_condition (rl_condition r) (rl_condition r').

(** No exception that is not caught leaves the rule, and the rule has an effect. *)
Definition returns (E : env) (c : context) (r : rule) : Prop :=
  rl_effect r <> None /\ exists d, rule_eval E c r = Ok d.

(** The decision named by an effect. *)
Definition named (e : effect) : decision :=
  match e with EffPermit => Permit | EffDeny => Deny end.
(** The algorithm under which an effect prevails. *)
Definition favours (a : comb_alg) (e : effect) : Prop :=
  (a = DenyOverrides /\ e = EffDeny) \/ (a = PermitOverrides /\ e = EffPermit).
