(** Several policies in place of one. *)
From Verif Require Export Eval SpecEval.

(** The policies [qs] have no target, the algorithm [alg] and the rules [gs]. *)
Definition pieces (alg : comb_alg) (gs : list (list rule)) (qs : list policybase) : Prop :=
  Forall2 (fun g q => exists m, q = PPolicy m None (Some alg) g) gs qs.

(** Each rule is in at least one of the groups, and nothing else is. *)
Definition covers (gs : list (list rule)) (rules : list rule) : Prop :=
  forall r, In r rules <-> exists g, In g gs /\ In r g.

(** The rule has an effect and lets no exception out. *)
Definition answers (E : env) (c : context) (r : rule) : Prop :=
  rl_effect r <> None /\ exists d, rule_eval E c r = Ok d.

(** The rules of one effect. *)
Definition of_effect (e : effect) (rules : list rule) : list rule :=
  filter (fun r => match rl_effect r, e with
                   | Some EffPermit, EffPermit | Some EffDeny, EffDeny => true
                   | _, _ => false
                   end) rules.
