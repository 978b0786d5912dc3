(** Specifications for evaluation with state. *)
From Verif Require Import EvalState SpecEval.

(** The attribute source answers each query independently of earlier ones. *)
Definition history_independent (S : senv) : Prop :=
  forall h r d, sn_pip S h r d = sn_pip S [] r d.

(** Designators of a policy tree. *)
Definition designators_match (m : matchel) : list designator :=
  match mt_designator m with Some d => [d] | None => [] end.
Definition designators_target (t : option target) : list designator :=
  match t with
  | None => []
  | Some t => flat_map designators_match (target_matches t)
  end.
Fixpoint designators_expr (x : expr) : list designator :=
  match x with
  | XApply _ _ args => flat_map designators_expr args
  | XDesignator d => [d]
  | _ => []
  end.
Definition designators_rule (r : rule) : list designator :=
  designators_target (rl_target r) ++
  match rl_condition r with Some (Some x) => designators_expr x | _ => [] end.
Fixpoint designators_policy (p : policybase) : list designator :=
  match p with
  | PPolicy _ t _ rules => designators_target t ++ flat_map designators_rule rules
  | PPolicySet _ t _ ps => designators_target t ++ flat_map designators_policy ps
  end.

(** Selectors of a policy tree. *)
Definition selectors_match (m : matchel) : list selector :=
  match mt_designator m, mt_selector m with None, Some s => [s] | _, _ => [] end.
Definition selectors_target (t : option target) : list selector :=
  match t with
  | None => []
  | Some t => flat_map selectors_match (target_matches t)
  end.
Fixpoint selectors_expr (x : expr) : list selector :=
  match x with
  | XApply _ _ args => flat_map selectors_expr args
  | XSelector s => [s]
  | _ => []
  end.
Definition selectors_rule (r : rule) : list selector :=
  selectors_target (rl_target r) ++
  match rl_condition r with Some (Some x) => selectors_expr x | _ => [] end.
Fixpoint selectors_policy (p : policybase) : list selector :=
  match p with
  | PPolicy _ t _ rules => selectors_target t ++ flat_map selectors_rule rules
  | PPolicySet _ t _ ps => selectors_target t ++ flat_map selectors_policy ps
  end.

(** [evals_trace E c x v tr]: [x] evaluates to [v] and [tr] lists the function
    applications performed, in order: those of the arguments from left to right,
    each once, then the application of the function to the arguments' values. *)
Inductive evals_trace (E : env) (c : context)
  : expr -> pyval -> list (fn * list pyval) -> Prop :=
| EtValue : forall a, evals_trace E c (XValue a) (PAttr a) []
| EtDesignator : forall d v,
    eval_designator E d c = Ok v -> evals_trace E c (XDesignator d) v []
| EtSelector : forall s v,
    eval_selector E s c = Ok v -> evals_trace E c (XSelector s) v []
| EtApply : forall fid f args vs v tr,
    evals_trace_list E c args vs tr ->
    fn_eval (en_fenv E) f vs = Ok v ->
    evals_trace E c (XApply fid (Some f) args) v (tr ++ [(f, vs)])
with evals_trace_list (E : env) (c : context)
  : list expr -> list pyval -> list (fn * list pyval) -> Prop :=
| EtNil : evals_trace_list E c [] [] []
| EtCons : forall x xs v vs tr trs,
    evals_trace E c x v tr -> evals_trace_list E c xs vs trs ->
    evals_trace_list E c (x :: xs) (v :: vs) (tr ++ trs).

(** An exception raised by an external collaborator at some time. *)
Definition collaborator_raises_s (S : senv) (e : exn) : Prop :=
  (exists h r d, sn_pip S h r d = Raise e) \/
  (exists r p, sn_xpath S r p = Raise e) \/
  (exists n args, fe_custom (sn_fenv S) n args = Raise e) \/
  (exists p, fe_compile (sn_fenv S) p = Some e).

(** Every entry of the regular expression cache is the compiled form of its own
    key, and only patterns that compile are stored. *)
Definition cache_ok (F : fenv) (k : cache) : Prop :=
  forall p q, dict_get p k = Some q -> q = p /\ fe_compile F p = None.
