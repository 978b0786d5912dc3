(** Notions for the claims about the evaluation of objects. *)
From Verif Require Export EvalObjects SpecObjects.

(** The object [c] given to evaluate stands for the context [ctx]. *)
Definition for_context (h : heap) (c : pval) (ctx : context) : Prop :=
  match ctx with
  | CtxRequest r => for_request h c r
  | CtxOther => forall a attrs, c = PRef a -> nth_error h a <> Some (PInst KRequest attrs)
  end.

(** The collaborators [O], asked with objects, answer as [E] does when asked with what
    the objects stand for. *)
Definition same_answers (h : heap) (O : oenv) (E : env) : Prop :=
  oe_fenv O = en_fenv E /\ oe_classes O = en_classes E /\
  (forall r d rq dg, for_request h (PRef r) rq -> for_designator h (PRef d) dg ->
     oe_pip O h r d = en_pip E rq dg) /\
  (forall r rq v p, for_request h (PRef r) rq -> maybe for_string p v ->
     oe_xpath O h r v = en_xpath E rq p).

(** The number of nested calls of evaluate methods that an expression and a policy need *)
Fixpoint expr_depth (x : expr) : nat :=
  match x with
  | XApply _ _ args => S (list_max (map expr_depth args))
  | _ => 1
  end.
Definition rule_depth (r : rule) : nat :=
  match rl_condition r with
  | Some (Some x) => expr_depth x
  | _ => 0
  end.
Fixpoint policy_depth (p : policybase) : nat :=
  match p with
  | PPolicy _ _ _ rules => S (list_max (map rule_depth rules))
  | PPolicySet _ _ _ children => S (list_max (map policy_depth children))
  end.

(** The objects that evaluating [p] for [c] may look at: the two heaps have the same
    ones. *)
Definition same_objects (h h' : heap) (p c : pval) : Prop :=
  forall a b, (p = PRef a \/ c = PRef a) -> reaches h a b -> nth_error h' b = nth_error h b.

(** Asked about the request [c], the collaborators do not tell the two heaps apart. *)
Definition same_collaborators (O : oenv) (h h' : heap) (c : pval) : Prop :=
  (forall r d, c = PRef r -> oe_pip O h' r d = oe_pip O h r d) /\
  (forall r v, c = PRef r -> oe_xpath O h' r v = oe_xpath O h r v).

(** Stopped by something that is no Exception, such as KeyboardInterrupt *)
Definition interrupted (r : res decision) : Prop :=
  exists e, r = Raise e /\ is_exception e = false.
