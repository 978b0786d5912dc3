(** What a policy tree asks of a request, and requests with the same contents. *)
From Verif Require Import Eval SpecEval.
From Coq Require Import Permutation.

(** ** What a policy tree contains *)

(** [subtree q p]: [q] is [p] or one of the policies and sets below it. *)
Inductive subtree (q : policybase) : policybase -> Prop :=
| subtree_self : subtree q q
| subtree_child : forall m t alg children p,
    In p children -> subtree q p -> subtree q (PPolicySet m t alg children).

(** [part_of y x]: [y] is [x] or one of its arguments, their arguments, ... *)
Inductive part_of (y : expr) : expr -> Prop :=
| part_self : part_of y y
| part_arg : forall id f args a,
    In a args -> part_of y a -> part_of y (XApply id f args).

(** The targets of the policies, sets and rules of the tree. *)
Inductive tree_target (p : policybase) (t : target) : Prop :=
| tt_policy : forall m alg rules, subtree (PPolicy m (Some t) alg rules) p -> tree_target p t
| tt_set : forall m alg children, subtree (PPolicySet m (Some t) alg children) p -> tree_target p t
| tt_rule : forall m pt alg rules r, subtree (PPolicy m pt alg rules) p -> In r rules ->
    rl_target r = Some t -> tree_target p t.

Definition tree_match (p : policybase) (m : matchel) : Prop :=
  exists t, tree_target p t /\ In m (target_matches t).

(** The expressions inside the conditions of the tree. *)
Definition tree_expr (p : policybase) (y : expr) : Prop :=
  exists m t alg rules r x, subtree (PPolicy m t alg rules) p /\ In r rules /\
    rl_condition r = Some (Some x) /\ part_of y x.

(** Designators, selectors and functions of the tree. *)
Definition tree_designator (p : policybase) (d : designator) : Prop :=
  (exists m, tree_match p m /\ mt_designator m = Some d) \/ tree_expr p (XDesignator d).
Definition tree_selector (p : policybase) (s : selector) : Prop :=
  (exists m, tree_match p m /\ mt_selector m = Some s) \/ tree_expr p (XSelector s).
Definition tree_function (p : policybase) (f : fn) : Prop :=
  (exists m, tree_match p m /\ mt_fn m = Some f) \/
  (exists id args, tree_expr p (XApply id (Some f) args)).

(** ** Adding an attribute *)

(** [l'] is [l] with [a] put in somewhere. *)
Definition put_in {A} (a : A) (l l' : list A) : Prop :=
  exists l1 l2, l = l1 ++ l2 /\ l' = l1 ++ a :: l2.

(** [r'] is [r] with attribute [a] added to the part [k], at any position. *)
Inductive with_attribute (a : attribute) : designator_kind -> request -> request -> Prop :=
| add_subject : forall s1 s2 cat l l' rs act en h x,
    put_in a l l' ->
    with_attribute a DSubject
      (mkRequest (s1 ++ mkSubject cat l :: s2) rs act en h x)
      (mkRequest (s1 ++ mkSubject cat l' :: s2) rs act en h x)
| add_resource : forall ss r1 r2 content l l' act en h x,
    put_in a l l' ->
    with_attribute a DResource
      (mkRequest ss (r1 ++ mkResource content l :: r2) act en h x)
      (mkRequest ss (r1 ++ mkResource content l' :: r2) act en h x)
| add_action : forall ss rs l l' en h x,
    put_in a l l' ->
    with_attribute a DAction (mkRequest ss rs (Some l) en h x) (mkRequest ss rs (Some l') en h x)
| add_environment : forall ss rs act l l' h x,
    put_in a l l' ->
    with_attribute a DEnvironment (mkRequest ss rs act (Some l) h x)
      (mkRequest ss rs act (Some l') h x).

(** Neither context handler nor XPath selector. *)
Definition self_contained (r : request) : Prop :=
  rq_ctxHandler r = None /\ rq_selector r = None.

(** ** The same contents in another order *)

Definition reordered_attribute (a a' : attribute) : Prop :=
  at_id a = at_id a' /\ at_dataType a = at_dataType a' /\ at_issuer a = at_issuer a' /\
  Permutation (at_values a) (at_values a').

(** [l'] consists of the items of [l] in another order, each changed by [R]. *)
Definition reordered {A} (R : A -> A -> Prop) (l l' : list A) : Prop :=
  exists m, Permutation l m /\ Forall2 R m l'.

Definition reordered_attributes : list attribute -> list attribute -> Prop :=
  reordered reordered_attribute.

Definition reordered_option (o o' : option (list attribute)) : Prop :=
  match o, o' with
  | Some l, Some l' => reordered_attributes l l'
  | None, None => True
  | _, _ => False
  end.

Definition reordered_request (r r' : request) : Prop :=
  reordered (fun s s' => reordered_attributes (sb_attributes s) (sb_attributes s'))
    (rq_subjects r) (rq_subjects r') /\
  reordered (fun s s' => reordered_attributes (rs_attributes s) (rs_attributes s'))
    (rq_resources r) (rq_resources r') /\
  reordered_option (rq_action r) (rq_action r') /\
  reordered_option (rq_environment r) (rq_environment r').

(** Values that differ in the order of a bag at most. *)
Inductive alike : pyval -> pyval -> Prop :=
| alike_same : forall v, alike v v
| alike_bag : forall et l l', Permutation l l' -> alike (PBag et l) (PBag et l').

(** Both succeed with related values, or both raise an Exception. *)
Inductive outcome_alike {A} (R : A -> A -> Prop) : res A -> res A -> Prop :=
| oa_ok : forall a b, R a b -> outcome_alike R (Ok a) (Ok b)
| oa_raise : forall e e', is_exception e = true -> is_exception e' = true ->
    outcome_alike R (Raise e) (Raise e').

(** A user function that does not look at the order of bags and raises only
    Exceptions. *)
Definition order_blind (E : env) (name : string) : Prop :=
  forall args args', Forall2 alike args args' ->
    outcome_alike alike (fe_custom (en_fenv E) name args) (fe_custom (en_fenv E) name args').

(** Compiling a regular expression fails, if at all, with an Exception. *)
Definition compile_well_behaved (E : env) : Prop :=
  forall p e, fe_compile (en_fenv E) p = Some e -> is_exception e = true.
