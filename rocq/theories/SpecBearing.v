(** Notions for the claims about what has a bearing on decisions. *)
From Verif Require Export SpecEvalLive.
From Coq Require Export Relations.
Local Open Scope string_scope.
Local Open Scope list_scope.

(** The attributes without a bearing: ids of rules, policies and policy sets, versions,
    descriptions, defaults, obligations, the ids by which functions and combining
    algorithms were set, the subject category and the content of a resource. *)
Definition no_bearing : list string :=
  ["id"; "policyId"; "policySetId"; "version"; "description";
   "policyDefaults"; "policySetDefaults"; "xpathVersion";
   "obligations"; "obligationId"; "fulfillOn"; "attributeAssignments";
   "ruleCombiningAlgId"; "policyCombiningAlgId"; "matchId"; "functionId"; "loadFunctionFromId";
   "subjectCategory"; "resourceContent"].

(** Setting one of these four also sets the algorithm or the function. *)
Definition loading : list string :=
  ["ruleCombiningAlgId"; "policyCombiningAlgId"; "matchId"; "functionId"].

(** Two objects that differ in attributes without a bearing at most *)
Inductive alike_but : option pobject -> option pobject -> Prop :=
| equal_objects : forall o, alike_but o o
| other_notes : forall k s s',
    (forall name, ~ In name no_bearing -> dict_get name s' = dict_get name s) ->
    alike_but (Some (PInst k s)) (Some (PInst k s')).

(** From object to object by attributes with a bearing and items of lists *)
Inductive leads (h : heap) : nat -> nat -> Prop :=
| by_attribute : forall a b name, ~ In name no_bearing -> get_attr h a name = Ok (PRef b) -> leads h a b
| by_item : forall a b t items, nth_error h a = Some (PTypedList t items) -> In (PRef b) items -> leads h a b.
Definition bears_on (h : heap) (p c : pval) (b : nat) : Prop :=
  exists a, (p = PRef a \/ c = PRef a) /\ clos_refl_trans nat (leads h) a b.

(** The objects with a bearing on the evaluation of [p] for [c] differ in attributes
    without a bearing at most. *)
Definition same_bearing (h h' : heap) (p c : pval) : Prop :=
  forall b, bears_on h p c b -> alike_but (nth_error h b) (nth_error h' b).

(** An operation without a bearing: it makes something new, or assigns to an attribute
    without a bearing, or is called on an object without a bearing. *)
Definition idle (h : heap) (p c : pval) (o : oop) : Prop :=
  match touches o with
  | None => True
  | Some b =>
      ~ bears_on h p c b \/
      exists name v, o = OSet b name v /\ In name no_bearing /\ ~ In name loading
  end.

(** [h'] is [h] with another value for the attribute [name] of one object of class [k]. *)
Definition differs_only_in (k : pcls) (name : string) (h h' : heap) : Prop :=
  exists a s v, nth_error h a = Some (PInst k s) /\ h' = replace_nth a (PInst k (dict_set name v s)) h.
