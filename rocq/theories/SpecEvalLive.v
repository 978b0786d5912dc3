(** Notions for the claims about evaluations during which other threads change objects. *)
From Verif Require Export EvalLive SpecEvalObjects.
From Coq Require Export List.

(** While the objects were, at its successive steps, as in [hs], the evaluation of [p] for
    the context [c] went through and gave [d]. *)
Definition gives (O : oenv) (hs : list heap) (n : nat) (c p : pval) (d : res decision) : Prop :=
  lrun O hs (l_policy_eval O n c p) = LDone d.

(** What happens, in order: the evaluating thread makes a step, or another one performs an
    operation. *)
Inductive event : Type :=
| Evaluates
| Performs (o : oop).

(** The objects at the successive steps of the evaluation *)
Fixpoint meanwhile (cm : list (string * avclass)) (s : ostate) (evs : list event) : list heap :=
  match evs with
  | [] => []
  | Evaluates :: rest => os_heap s :: meanwhile cm s rest
  | Performs o :: rest => meanwhile cm (snd (ostep cm s o)) rest
  end.

(** The operations performed *)
Fixpoint performed (evs : list event) : list oop :=
  match evs with
  | [] => []
  | Evaluates :: rest => performed rest
  | Performs o :: rest => o :: performed rest
  end.

(** [b] is part of the policy [p] or of the request [c] *)
Definition part_of (h : heap) (p c : pval) (b : nat) : Prop :=
  exists a, (p = PRef a \/ c = PRef a) /\ reaches h a b.

(** From [h] to [h'] items may have been added at the end of the list at [l]; the other
    objects that evaluating [p] for [c] may look at are the same. *)
Definition appended (O : oenv) (l : nat) (p c : pval) (h h' : heap) : Prop :=
  (exists t items more, nth_error h l = Some (PTypedList t items) /\
     nth_error h' l = Some (PTypedList t (items ++ more))) /\
  (forall b, part_of h p c b -> b <> l -> nth_error h' b = nth_error h b) /\
  same_collaborators O h h' c.

(** The list at [l] belongs to the policy object at [a] alone: it is its list of rules, or
    of policies, and neither the target of the policy, nor the request, nor what is in the
    list leads to it. *)
Definition own_list (h : heap) (a : nat) (c : pval) (l : nat) : Prop :=
  ((exists attrs, nth_error h a = Some (PInst KPolicy attrs) /\ get_attr h a "rules" = Ok (PRef l)) \/
  (exists attrs, nth_error h a = Some (PInst KPolicySet attrs) /\ get_attr h a "policies" = Ok (PRef l))) /\
  (forall b, get_attr h a "target" = Ok (PRef b) -> ~ reaches h b l) /\
  (forall b, c = PRef b -> ~ reaches h b l) /\
  (forall t items b, nth_error h l = Some (PTypedList t items) -> In (PRef b) items -> ~ reaches h b l).

(** Until the evaluation ends, the other threads add to the list at [l], and otherwise
    operate on objects that are then not part of the policy or the request: a rule may
    be built, and then added. *)
Fixpoint only_adds (cm : list (string * avclass)) (a : nat) (c : pval) (l : nat) (s : ostate)
  (evs : list event) : Prop :=
  match evs with
  | [] => True
  | Evaluates :: rest => only_adds cm a c l s rest
  | Performs o :: rest =>
      ((exists lo, o = OList l lo) \/
       forall b, touches o = Some b -> ~ part_of (os_heap s) (PRef a) c b) /\
      only_adds cm a c l (snd (ostep cm s o)) rest
  end.
