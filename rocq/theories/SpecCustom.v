(** Notions for the properties about algorithms, policies and factories of the user (C87,
    C88). *)
From Verif Require Import Custom.
Local Open Scope list_scope.

(** ** Conversations of an algorithm with the elements it combines *)

(** [rtalk p log r]: given the outcomes in [log] for the rules it asks, in this order, the
    algorithm that behaves as [p] ends with [r]. *)
Inductive rtalk : rplay -> list (rule * context * res decision) -> res answer -> Prop :=
| rtalk_stop : forall r, rtalk (RStop r) [] r
| rtalk_ask : forall r c k d log a,
    rtalk (k d) log a -> rtalk (RAsk r c k) ((r, c, d) :: log) a.

(** The same for policies; members are asked by position. *)
Inductive ptalk : pplay -> list (nat * context * res answer) -> res answer -> Prop :=
| ptalk_stop : forall r, ptalk (PStop r) [] r
| ptalk_ask : forall i c k b log a,
    ptalk (k b) log a -> ptalk (PAsk i c k) ((i, c, b) :: log) a.

(** Every outcome in the log is that of evaluating the rule, the member. *)
Definition true_of_rules (C : cenv) (log : list (rule * context * res decision)) : Prop :=
  forall r c d, In (r, c, d) log -> d = rule_eval (ce_env C) c r.

Definition true_of_members (C : cenv) (children : list cpolicy)
  (log : list (nat * context * res answer)) : Prop :=
  forall i c b, In (i, c, b) log ->
    (forall p, nth_error children i = Some p -> b = c_evaluate C p c) /\
    (nth_error children i = None -> b = Raise EIndexError).

(** What the caller gets of an algorithm that ends with [r]: exceptions of the Exception
    hierarchy become Indeterminate. *)
Inductive handed_on : res answer -> res answer -> Prop :=
| handed_ok : forall a, handed_on (Ok a) (Ok a)
| handed_exception : forall e, is_exception e = true ->
    handed_on (Raise e) (Ok (ADecision Indeterminate))
| handed_base : forall e, is_exception e = false -> handed_on (Raise e) (Raise e).

(** The target lets the algorithm be asked. *)
Definition applies (C : cenv) (c : context) (t : option target) : Prop :=
  t = None \/ exists t', t = Some t' /\ target_match (ce_env C) c t' = Ok true.

(** ** Policies without the user's classes *)

Definition std_alg (a : option comb_alg) : option calg :=
  match a with None => None | Some a => Some (Std a) end.

Fixpoint standard (p : policybase) : cpolicy :=
  match p with
  | PPolicy _ t alg rules => CPolicy t (std_alg alg) rules
  | PPolicySet _ t alg children => CPolicySet t (std_alg alg) (map standard children)
  end.

(** ** Exchanging algorithms *)

(** The algorithm, given what the rules say, ends with [r]. *)
Definition ends_on_rules (C : cenv) (a : calg) (says : rule -> context -> res decision)
  (rules : list rule) (c : context) (r : res answer) : Prop :=
  match a with
  | Std a =>
      match combine_rules a (fun x => says x c) rules with
      | Ok d => r = Ok (ADecision d)
      | Raise e => r = Raise e
      end
  | User k => exists log, rtalk (ce_rules C k rules c) log r /\
                (forall x c' d, In (x, c', d) log -> d = says x c')
  end.

(** Two algorithms end alike whatever the rules say. *)
Definition same_on_rules (C : cenv) (a b : calg) : Prop :=
  forall says rules c r, ends_on_rules C a says rules c r <-> ends_on_rules C b says rules c r.

(** The tree with every use of [a] by a policy replaced by [b] *)
Inductive replaced (a b : calg) : cpolicy -> cpolicy -> Prop :=
| rep_same : forall p, replaced a b p p
| rep_here : forall t rules, replaced a b (CPolicy t (Some a) rules) (CPolicy t (Some b) rules)
| rep_members : forall t x ps qs, Forall2 (replaced a b) ps qs ->
    replaced a b (CPolicySet t (Some (Std x)) ps) (CPolicySet t (Some (Std x)) qs).

(** ** What other policies make of an answer *)

(** The answer is taken for the decision. *)
Definition taken_for (C : cenv) (a : answer) (d : decision) : Prop :=
  match a with
  | ADecision x => x = d
  | AString s => s = match d with
                     | Permit => "Permit" | Deny => "Deny"
                     | Indeterminate => "Indeterminate" | NotApplicable => "NotApplicable"
                     end%string
  | ANone => False
  | AObject o => forall x, ce_eq C o x = Ok (match d, x with
                                             | Permit, Permit | Deny, Deny
                                             | Indeterminate, Indeterminate
                                             | NotApplicable, NotApplicable => true
                                             | _, _ => false
                                             end)
  end.

(** Comparing the answer with a decision raises. *)
Definition refuses_comparison (C : cenv) (a : answer) : Prop :=
  match a with
  | ADecision _ => False
  | AString s => s <> "Permit" /\ s <> "Deny" /\ s <> "Indeterminate" /\ s <> "NotApplicable"
  | ANone => True
  | AObject o => exists e, is_exception e = true /\ forall x, ce_eq C o x = Raise e
  end%string.

(** The answer equals none of the decisions. *)
Definition unlike_any (C : cenv) (a : answer) : Prop :=
  exists o, a = AObject o /\ forall x, ce_eq C o x = Ok false.

(** ** Where a Permit comes from *)

(** The answer compares equal to Permit. *)
Definition permits (C : cenv) (a : answer) : Prop :=
  a = ADecision Permit \/ a = AString "Permit" \/
  exists o, a = AObject o /\ ce_eq C o Permit = Ok true.

(** An algorithm that permits only if one of the elements it was given did so for the same
    request, and policies of the user that never permit *)
Definition honest_rules (C : cenv) : Prop :=
  forall k rules c log a, rtalk (ce_rules C k rules c) log (Ok a) -> permits C a ->
    exists r, In r rules /\ In (r, c, Ok Permit) log.
Definition honest_policies (C : cenv) : Prop :=
  forall k children c log a, ptalk (ce_policies C k children c) log (Ok a) -> permits C a ->
    exists i b, In (i, c, Ok b) log /\ permits C b.
Definition reserved_users (C : cenv) : Prop :=
  forall k c a, ce_user C k c = Ok a -> ~ permits C a.

Inductive rule_of : rule -> cpolicy -> Prop :=
| rule_here : forall r t alg rules, In r rules -> rule_of r (CPolicy t alg rules)
| rule_below : forall r t alg ps p, In p ps -> rule_of r p -> rule_of r (CPolicySet t alg ps).

(** ** Factories and their tables *)

(** What the factory returns for the id in the state *)
Definition offers (U : uenv) (s : cstate) (f : factory) (id : string) (e : option entry) : Prop :=
  match f with
  | FTable _ d => dict_get id (cs_tables s d) = e
  | FUser _ k => ue_call U k (cs_calls s) id = Ok e
  end.

(** The entry is a class for a Policy, for a PolicySet *)
Definition class_for_side (sd : side) (e : option entry) (a : calg) : Prop :=
  match sd with
  | ForRules => exists p, e = Some (EnClass true p a)
  | ForPolicies => exists r, e = Some (EnClass r true a)
  end.

(** The operation assigns an id to policy [p] and returns. *)
Definition assigns (U : uenv) (s : cstate) (p : nat) (o : fop) : Prop :=
  (exists x, o = FSetId p x) /\ fst (f_step U s o) = Ok tt.

(** No operation of the history makes a successful assignment of an id to [p]. *)
Fixpoint no_assignment (U : uenv) (s : cstate) (p : nat) (ops : list fop) : Prop :=
  match ops with
  | [] => True
  | o :: rest => ~ assigns U s p o /\ no_assignment U (snd (f_step U s o)) p rest
  end.

(** Creating an object of a class never gives None or NotImplemented. *)
Definition plain_classes (U : uenv) : Prop :=
  forall k n, ue_make U k n <> MadeNone /\ ue_make U k n <> MadeNotImplemented.

(** The combining algorithm of a policy set goes on to the next member after a member with
    this decision. *)
Definition goes_on (x : comb_alg) (d : decision) : Prop :=
  match x with
  | DenyOverrides => d = Permit \/ d = NotApplicable
  | PermitOverrides => d <> Permit
  | FirstApplicable => d = NotApplicable
  end.

(** How often the user's code was called once the factory has returned *)
Definition calls_after (s : cstate) (f : factory) : nat :=
  match f with FTable _ _ => cs_calls s | FUser _ _ => S (cs_calls s) end.

(** Creating an object of the class succeeds. *)
Definition creates (U : uenv) (n : nat) (a : calg) : Prop :=
  match a with Std _ => True | User k => ue_make U k n = MadeObject end.

(** The policy an operation is about *)
Definition about (o : fop) (p : nat) : Prop :=
  match o with FSetFactory q _ | FSetId q _ => q = p | _ => False end.
