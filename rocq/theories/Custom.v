(** Evaluation with combining algorithms, policies and factories supplied by the user of
    the library: classes derived from RuleCombiningAlgInterface
    (core/rule_combining_alg.py:36-53), PolicyCombiningAlgInterface
    (core/policy_combining_alg.py:31-49) and PolicyBase (core/policybase.py:29), and
    factories derived from the class factories. *)
From Verif Require Export Eval Response Setters.
From Coq Require Import NArith.
Local Open Scope list_scope.

(** What [evaluate] of a user's class returns: nothing checks that it is a Decision.
    [AObject] is an object of any other class, known only by how it compares. *)
Inductive answer : Type :=
| ADecision (d : decision)
| AString (s : string)
| ANone
| AObject (o : N).

(** What a user's rule combining algorithm does when it is called: it asks rules for their
    decisions with [rule.evaluate(context)], one at a time, learns the outcome (an
    exception may be caught), and finally returns a value or raises.  Simplification: it
    changes none of the objects and it ends. *)
Inductive rplay : Type :=
| RStop (r : res answer)
| RAsk (r : rule) (c : context) (k : res decision -> rplay).

(** The same for a policy combining algorithm, which asks the members of the set by
    position.  Simplification: it asks no other policies. *)
Inductive pplay : Type :=
| PStop (r : res answer)
| PAsk (i : nat) (c : context) (k : res answer -> pplay).

(** An algorithm object: one of the three classes of the library, or of a user's class. *)
Inductive calg : Type := Std (a : comb_alg) | User (k : N).

(** Policy, PolicySet and objects of a user's class derived from PolicyBase with its own
    [evaluate].  Simplification: ids, which are only logged, are left out. *)
Inductive cpolicy : Type :=
| CPolicy (t : option target) (alg : option calg) (rules : list rule)
| CPolicySet (t : option target) (alg : option calg) (children : list cpolicy)
| CUser (k : N).

(** The environment of evaluation together with the user's classes: [evaluate] of
    combining algorithms and of policies, and [__eq__] of the objects returned. *)
Record cenv : Type := mkCenv {
  ce_env : env;
  ce_rules : N -> list rule -> context -> rplay;
  ce_policies : N -> list cpolicy -> context -> pplay;
  ce_user : N -> context -> res answer;
  ce_eq : N -> decision -> res bool
}.

(** [decision == Decision.DENY] and the like, with Decision.__eq__,
    context/result.py:389-413: the operand on the left of a string or of None leaves the
    comparison to the decision.  The message of the TypeError for None mentions a
    variable that is not set, so UnboundLocalError is raised.  Simplification: the shared
    decision objects have their original values (C41). *)
Definition answer_is (C : cenv) (a : answer) (d : decision) : res bool :=
  match a with
  | ADecision x => Ok (dec_same x d)
  | AString s =>
      match decision_of_str s with
      | Some x => Ok (dec_same x d)
      | None => Raise EAttributeError
      end
  | ANone => Raise EUnboundLocalError
  | AObject o => ce_eq C o d
  end.

(** [except Exception], policybase.py:164-172 *)
Definition catch_answer (r : res answer) : res answer :=
  match r with
  | Ok a => Ok a
  | Raise e => if is_exception e then Ok (ADecision Indeterminate) else Raise e
  end.

Fixpoint play_rules (ask : rule -> context -> res decision) (p : rplay) : res answer :=
  match p with
  | RStop r => r
  | RAsk r c k => play_rules ask (k (ask r c))
  end.

Fixpoint play_policies (ask : nat -> context -> res answer) (p : pplay) : res answer :=
  match p with
  | PStop r => r
  | PAsk i c k => play_policies ask (k (ask i c))
  end.

Definition as_answer (r : res decision) : res answer :=
  match r with Ok d => Ok (ADecision d) | Raise e => Raise e end.

(** [self.ruleCombiningAlg.evaluate(self.rules, context)], policy.py:390-397 *)
Definition run_rule_alg (C : cenv) (a : calg) (rules : list rule) (c : context) : res answer :=
  match a with
  | Std a => as_answer (combine_rules a (rule_eval (ce_env C) c) rules)
  | User k => play_rules (fun r c' => rule_eval (ce_env C) c' r) (ce_rules C k rules c)
  end.

(** DenyOverridesPolicyCombiningAlg.evaluate, policy_combining_alg.py:54-87, on the values
    returned by [policy.evaluate(context)] *)
Fixpoint set_deny_overrides (C : cenv) (atLeastOnePermit : bool) (l : list (res answer))
  : res answer :=
  match l with
  | [] => if atLeastOnePermit then Ok (ADecision Permit) else Ok (ADecision NotApplicable)
  | r :: rest =>
      let* decision := r in
      let* b := answer_is C decision Deny in
      if b then Ok (ADecision Deny) else
      let* b := answer_is C decision Permit in
      if b then set_deny_overrides C true rest else
      let* b := answer_is C decision NotApplicable in
      if b then set_deny_overrides C atLeastOnePermit rest else
      let* b := answer_is C decision Indeterminate in
      if b then Ok (ADecision Deny) else
      set_deny_overrides C atLeastOnePermit rest
  end.

(** PermitOverridesPolicyCombiningAlg.evaluate, policy_combining_alg.py:92-138 *)
Fixpoint set_permit_overrides (C : cenv) (atLeastOneError atLeastOneDeny : bool)
  (l : list (res answer)) : res answer :=
  match l with
  | [] =>
      if atLeastOneDeny then Ok (ADecision Deny)
      else if atLeastOneError then Ok (ADecision Indeterminate)
      else Ok (ADecision NotApplicable)
  | r :: rest =>
      let* decision := r in
      let* b := answer_is C decision Deny in
      if b then set_permit_overrides C atLeastOneError true rest else
      let* b := answer_is C decision Permit in
      if b then Ok (ADecision Permit) else
      let* b := answer_is C decision NotApplicable in
      if b then set_permit_overrides C atLeastOneError atLeastOneDeny rest else
      let* b := answer_is C decision Indeterminate in
      if b then set_permit_overrides C true atLeastOneDeny rest else
      set_permit_overrides C atLeastOneError atLeastOneDeny rest
  end.

(** FirstApplicablePolicyCombiningAlg.evaluate, policy_combining_alg.py:144-180 *)
Fixpoint set_first_applicable (C : cenv) (l : list (res answer)) : res answer :=
  match l with
  | [] => Ok (ADecision NotApplicable)
  | r :: rest =>
      let* decision := r in
      let* b := answer_is C decision Deny in
      if b then Ok (ADecision Deny) else
      let* b := answer_is C decision Permit in
      if b then Ok (ADecision Permit) else
      let* b := answer_is C decision NotApplicable in
      if b then set_first_applicable C rest else
      let* b := answer_is C decision Indeterminate in
      if b then Ok (ADecision Indeterminate) else
      set_first_applicable C rest
  end.

Definition set_combine (C : cenv) (a : comb_alg) (l : list (res answer)) : res answer :=
  match a with
  | DenyOverrides => set_deny_overrides C false l
  | PermitOverrides => set_permit_overrides C false false l
  | FirstApplicable => set_first_applicable C l
  end.

(** The member at a position asked for its decision; IndexError of the list beyond the end *)
Definition ask_member (l : list (context -> res answer)) (i : nat) (c : context) : res answer :=
  match nth_error l i with
  | Some f => f c
  | None => Raise EIndexError
  end.

(** [self.policyCombiningAlg.evaluate(self.policies, context)], policyset.py:383-390;
    [l] has [policy.evaluate] of each member *)
Definition run_policy_alg (C : cenv) (a : calg) (children : list cpolicy)
  (l : list (context -> res answer)) (c : context) : res answer :=
  match a with
  | Std a => set_combine C a (map (fun f => f c) l)
  | User k => play_policies (ask_member l) (ce_policies C k children c)
  end.

(** The target check of PolicyBase.evaluate, policybase.py:142-158 *)
Definition check_target (E : env) (c : context) (t : option target) (rest : res answer)
  : res answer :=
  let* targetMatch := match t with
                      | Some t => target_match E c t
                      | None => Ok true
                      end in
  if negb targetMatch then Ok (ADecision NotApplicable) else rest.

(** PolicyBase.evaluate, policybase.py:124-174 *)
Fixpoint c_evaluate (C : cenv) (p : cpolicy) (c : context) : res answer :=
  match p with
  | CPolicy t alg rules =>
      catch_answer (check_target (ce_env C) c t
        (match alg with
         | None => Raise EAttributeError
         | Some a => run_rule_alg C a rules c
         end))
  | CPolicySet t alg children =>
      catch_answer (check_target (ce_env C) c t
        (match alg with
         | None => Raise EAttributeError
         | Some a => run_policy_alg C a children (map (c_evaluate C) children) c
         end))
  | CUser k => ce_user C k c
  end.

(** PolicyBase.evaluateResponse, policybase.py:99-122, with the setter of Result.decision,
    context/result.py:588-599.  The outcome is the decision of the only result. *)
Definition c_response (C : cenv) (p : cpolicy) (c : context) : res decision :=
  match c_evaluate C p c with
  | Ok (ADecision d) => Ok d
  | Ok _ => Raise ETypeError
  | Raise e => if is_context_error e then Ok NotApplicable else Raise e
  end.

(** ** Where algorithms come from *)

(** What a factory may return: a class derived from the interface for rules, from that for
    policies, from both or from neither (a class that is no algorithm), with its number;
    NotImplemented or another object that is no class. *)
Inductive entry : Type :=
| EnClass (forRules forPolicies : bool) (a : calg)
| EnNotImplemented
| EnOther.

(** Whether an object is a Policy or a PolicySet, a factory one for rules or for policies *)
Inductive side : Type := ForRules | ForPolicies.

(** A factory: of the library's class, referring to a dict (rule_combining_alg.py:228-234,
    policy_combining_alg.py:200-207), or of a user's subclass with its own [__call__]. *)
Inductive factory : Type :=
| FTable (s : side) (d : nat)
| FUser (s : side) (k : N).

Definition factory_side (f : factory) : side :=
  match f with FTable s _ => s | FUser s _ => s end.

(** ruleCombiningAlg or policyCombiningAlg: None, the constant NotImplemented, or an
    algorithm *)
Inductive slot : Type := SNone | SNotImplemented | SAlg (a : calg).

(** The part of a Policy (policy.py:95-140) or PolicySet (policyset.py:93-131) about its
    combining algorithm *)
Record holder : Type := mkHolder {
  ho_side : side;
  ho_id : option string;
  ho_factory : factory;
  ho_alg : slot
}.

(** The dicts in use, 0 and 1 being DEFAULT_MAP of the two factory classes, the number of
    calls to the user's code so far, and the policies and policy sets in order of their
    creation. *)
Record cstate : Type := mkCstate {
  cs_tables : nat -> list (string * entry);
  cs_calls : nat;
  cs_holders : list holder
}.

(** What [cls()] gives: an algorithm object, None or NotImplemented (from the [__new__] of
    the class), or an exception *)
Inductive made : Type := MadeObject | MadeNone | MadeNotImplemented | MadeRaise (e : exn).

(** The user's code: [__call__] of factories ([None] for the value None) and creation of
    objects; it may depend on what happened before. *)
Record uenv : Type := mkUenv {
  ue_call : N -> nat -> string -> res (option entry);
  ue_make : N -> nat -> made
}.

Definition of_entry (e : alg_entry) : side -> entry :=
  fun s => match e with
           | AlgClass a =>
               match s with
               | ForRules => EnClass true false (Std a)
               | ForPolicies => EnClass false true (Std a)
               end
           | AlgNotImplemented => EnNotImplemented
           | AlgNotDerived => EnOther
           end.

(** DEFAULT_MAP of the two classes, rule_combining_alg.py:215-227 and
    policy_combining_alg.py:187-199 *)
Definition default_table (s : side) : list (string * entry) :=
  map (fun p => (fst p, of_entry (snd p) s))
    (match s with ForRules => RULE_ALG_MAP | ForPolicies => POLICY_ALG_MAP end).

Definition default_dict (s : side) : nat :=
  match s with ForRules => 0 | ForPolicies => 1 end.

Definition cstate_start : cstate :=
  mkCstate (fun d => match d with
                     | 0 => default_table ForRules
                     | 1 => default_table ForPolicies
                     | _ => []
                     end) 0 [].

(** A value given as a factory or as an id *)
Inductive farg : Type := GFactory (f : factory) | GOther.

Inductive fop : Type :=
| FRegister (d : nat) (id : string) (e : entry)   (* d[id] = e, DEFAULT_MAP included *)
| FNew (s : side) (f : option farg)               (* Policy(f), PolicySet(f) *)
| FSetFactory (p : nat) (x : farg)
| FSetId (p : nat) (x : native).

Definition side_eqb (a b : side) : bool :=
  match a, b with
  | ForRules, ForRules | ForPolicies, ForPolicies => true
  | _, _ => false
  end.

(** [self.__ruleCombiningAlgFactory(id)]: [dict.get] of the library's factories
    (rule_combining_alg.py:236-248, policy_combining_alg.py:209-221) *)
Definition call_factory (U : uenv) (s : cstate) (f : factory) (id : string)
  : res (option entry) * cstate :=
  match f with
  | FTable _ d => (Ok (dict_get id (cs_tables s d)), s)
  | FUser _ k =>
      (ue_call U k (cs_calls s) id, mkCstate (cs_tables s) (S (cs_calls s)) (cs_holders s))
  end.

(** [cls()]; the library's classes define no constructor *)
Definition make_alg (U : uenv) (s : cstate) (a : calg) : made * cstate :=
  match a with
  | Std _ => (MadeObject, s)
  | User k => (ue_make U k (cs_calls s), mkCstate (cs_tables s) (S (cs_calls s)) (cs_holders s))
  end.

Definition put_holder (p : nat) (h : holder) (s : cstate) : cstate :=
  mkCstate (cs_tables s) (cs_calls s) (set_nth p h (cs_holders s)).

(** [isinstance(cls, type) and issubclass(cls, interface)], policy.py:274-275,
    policyset.py:265-267 *)
Definition fits (s : side) (e : option entry) : option calg :=
  match e with
  | Some (EnClass r p a) =>
      if (match s with ForRules => r | ForPolicies => p end) then Some a else None
  | _ => None
  end.

(** Policy._setRuleCombiningAlgFromId, policy.py:261-289, and
    PolicySet._setPolicyCombiningAlgFromId, policyset.py:252-282 *)
Definition alg_from_id (U : uenv) (p : nat) (h : holder) (id : string) (s : cstate)
  : res unit * cstate :=
  match call_factory U s (ho_factory h) id with
  | (Raise e, s) => (Raise e, s)
  | (Ok r, s) =>
      match fits (ho_side h) r with
      | None => (Raise ETypeError, s)
      | Some a =>
          match make_alg U s a with
          | (MadeRaise e, s) => (Raise e, s)
          | (MadeObject, s) =>
              (Ok tt, put_holder p (mkHolder (ho_side h) (ho_id h) (ho_factory h) (SAlg a)) s)
          | (MadeNotImplemented, s) =>
              (Raise EUnsupportedStdFunctionError,
               put_holder p (mkHolder (ho_side h) (ho_id h) (ho_factory h) SNotImplemented) s)
          | (MadeNone, s) =>
              (Raise EUnsupportedFunctionError,
               put_holder p (mkHolder (ho_side h) (ho_id h) (ho_factory h) SNone) s)
          end
      end
  end.

Definition accepted (s : side) (x : farg) : option factory :=
  match x with
  | GFactory f => if side_eqb (factory_side f) s then Some f else None
  | GOther => None
  end.

(** policy.py:108-160 and 249-259, policyset.py:106-131, 167-178 and 240-250.  An operation
    on a policy that does not exist is no operation of any program; here it changes
    nothing. *)
Definition f_step (U : uenv) (s : cstate) (o : fop) : res unit * cstate :=
  match o with
  | FRegister d id e =>
      (Ok tt, mkCstate (fun d' => if Nat.eqb d' d then dict_set id e (cs_tables s d)
                                  else cs_tables s d')
                (cs_calls s) (cs_holders s))
  | FNew sd f =>
      match (match f with
             | None => Some (FTable sd (default_dict sd))
             | Some x => accepted sd x
             end) with
      | Some f => (Ok tt, mkCstate (cs_tables s) (cs_calls s)
                            (cs_holders s ++ [mkHolder sd None f SNone]))
      | None => (Raise ETypeError, s)
      end
  | FSetFactory p x =>
      match nth_error (cs_holders s) p with
      | None => (Raise ENameError, s)
      | Some h =>
          match accepted (ho_side h) x with
          | Some f => (Ok tt, put_holder p (mkHolder (ho_side h) (ho_id h) f (ho_alg h)) s)
          | None => (Raise ETypeError, s)
          end
      end
  | FSetId p x =>
      match nth_error (cs_holders s) p with
      | None => (Raise ENameError, s)
      | Some h =>
          match x with
          | NStr id =>
              let h := mkHolder (ho_side h) (Some id) (ho_factory h) (ho_alg h) in
              alg_from_id U p h id (put_holder p h s)
          | _ => (Raise ETypeError, s)
          end
      end
  end.

Definition f_run (U : uenv) (ops : list fop) (s : cstate) : cstate :=
  fold_left (fun s o => snd (f_step U s o)) ops s.
