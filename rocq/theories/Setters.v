(** Property setters of the policy and context objects: attribute values, effects,
    decisions, status codes, matches, applies, combining algorithm ids. *)
From Verif Require Export FuncMap Syntax.

(** ** Objects that may be assigned

    Any Python object given to a property setter.  [ONat] are the native values
    (including None and instances of unrelated classes, [NOther]); effects and
    decisions are represented by their value string; [OFunctionMap k] is the
    function map object number [k]; [OAlgFactory m] a combining algorithm class
    factory of the right kind with table [m]. *)
Inductive alg_entry : Type :=
| AlgClass (a : comb_alg)     (* a class derived from the algorithm interface *)
| AlgNotImplemented           (* the constant NotImplemented *)
| AlgNotDerived.              (* anything else that is not None *)

Inductive pyobj : Type :=
| ONat (v : native)
| OAttrVal (a : attrval)
| ODesignator (d : designator)
| OSelector (s : selector)
| OEffect (value : string)
| ODecision (value : string)
| OFunctionMap (k : nat)
| OAlgFactory (m : list (string * alg_entry)).

(** ** AttributeValue: value (attributevalue.py:163-185) and dataType
    (expression.py:31-48) *)
Inductive avop : Type := AVSetValue (x : native) | AVSetDataType (x : native).

Definition av_step (v : attrval) (o : avop) : res unit * attrval :=
  match o with
  | AVSetValue x =>
      match av_set_value v x with
      | Ok v' => (Ok tt, v')
      | Raise e => (Raise e, v)
      end
  | AVSetDataType x =>
      match x with
      | NStr s => (Ok tt, mkAV (av_class v) s (av_value v))
      | _ => (Raise ETypeError, v)
      end
  end.

Definition av_run (v : attrval) (ops : list avop) : attrval :=
  fold_left (fun v o => snd (av_step v o)) ops v.

(** ** Effect (core/rule.py:22-146) *)

(** Effect.TYPES, rule.py:37-39 *)
Definition EFFECT_TYPES : list string := ["Deny"; "Permit"].

(** Effect._setValue, rule.py:75-94.  [None] is the value of an object under
    construction. PermitEffect and DenyEffect (149-176) inherit the property bound
    to this function, so it also is the setter of the shared objects. *)
Definition effect_set (self : option string) (x : pyobj) : res unit * option string :=
  let vocab s := if str_in s EFFECT_TYPES then (Ok tt, Some s) else (Raise EAttributeError, self) in
  match x with
  | OEffect s => vocab s
  | ONat (NStr s) => vocab s
  | _ => (Raise ETypeError, self)
  end.

(** Effect.__init__, rule.py:42-47 *)
Definition effect_new (x : pyobj) : res string :=
  match effect_set None x with
  | (Ok _, Some s) => Ok s
  | (Ok _, None) => Raise ETypeError
  | (Raise e, _) => Raise e
  end.

(** Effect.__eq__, rule.py:114-138; the message of the TypeError refers to an
    unbound local variable. *)
Definition effect_eq (self : string) (x : pyobj) : res bool :=
  let cmp s := if str_in s EFFECT_TYPES then Ok (String.eqb self s) else Raise EAttributeError in
  match x with
  | OEffect s => cmp s
  | ONat (NStr s) => cmp s
  | _ => Raise EUnboundLocalError
  end.

(** Effect.__bool__, rule.py:140-146 *)
Definition effect_bool (self : string) : bool := String.eqb self "Permit".

(** ** Decision (core/context/result.py:242-413) *)

(** Decision.TYPES, result.py:277-289 *)
Definition DECISION_TYPES : list string :=
  ["Permit"; "Deny"; "Indeterminate"; "NotApplicable"].

(** Decision._setValue, result.py:342-361 *)
Definition decision_set (self : option string) (x : pyobj) : res unit * option string :=
  let vocab s := if str_in s DECISION_TYPES then (Ok tt, Some s) else (Raise EAttributeError, self) in
  match x with
  | ODecision s => vocab s
  | ONat (NStr s) => vocab s
  | _ => (Raise ETypeError, self)
  end.

(** Decision.__init__, result.py:312-314 *)
Definition decision_new (x : pyobj) : res string :=
  match decision_set None x with
  | (Ok _, Some s) => Ok s
  | (Ok _, None) => Raise ETypeError
  | (Raise e, _) => Raise e
  end.

(** Decision.__eq__, result.py:389-413 *)
Definition decision_eq (self : string) (x : pyobj) : res bool :=
  let cmp s := if str_in s DECISION_TYPES then Ok (String.eqb self s) else Raise EAttributeError in
  match x with
  | ODecision s => cmp s
  | ONat (NStr s) => cmp s
  | _ => Raise EUnboundLocalError
  end.

(** ** StatusCode (result.py:19-112) *)

(** StatusCode.CODES, result.py:50-58 *)
Definition STATUS_CODES : list string :=
  [ "urn:oasis:names:tc:xacml:1.0:status:ok";
    "urn:oasis:names:tc:xacml:1.0:status:missing-attribute";
    "urn:oasis:names:tc:xacml:1.0:status:processing-error";
    "urn:oasis:names:tc:xacml:1.0:status:syntax-error" ].

(** StatusCode._setValue, result.py:97-110; the value is initially None *)
Definition status_code_set (self : option string) (x : pyobj) : res unit * option string :=
  match x with
  | ONat (NStr s) =>
      if str_in s STATUS_CODES then (Ok tt, Some s) else (Raise EAttributeError, self)
  | _ => (Raise ETypeError, self)
  end.

(** A sequence of assignments with one setter. *)
Definition set_run {S X} (setter : S -> X -> res unit * S) (xs : list X) (s : S) : S :=
  fold_left (fun s x => snd (setter s x)) xs s.

(** ** Function maps seen by several objects: object number [k] has state [maps k] *)
Definition fmaps : Type := nat -> fmap.
Definition maps_set (k : nat) (m : fmap) (w : fmaps) : fmaps :=
  fun j => if Nat.eqb j k then m else w j.

(** ** Match (core/match.py) *)

(** MatchBase instance, match.py:62-86 *)
Record matchobj : Type := mkMatchObj {
  mo_value : option attrval;
  mo_designator : option designator;
  mo_selector : option selector;
  mo_id : option string;
  mo_fn : option fn;
  mo_map : nat;
  mo_load : bool
}.

(** MatchBase.__init__, match.py:72-86: the function map is the module's shared
    one, number 0 *)
Definition mo_new : matchobj := mkMatchObj None None None None None 0 true.

Inductive mop : Type :=
| MSetValue (x : pyobj)
| MSetDesignator (x : pyobj)
| MSetSelector (x : pyobj)
| MSetId (x : pyobj)
| MSetLoad (x : pyobj)
| MSetMap (x : pyobj)
| MFromMap (k : nat)
| MOnMap (k : nat) (o : fop).   (* somebody uses function map [k] *)

(** MatchBase.setFunctionFromMap, match.py:214-244 *)
Definition mo_from_map (cm : list (string * avclass)) (k : nat) (self : matchobj) (w : fmaps)
  : res unit * matchobj * fmaps :=
  match mo_id self with
  | None => (Raise EAttributeError, self, w)
  | Some id =>
      let '(r, m) := fm_get cm id (w k) in
      let w' := maps_set k m w in
      match r with
      | Raise e => (Raise e, self, w')
      | Ok (Some FNotImplemented) => (Raise EUnsupportedStdFunctionError, self, w')
      | Ok None => (Raise EUnsupportedFunctionError, self, w')
      | Ok (Some (FUnusable e)) => (Raise e, self, w')
      | Ok (Some (FImpl f)) =>
          (Ok tt, mkMatchObj (mo_value self) (mo_designator self) (mo_selector self)
                    (mo_id self) (Some f) (mo_map self) (mo_load self), w')
      end
  end.

(** The setters: attributeValue match.py:96-108, attributeDesignator 118-135,
    attributeSelector 145-160, matchId 169-183, loadFunctionFromId 200-212,
    functionMap 256-270 *)
Definition mo_step (cm : list (string * avclass)) (o : mop) (self : matchobj) (w : fmaps)
  : res unit * matchobj * fmaps :=
  match o with
  | MSetValue x =>
      match x with
      | OAttrVal a => (Ok tt, mkMatchObj (Some a) (mo_designator self) (mo_selector self)
                                (mo_id self) (mo_fn self) (mo_map self) (mo_load self), w)
      | _ => (Raise ETypeError, self, w)
      end
  | MSetDesignator x =>
      match x with
      | ODesignator d => (Ok tt, mkMatchObj (mo_value self) (Some d) None
                                   (mo_id self) (mo_fn self) (mo_map self) (mo_load self), w)
      | _ => (Raise ETypeError, self, w)
      end
  | MSetSelector x =>
      match x with
      | OSelector s => (Ok tt, mkMatchObj (mo_value self) None (Some s)
                                 (mo_id self) (mo_fn self) (mo_map self) (mo_load self), w)
      | _ => (Raise ETypeError, self, w)
      end
  | MSetId x =>
      match x with
      | ONat (NStr id) =>
          let self' := mkMatchObj (mo_value self) (mo_designator self) (mo_selector self)
                         (Some id) (mo_fn self) (mo_map self) (mo_load self) in
          if mo_load self' then mo_from_map cm (mo_map self') self' w else (Ok tt, self', w)
      | _ => (Raise ETypeError, self, w)
      end
  | MSetLoad x =>
      match x with
      | ONat (NBool b) => (Ok tt, mkMatchObj (mo_value self) (mo_designator self)
                             (mo_selector self) (mo_id self) (mo_fn self) (mo_map self) b, w)
      | _ => (Raise ETypeError, self, w)
      end
  | MSetMap x =>
      match x with
      | OFunctionMap k => (Ok tt, mkMatchObj (mo_value self) (mo_designator self)
                             (mo_selector self) (mo_id self) (mo_fn self) k (mo_load self), w)
      | _ => (Raise ETypeError, self, w)
      end
  | MFromMap k => mo_from_map cm k self w
  | MOnMap k fo => (Ok tt, self, maps_set k (fm_step cm fo (w k)) w)
  end.

Definition mo_run (cm : list (string * avclass)) (ops : list mop) (s : matchobj * fmaps)
  : matchobj * fmaps :=
  fold_left (fun s o => let '(_, self, w) := mo_step cm o (fst s) (snd s) in (self, w)) ops s.

(** The match element of the evaluation model that a match object is. *)
Definition mo_matchel (self : matchobj) : matchel :=
  mkMatch (mo_id self) (mo_fn self) (mo_value self) (mo_designator self) (mo_selector self).

(** ** Apply (core/apply.py); its expressions are a TypedList, see Utils.v *)

(** Apply instance, apply.py:43-58 *)
Record applyobj : Type := mkApplyObj {
  ao_id : option string;
  ao_fn : option fn;
  ao_map : nat;
  ao_load : bool
}.
Definition ao_new : applyobj := mkApplyObj None None 0 true.

Inductive aop : Type :=
| ASetId (x : pyobj)
| ASetLoad (x : pyobj)
| ASetMap (x : pyobj)
| AFromMap (k : nat)
| AOnMap (k : nat) (o : fop).

(** Apply.setFunctionFromMap, apply.py:110-142 *)
Definition ao_from_map (cm : list (string * avclass)) (k : nat) (self : applyobj) (w : fmaps)
  : res unit * applyobj * fmaps :=
  match ao_id self with
  | None => (Raise EAttributeError, self, w)
  | Some id =>
      let '(r, m) := fm_get cm id (w k) in
      let w' := maps_set k m w in
      match r with
      | Raise e => (Raise e, self, w')
      | Ok (Some FNotImplemented) => (Raise EUnsupportedStdFunctionError, self, w')
      | Ok None => (Raise EUnsupportedFunctionError, self, w')
      | Ok (Some (FUnusable e)) => (Raise e, self, w')
      | Ok (Some (FImpl f)) =>
          (Ok tt, mkApplyObj (ao_id self) (Some f) (ao_map self) (ao_load self), w')
      end
  end.

(** loadFunctionFromId apply.py:69-82, functionId 91-105, functionMap 153-166 *)
Definition ao_step (cm : list (string * avclass)) (o : aop) (self : applyobj) (w : fmaps)
  : res unit * applyobj * fmaps :=
  match o with
  | ASetId x =>
      match x with
      | ONat (NStr id) =>
          let self' := mkApplyObj (Some id) (ao_fn self) (ao_map self) (ao_load self) in
          if ao_load self' then ao_from_map cm (ao_map self') self' w else (Ok tt, self', w)
      | _ => (Raise ETypeError, self, w)
      end
  | ASetLoad x =>
      match x with
      | ONat (NBool b) => (Ok tt, mkApplyObj (ao_id self) (ao_fn self) (ao_map self) b, w)
      | _ => (Raise ETypeError, self, w)
      end
  | ASetMap x =>
      match x with
      | OFunctionMap k => (Ok tt, mkApplyObj (ao_id self) (ao_fn self) k (ao_load self), w)
      | _ => (Raise ETypeError, self, w)
      end
  | AFromMap k => ao_from_map cm k self w
  | AOnMap k fo => (Ok tt, self, maps_set k (fm_step cm fo (w k)) w)
  end.

Definition ao_run (cm : list (string * avclass)) (ops : list aop) (s : applyobj * fmaps)
  : applyobj * fmaps :=
  fold_left (fun s o => let '(_, self, w) := ao_step cm o (fst s) (snd s) in (self, w)) ops s.

(** ** Combining algorithm ids *)

(** rule_combining_alg.py:21-33 *)
Definition RULE_ALGORITHMS : list string :=
  [ "urn:oasis:names:tc:xacml:1.0:rule-combining-algorithm:deny-overrides";
    "urn:oasis:names:tc:xacml:1.0:policy-combining-algorithm:deny-overrides";
    "urn:oasis:names:tc:xacml:1.0:rule-combining-algorithm:permit-overrides";
    "urn:oasis:names:tc:xacml:1.0:policy-combining-algorithm:permit-overrides";
    "urn:oasis:names:tc:xacml:1.0:rule-combining-algorithm:first-applicable";
    "urn:oasis:names:tc:xacml:1.0:policy-combining-algorithm:first-applicable";
    "urn:oasis:names:tc:xacml:1.0:policy-combining-algorithm:only-one-applicable";
    "urn:oasis:names:tc:xacml:1.1:rule-combining-algorithm:ordered-deny-overrides";
    "urn:oasis:names:tc:xacml:1.1:policy-combining-algorithm:ordered-deny-overrides";
    "urn:oasis:names:tc:xacml:1.1:rule-combining-algorithm:ordered-permit-overrides";
    "urn:oasis:names:tc:xacml:1.1:policy-combining-algorithm:ordered-permit-overrides" ].

(** RuleCombiningAlgClassFactory.DEFAULT_MAP, rule_combining_alg.py:215-227 *)
Definition RULE_ALG_MAP : list (string * alg_entry) :=
  fold_left (fun m p => dict_set (fst p) (snd p) m)
    [ ("urn:oasis:names:tc:xacml:1.0:rule-combining-algorithm:deny-overrides",
       AlgClass DenyOverrides);
      ("urn:oasis:names:tc:xacml:1.0:rule-combining-algorithm:permit-overrides",
       AlgClass PermitOverrides);
      ("urn:oasis:names:tc:xacml:1.0:rule-combining-algorithm:first-applicable",
       AlgClass FirstApplicable) ]
    (map (fun a => (a, AlgNotImplemented)) RULE_ALGORITHMS).

(** policy_combining_alg.py:21-28 *)
Definition POLICY_ALGORITHMS : list string :=
  [ "urn:oasis:names:tc:xacml:1.0:policy-combining-algorithm:deny-overrides";
    "urn:oasis:names:tc:xacml:1.0:policy-combining-algorithm:permit-overrides";
    "urn:oasis:names:tc:xacml:1.0:policy-combining-algorithm:first-applicable";
    "urn:oasis:names:tc:xacml:1.0:policy-combining-algorithm:only-one-applicable";
    "urn:oasis:names:tc:xacml:1.1:policy-combining-algorithm:ordered-deny-overrides";
    "urn:oasis:names:tc:xacml:1.1:policy-combining-algorithm:ordered-permit-overrides" ].

(** PolicyCombiningAlgClassFactory.DEFAULT_MAP, policy_combining_alg.py:187-199 *)
Definition POLICY_ALG_MAP : list (string * alg_entry) :=
  fold_left (fun m p => dict_set (fst p) (snd p) m)
    [ ("urn:oasis:names:tc:xacml:1.0:policy-combining-algorithm:deny-overrides",
       AlgClass DenyOverrides);
      ("urn:oasis:names:tc:xacml:1.0:policy-combining-algorithm:permit-overrides",
       AlgClass PermitOverrides);
      ("urn:oasis:names:tc:xacml:1.0:policy-combining-algorithm:first-applicable",
       AlgClass FirstApplicable) ]
    (map (fun a => (a, AlgNotImplemented)) POLICY_ALGORITHMS).

(** RuleCombiningAlgClassFactory.__call__, rule_combining_alg.py:236-248, and
    PolicyCombiningAlgClassFactory.__call__, policy_combining_alg.py:209-221, of a factory
    with the given table *)
Definition alg_factory_call (table : list (string * alg_entry)) (id : string) : option alg_entry :=
  dict_get id table.

(** The part of a Policy object about its combining algorithm, policy.py:95-140:
    ruleCombiningAlgId, ruleCombiningAlgFactory (its table), ruleCombiningAlg. *)
Record polalg : Type := mkPolAlg {
  pa_id : option string;
  pa_factory : list (string * alg_entry);
  pa_alg : option comb_alg
}.
Definition policy_alg_new : polalg := mkPolAlg None RULE_ALG_MAP None.
(** The same for a PolicySet, policyset.py:93-131 *)
Definition policyset_alg_new : polalg := mkPolAlg None POLICY_ALG_MAP None.

Inductive paop : Type := PASetId (x : pyobj) | PASetFactory (x : pyobj).

(** Policy._setRuleCombiningAlgFromId, policy.py:261-289.  The class comes from the
    factory (RuleCombiningAlgClassFactory.__call__, rule_combining_alg.py:236-248);
    the tests for an algorithm object that is NotImplemented or None cannot
    succeed.  Simplification: instantiating the algorithm class does not raise. *)
Definition policy_alg_from_id (self : polalg) (id : string) : res unit * polalg :=
  match dict_get id (pa_factory self) with
  | Some (AlgClass a) => (Ok tt, mkPolAlg (pa_id self) (pa_factory self) (Some a))
  | Some AlgNotImplemented | Some AlgNotDerived | None => (Raise ETypeError, self)
  end.

(** Policy._setRuleCombiningAlgId 249-259 and _setRuleCombiningAlgFactory 149-160 *)
Definition policy_alg_step (self : polalg) (o : paop) : res unit * polalg :=
  match o with
  | PASetId x =>
      match x with
      | ONat (NStr id) =>
          policy_alg_from_id (mkPolAlg (Some id) (pa_factory self) (pa_alg self)) id
      | _ => (Raise ETypeError, self)
      end
  | PASetFactory x =>
      match x with
      | OAlgFactory m => (Ok tt, mkPolAlg (pa_id self) m (pa_alg self))
      | _ => (Raise ETypeError, self)
      end
  end.

(** PolicySet._setPolicyCombiningAlgFromId, policyset.py:253-282, with
    PolicyCombiningAlgClassFactory.__call__, policy_combining_alg.py:209-221 *)
Definition policyset_alg_from_id (self : polalg) (id : string) : res unit * polalg :=
  match dict_get id (pa_factory self) with
  | Some (AlgClass a) => (Ok tt, mkPolAlg (pa_id self) (pa_factory self) (Some a))
  | Some AlgNotImplemented | Some AlgNotDerived | None => (Raise ETypeError, self)
  end.

(** PolicySet._setPolicyCombiningAlgId 240-251 and
    _setPolicyCombiningAlgFactory 167-178 *)
Definition policyset_alg_step (self : polalg) (o : paop) : res unit * polalg :=
  match o with
  | PASetId x =>
      match x with
      | ONat (NStr id) =>
          policyset_alg_from_id (mkPolAlg (Some id) (pa_factory self) (pa_alg self)) id
      | _ => (Raise ETypeError, self)
      end
  | PASetFactory x =>
      match x with
      | OAlgFactory m => (Ok tt, mkPolAlg (pa_id self) m (pa_alg self))
      | _ => (Raise ETypeError, self)
      end
  end.
