(** The members every object of the policy and context classes has from XacmlCoreBase:
    xmlns, isValidXmlns and elem; classes that are not implemented; and what the members
    have to do with copying.  Objects.v leaves these members out. *)
From Verif Require Export Copy.

(** ** Classes *)

(** A class to make an object of: one of the library, one of the three that only raise
    (variabledefinition.py:15-28, variablereference.py:15-28, combinerparameter.py:13-24), or
    one derived by the user from XacmlCoreBase, XacmlPolicyBase, XacmlContextBase or
    TargetChildBase, with its ELEMENT_LOCAL_NAME ([None] if left as it is; [Some (Some s)] a
    string; [Some None] something else that is not None) and for the last whether MATCH_TYPE
    is set. *)
Inductive user_base : Type := OnCore | OnPolicy | OnContext | OnTargetChild (match_type : bool).
Inductive mclass : Type :=
| MLibrary (c : ccls)
| MVariableDefinition | MVariableReference | MCombinerParameter
| MUser (b : user_base) (local_name : option (option string)).

(** XacmlPolicyBase.XACML_2_0_POLICY_NS, core/__init__.py:35-39,129-130 *)
Definition POLICY_NS : string := ("urn:oasis:names:tc:xacml:2.0" ++ ":policy:schema:os")%string.
(** XacmlCoreBase.XMLNS, core/__init__.py:34-37 *)
Definition XMLNS : list string := ["urn:oasis:names:tc:xacml:1.0"; "urn:oasis:names:tc:xacml:2.0"].

(** XacmlCoreBase.__init__, core/__init__.py:43-56: the slots, then the test of
    ELEMENT_LOCAL_NAME *)
Definition core_slots : list (string * pval) :=
  [("xmlns", PNone); ("elem", PNone); ("reader", PNone); ("writer", PNone)].
Definition core_init (local_name : option (option string)) : res (list (string * pval)) :=
  match local_name with
  | Some (Some _) => Ok core_slots
  | Some None | None => Raise ENotImplementedError
  end.
(** XacmlPolicyBase.__init__, core/__init__.py:133-138 *)
Definition policy_init (local_name : option (option string)) : res (list (string * pval)) :=
  let* s := core_init local_name in
  Ok (dict_set "xmlns" (PNat (NStr POLICY_NS)) s).
(** XacmlContextBase.__init__, context/__init__.py:30-38; its own test comes too late to
    matter *)
Definition context_init (local_name : option (option string)) : res (list (string * pval)) :=
  let* s := core_init local_name in
  match local_name with
  | None => Raise ENotImplementedError
  | Some _ => Ok s
  end.
(** TargetChildBase.__init__, core/__init__.py:156-165 *)
Definition target_child_init (match_type : bool) (local_name : option (option string))
  : res (list (string * pval)) :=
  let* s := policy_init local_name in
  if match_type then Ok s else Raise ENotImplementedError.

(** Which of them runs for a class of the library; MatchBase (match.py:72-86), Target
    (target.py:62-67) and Obligation (obligation.py:167-171) do not call that of their base
    class.  [None]: the class is not derived from XacmlCoreBase (PDP, effects and
    decisions).  All classes that are listed define ELEMENT_LOCAL_NAME. *)
Definition library_init (c : ccls) : option (list (string * pval)) :=
  match c with
  | CCore (KMatch _) | CCore KTarget | CCore KObligation => Some []
  | CCore (KTargetChild _) =>
      match target_child_init true (Some (Some "")) with Ok s => Some s | Raise _ => None end
  | CCore KCtxSubject | CCore KCtxResource | CCore KCtxAction | CCore KCtxEnvironment
  | CCore KRequest | CResponse | CResult | CStatus | CStatusCode =>
      match context_init (Some (Some "")) with Ok s => Some s | Raise _ => None end
  | CCore (KDesignator _) | CCore KSelector | CCore KApply | CCore KCondition | CCore KRule
  | CCore KPolicyDefaults | CCore KPolicy | CCore KPolicySet | CCore KAttribute | CValue _ =>
      match core_init (Some (Some "")) with Ok s => Some s | Raise _ => None end
  | CCore KPdp | CEffect | CDecision _ => None
  end.

(** ** Objects and operations *)

(** An object: its class and the slots of XacmlCoreBase that are set. *)
Definition mobjects : Type := list (mclass * list (string * pval)).

Inductive mop : Type :=
| MNew (c : mclass)
| MSetXmlns (i : nat) (v : pval)        (* obj.xmlns = v *)
| MSetElem (i : nat) (v : pval)         (* obj.elem = v *)
| MDelXmlns (i : nat)                   (* del obj.xmlns: the property has no deleter *)
| MDelElem (i : nat).

(** cls(), with what the constructors of core/ and context/ do about the slots *)
Definition mnew (c : mclass) : res (list (string * pval)) :=
  match c with
  | MLibrary c => match library_init c with Some s => Ok s | None => Ok [] end
  | MVariableDefinition | MVariableReference | MCombinerParameter => Raise ENotImplementedError
  | MUser OnCore n => core_init n
  | MUser OnPolicy n => policy_init n
  | MUser OnContext n => context_init n
  | MUser (OnTargetChild t) n => target_child_init t n
  end.

(** Objects of classes that are not derived from XacmlCoreBase have no such properties. *)
Definition has_members (c : mclass) : bool :=
  match c with
  | MLibrary c => match library_init c with Some _ => true | None => false end
  | MCombinerParameter => false
  | _ => true
  end.

Fixpoint mput (i : nat) (s : list (string * pval)) (objs : mobjects) : mobjects :=
  match i, objs with
  | _, [] => []
  | O, (c, _) :: r => (c, s) :: r
  | S i, o :: r => o :: mput i s r
  end.

(** _setXmlns, core/__init__.py:65-73; elem, 95-103 *)
Definition mstep (objs : mobjects) (o : mop) : res unit * mobjects :=
  let on i f := match nth_error objs i with
                | Some (c, s) => if has_members c then f c s else (Raise EAttributeError, objs)
                | None => (Raise EAttributeError, objs)
                end in
  match o with
  | MNew c => match mnew c with
              | Ok s => (Ok tt, objs ++ [(c, s)])%list
              | Raise e => (Raise e, objs)
              end
  | MSetXmlns i v =>
      on i (fun c s => match v with
                       | PNat (NStr _) => (Ok tt, mput i (dict_set "xmlns" v s) objs)
                       | _ => (Raise ETypeError, objs)
                       end)
  | MSetElem i v => on i (fun c s => (Ok tt, mput i (dict_set "elem" v s) objs))
  | MDelXmlns _ | MDelElem _ => (Raise EAttributeError, objs)
  end.
Definition mrun (ops : list mop) (objs : mobjects) : mobjects :=
  fold_left (fun objs o => snd (mstep objs o)) ops objs.

(** ** Reading *)

(** _getXmlns, core/__init__.py:58-63, and elem, 87-93: a slot that is not set is an
    AttributeError, which is also what an object without the property gives *)
Definition read_xmlns (objs : mobjects) (i : nat) : res pval :=
  match nth_error objs i with
  | Some (c, s) => if has_members c then slot s "xmlns" else Raise EAttributeError
  | None => Raise EAttributeError
  end.
Definition read_elem (objs : mobjects) (i : nat) : res pval :=
  match nth_error objs i with
  | Some (c, s) => if has_members c then slot s "elem" else Raise EAttributeError
  | None => Raise EAttributeError
  end.
(** isValidXmlns, core/__init__.py:78-84; a value of xmlns that is not a string is None *)
Definition is_valid_xmlns (objs : mobjects) (i : nat) : res bool :=
  let* v := read_xmlns objs i in
  Ok (match v with PNat (NStr s) => str_in s XMLNS | _ => false end).

(** __getstate__ of an object with these slots and with [own] attributes of its class: what
    copy.copy, copy.deepcopy and pickle begin with (Copy.v) *)
Definition copy_state (E : copy_env) (objs : mobjects) (i : nat) (own : list (string * pval))
  : option (res state) :=
  match nth_error objs i with
  | Some (MLibrary c, s) => Some (getstate E c (s ++ own))
  | _ => None
  end.
