(** Effects of rules, effects of obligations and decisions as objects: made, assigned,
    copied, compared, looked for in lists, used as conditions and printed.  C40 is about
    the values one such object takes; here there are many, of the classes of the library
    and of classes derived from them. *)
From Verif Require Export Values.

(** The three classes with a vocabulary: rule.py:22 Effect, obligation.py:21 Effect,
    context/result.py:242 Decision *)
Inductive vfamily : Type := RuleEffect | ObligationEffect | DecisionFamily.

(** One of these or a class derived from it.  [vc_path] names the classes from the one of
    the library down to this one; [vc_types] is TYPES as the class has it; [vc_fixed] the
    string that the constructor passes on, for classes whose constructor takes no argument.
    Simplification: a derived class overrides TYPES and __init__ only; TYPES is not
    assigned to. *)
Record vclass : Type := mkVClass {
  vc_family : vfamily;
  vc_path : list string;
  vc_types : list string;
  vc_fixed : option string
}.

(** rule.py:33-39, obligation.py:37-43, context/result.py:280-293 *)
Definition rule_effect : vclass := mkVClass RuleEffect [] ["Deny"; "Permit"] None.
Definition obligation_effect : vclass := mkVClass ObligationEffect [] ["Permit"; "Deny"] None.
Definition decision_class : vclass :=
  mkVClass DecisionFamily [] ["Permit"; "Deny"; "Indeterminate"; "NotApplicable"] None.
(** rule.py:149-176 and context/result.py:416-474.  They define _setValue, which has no
    effect: the property "value" is bound to that of the base class. *)
Definition fixed_class (base : vclass) (name s : string) : vclass :=
  mkVClass (vc_family base) (vc_path base ++ [name])%list (vc_types base) (Some s).
Definition permit_effect : vclass := fixed_class rule_effect "PermitEffect" "Permit".
Definition deny_effect : vclass := fixed_class rule_effect "DenyEffect" "Deny".
Definition permit_decision : vclass := fixed_class decision_class "PermitDecision" "Permit".
Definition deny_decision : vclass := fixed_class decision_class "DenyDecision" "Deny".
Definition indeterminate_decision : vclass :=
  fixed_class decision_class "IndeterminateDecision" "Indeterminate".
Definition not_applicable_decision : vclass :=
  fixed_class decision_class "NotApplicableDecision" "NotApplicable".

(** The objects made so far, with their values. *)
Definition vobjects : Type := list (vclass * string).

(** What is assigned to or compared with an object: such an object or anything else. *)
Inductive varg : Type := VNative (v : native) | VRef (i : nat).

Definition same_family (a b : vfamily) : bool :=
  match a, b with
  | RuleEffect, RuleEffect | ObligationEffect, ObligationEffect
  | DecisionFamily, DecisionFamily => true
  | _, _ => false
  end.

(** isinstance(value, Effect) with str(value), isinstance(value, str), anything else
    ([None]).  A reference beyond the objects stands for no object. *)
Definition text_of (f : vfamily) (objs : vobjects) (x : varg) : option string :=
  match x with
  | VNative (NStr s) => Some s
  | VNative _ => None
  | VRef i => match nth_error objs i with
              | Some (c, v) => if same_family (vc_family c) f then Some v else None
              | None => None
              end
  end.

(** _setValue: rule.py:75-94, obligation.py:80-99, context/result.py:342-361; the value to
    store *)
Definition checked (c : vclass) (objs : vobjects) (x : varg) : res string :=
  match text_of (vc_family c) objs x with
  | Some s => if str_in s (vc_types c) then Ok s else Raise EAttributeError
  | None => Raise ETypeError
  end.

(** __init__: rule.py:42-47,153-155,168-170, obligation.py:47-53 (the argument is
    required), context/result.py:312-314,420-422,435-437,450-452,465-467 *)
Definition initial (c : vclass) (objs : vobjects) (x : option varg) : res string :=
  match vc_fixed c, x with
  | Some s, None => checked c objs (VNative (NStr s))
  | Some _, Some _ => Raise ETypeError
  | None, Some x => checked c objs x
  | None, None =>
      match vc_family c with
      | RuleEffect => checked c objs (VNative (NStr "Deny"))
      | ObligationEffect => Raise ETypeError
      | DecisionFamily => checked c objs (VNative (NStr "Indeterminate"))
      end
  end.

(** __eq__: rule.py:114-138, obligation.py:118-139, context/result.py:389-413.  The message
    of the TypeError for an operand of another type refers to a local variable that has no
    value then. *)
Definition equals (c : vclass) (v : string) (objs : vobjects) (x : varg) : res bool :=
  match text_of (vc_family c) objs x with
  | Some s => if str_in s (vc_types c) then Ok (String.eqb v s) else Raise EAttributeError
  | None => Raise EUnboundLocalError
  end.

(** [l] goes on beyond [p] *)
Fixpoint proper_prefix (p l : list string) : bool :=
  match p, l with
  | [], _ :: _ => true
  | x :: p, y :: l => if String.eqb x y then proper_prefix p l else false
  | _, [] => false
  end.
Definition derived_from (c base : vclass) : bool :=
  if same_family (vc_family c) (vc_family base) then proper_prefix (vc_path base) (vc_path c)
  else false.

(** Python's [x == y] when one of the two is such an object (language reference, 3.3.1: the
    method of the right operand comes first if its class is derived from that of the left,
    and second if the left has none or returns NotImplemented, as those of str, numbers,
    None and object do for objects of other classes).  [None]: neither is such an object.
    Simplification: natives that are objects of the user's classes leave the comparison to
    the other operand as well. *)
Definition py_equal (objs : vobjects) (x y : varg) : option (res bool) :=
  let as_object z := match z with VRef i => nth_error objs i | VNative _ => None end in
  match as_object x, as_object y with
  | Some (cx, vx), Some (cy, vy) =>
      Some (if derived_from cy cx then equals cy vy objs x else equals cx vx objs y)
  | Some (cx, vx), None => Some (equals cx vx objs y)
  | None, Some (cy, vy) => Some (equals cy vy objs x)
  | None, None => None
  end.
(** [x != y]: object.__ne__ negates what __eq__ gives *)
Definition py_unequal (objs : vobjects) (x y : varg) : option (res bool) :=
  match py_equal objs x y with
  | Some (Ok b) => Some (Ok (negb b))
  | r => r
  end.

(** [x in l] for an object number [x] and a list of strings, objects and others: an item is
    the object itself or equal to it *)
Fixpoint py_in (objs : vobjects) (x : nat) (l : list varg) : res bool :=
  match l with
  | [] => Ok false
  | y :: l =>
      if match y with VRef j => Nat.eqb j x | VNative _ => false end then Ok true
      else match py_equal objs y (VRef x) with
           | Some (Ok true) => Ok true
           | Some (Ok false) | None => py_in objs x l
           | Some (Raise e) => Raise e
           end
  end.

(** bool(): rule.py:140-146; the other two classes define neither __bool__ nor __len__, so
    their objects are true *)
Definition truth (c : vclass) (v : string) : bool :=
  match vc_family c with
  | RuleEffect => String.eqb v "Permit"
  | ObligationEffect | DecisionFamily => true
  end.

(** ** Operations *)
Inductive vop : Type :=
| VNew (c : vclass) (x : option varg)   (* c() or c(x) *)
| VSet (i : nat) (x : varg)             (* objs[i].value = x *)
| VCopy (i : nat)                       (* copy.copy, copy.deepcopy, unpickling of a pickle *)
| VEqual (x y : varg)
| VUnequal (x y : varg)
| VIn (i : nat) (l : list varg)
| VTruth (i : nat)
| VText (i : nat)                       (* str(objs[i]) and objs[i].value *)
| VHash (i : nat).

Inductive vresult : Type := VDone | VObject (i : nat) | VBool (b : bool) | VString (s : string).

Definition on_object {A} (objs : vobjects) (i : nat) (f : vclass -> string -> option A) : option A :=
  match nth_error objs i with Some (c, v) => f c v | None => None end.

Fixpoint put (i : nat) (v : string) (objs : vobjects) : vobjects :=
  match i, objs with
  | _, [] => []
  | O, (c, _) :: r => (c, v) :: r
  | S i, o :: r => o :: put i v r
  end.

(** What an operation gives and the objects after it; [None] if it is not one: there is no
    such object, or the comparison has nothing to do with these classes.  VCopy is
    __getstate__ and __setstate__, rule.py:49-73, obligation.py:55-78,
    context/result.py:316-340 (slot names and class names agree, so the value is kept);
    VText is rule.py:96-112, obligation.py:101-116, context/result.py:363-379; hash() of an
    object whose class defines __eq__ without __hash__ is a TypeError. *)
Definition vstep (objs : vobjects) (o : vop) : option (res vresult * vobjects) :=
  match o with
  | VNew c x =>
      Some (match initial c objs x with
            | Ok s => (Ok (VObject (length objs)), objs ++ [(c, s)])%list
            | Raise e => (Raise e, objs)
            end)
  | VSet i x =>
      on_object objs i (fun c _ =>
        Some (match checked c objs x with
              | Ok s => (Ok VDone, put i s objs)
              | Raise e => (Raise e, objs)
              end))
  | VCopy i => on_object objs i (fun c v => Some (Ok (VObject (length objs)), objs ++ [(c, v)])%list)
  | VEqual x y =>
      match py_equal objs x y with
      | Some r => Some (let* b := r in Ok (VBool b), objs)
      | None => None
      end
  | VUnequal x y =>
      match py_unequal objs x y with
      | Some r => Some (let* b := r in Ok (VBool b), objs)
      | None => None
      end
  | VIn i l => on_object objs i (fun _ _ => Some (let* b := py_in objs i l in Ok (VBool b), objs))
  | VTruth i => on_object objs i (fun c v => Some (Ok (VBool (truth c v)), objs))
  | VText i => on_object objs i (fun _ v => Some (Ok (VString v), objs))
  | VHash i => on_object objs i (fun _ _ => Some (Raise ETypeError, objs))
  end.

(** A history from a program without such objects of its own.  The shared objects
    Effect.PERMIT, Effect.DENY (rule.py:178-180) and Decision.PERMIT and so on
    (context/result.py:476-480) are made by the first operations. *)
Definition vrun (ops : list vop) (objs : vobjects) : vobjects :=
  fold_left (fun objs o => match vstep objs o with Some (_, objs') => objs' | None => objs end) ops objs.
Definition shared : vobjects :=
  vrun [VNew permit_effect None; VNew deny_effect None;
        VNew permit_decision None; VNew deny_decision None;
        VNew indeterminate_decision None; VNew not_applicable_decision None] [].
