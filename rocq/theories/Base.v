(** Exceptions as values, the result type, and small helpers shared by all model
    files.  The model follows the sources in /repo (cedadev/ndg_xacml). *)
From Coq Require Export String Ascii List Bool Arith ZArith NArith.
Export ListNotations.
Global Open Scope string_scope.
Global Open Scope list_scope.
Global Open Scope bool_scope.

(** Python exceptions that the modelled code raises or lets through.
    - builtin ones by name;
    - ndg/xacml/parsers/__init__.py (XMLParseError);
    - ndg/xacml/core/context/exceptions.py (XacmlContextError and subclasses);
    - ndg/xacml/core/functions/__init__.py:289-325,515-520;
    - [EOther n]: any other member of the Exception hierarchy, raised by an
      external collaborator (PIP, regular expression engine, custom function);
    - [EBase n]: an exception outside the Exception hierarchy (SystemExit,
      KeyboardInterrupt, GeneratorExit).
    Simplification: exception messages are not modelled, except where a property
    is about the message (see [CtxErrors]). *)
Inductive exn : Type :=
| ETypeError | EAttributeError | EValueError | EKeyError | EIndexError
| ENameError | EImportError | ENotImplementedError | EUnboundLocalError
| ERecursionError
| EXMLParseError
| EXacmlContextError | EXacmlContextTypeError | EMissingAttributeError
| EUnsupportedFunctionError | EUnsupportedStdFunctionError
| EFunctionMapConfigError | EOverwritingStdFunctionError
| EOther (n : N)
| EBase (n : N).

(** [isinstance(e, Exception)] *)
Definition is_exception (e : exn) : bool :=
  match e with EBase _ => false | _ => true end.

Inductive res (A : Type) : Type :=
| Ok (a : A)
| Raise (e : exn).
Arguments Ok {A} a.
Arguments Raise {A} e.

Definition bind {A B} (x : res A) (f : A -> res B) : res B :=
  match x with
  | Ok a => f a
  | Raise e => Raise e
  end.

Notation "'let*' x ':=' e1 'in' e2" := (bind e1 (fun x => e2))
  (at level 200, x pattern, e1 at level 100, e2 at level 200, right associativity).

(** Sequential evaluation of a Python [for] loop body over a list, collecting
    the results in order; the first exception leaves the loop. *)
Definition mapM {A B} (f : A -> res B) : list A -> res (list B) :=
  fix go (l : list A) : res (list B) :=
  match l with
  | [] => Ok []
  | x :: xs =>
      let* y := f x in
      let* ys := go xs in
      Ok (y :: ys)
  end.

Definition is_ok {A} (r : res A) : bool :=
  match r with Ok _ => true | Raise _ => false end.

Definition opt_eqb {A} (eqb : A -> A -> bool) (x y : option A) : bool :=
  match x, y with
  | None, None => true
  | Some a, Some b => eqb a b
  | _, _ => false
  end.

(** Association lists standing for Python dicts with string keys (insertion
    order kept, an assignment to an existing key keeps its position). *)
Fixpoint dict_get {V} (k : string) (d : list (string * V)) : option V :=
  match d with
  | [] => None
  | (k', v) :: d' => if String.eqb k k' then Some v else dict_get k d'
  end.

Fixpoint dict_set {V} (k : string) (v : V) (d : list (string * V))
  : list (string * V) :=
  match d with
  | [] => [(k, v)]
  | (k', v') :: d' =>
      if String.eqb k k' then (k', v) :: d' else (k', v') :: dict_set k v d'
  end.

Definition dict_del {V} (k : string) (d : list (string * V))
  : list (string * V) :=
  filter (fun p => negb (String.eqb k (fst p))) d.

Definition dict_mem {V} (k : string) (d : list (string * V)) : bool :=
  match dict_get k d with Some _ => true | None => false end.

Definition str_in (k : string) (l : list string) : bool :=
  existsb (String.eqb k) l.
