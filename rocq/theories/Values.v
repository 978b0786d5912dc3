(** Python native values, AttributeValue classes and objects, and the values
    that flow through expression evaluation. *)
From Verif Require Export Strings.

(** ** Native Python values

    Floats: not-a-number, the two infinities, and finite numbers [m * 2^e]
    (every finite binary float has this form; the sign of zero is invisible to
    [==]).  datetime and timedelta objects are represented by an integer that
    identifies their value under [==]; [NOther ty n] is a value of some other
    Python type [ty].  Simplification: object identity is not modelled. *)
Inductive pyfloat : Type :=
| FNan
| FInf (negative : bool)
| FNum (m e : Z).

Inductive native : Type :=
| NNone
| NStr (s : string)
| NInt (z : Z)
| NBool (b : bool)
| NFloat (f : pyfloat)
| NDateTime (z : Z)
| NTimeDelta (z : Z)
| NOther (ty : string) (n : N).

(** The Python types used as [TYPE] of AttributeValue classes
    (attributevalue.py:106-123).  [NTNotImplemented] is the [NotImplemented]
    constant used for base64Binary; [NTOther] a custom type. *)
Inductive ntype : Type :=
| NTStr | NTInt | NTBool | NTFloat | NTDateTime | NTTimeDelta
| NTNotImplemented
| NTOther (ty : string).

(** [isinstance(v, T)] for a native value: bool is a subclass of int;
    [isinstance(v, NotImplemented)] raises TypeError. *)
Definition native_isinstance (v : native) (t : ntype) : res bool :=
  match t with
  | NTNotImplemented => Raise ETypeError
  | NTStr => Ok (match v with NStr _ => true | _ => false end)
  | NTInt => Ok (match v with NInt _ | NBool _ => true | _ => false end)
  | NTBool => Ok (match v with NBool _ => true | _ => false end)
  | NTFloat => Ok (match v with NFloat _ => true | _ => false end)
  | NTDateTime => Ok (match v with NDateTime _ => true | _ => false end)
  | NTTimeDelta => Ok (match v with NTimeDelta _ => true | _ => false end)
  | NTOther ty => Ok (match v with NOther ty' _ => String.eqb ty ty' | _ => false end)
  end.

(** Equality of [m1 * 2^e1] and [m2 * 2^e2]. *)
Definition dyadic_eqb (m1 e1 m2 e2 : Z) : bool :=
  let k := Z.min e1 e2 in
  Z.eqb (m1 * 2 ^ (e1 - k)) (m2 * 2 ^ (e2 - k)).

Definition pyfloat_eqb (x y : pyfloat) : bool :=
  match x, y with
  | FInf a, FInf b => Bool.eqb a b
  | FNum m1 e1, FNum m2 e2 => dyadic_eqb m1 e1 m2 e2
  | _, _ => false
  end.

(** The number a native value denotes under [==], if it is a number. *)
Definition native_num (v : native) : option pyfloat :=
  match v with
  | NInt z => Some (FNum z 0)
  | NBool b => Some (FNum (if b then 1 else 0) 0)
  | NFloat f => Some f
  | _ => None
  end.

(** Python [==] on native values (numbers compare across bool, int, float). *)
Definition native_eqb (x y : native) : bool :=
  match native_num x, native_num y with
  | Some a, Some b => pyfloat_eqb a b
  | None, None =>
      match x, y with
      | NNone, NNone => true
      | NStr a, NStr b => String.eqb a b
      | NDateTime a, NDateTime b => Z.eqb a b
      | NTimeDelta a, NTimeDelta b => Z.eqb a b
      | NOther t a, NOther u b => String.eqb t u && N.eqb a b
      | _, _ => false
      end
  | _, _ => false
  end.

(** Python truth value of a native ([bool(v)]). *)
Definition native_truthy (v : native) : bool :=
  match v with
  | NNone => false
  | NStr s => negb (String.eqb s "")
  | NInt z => negb (Z.eqb z 0)
  | NBool b => b
  | NFloat (FNum m _) => negb (Z.eqb m 0)
  | NFloat _ => true
  | NDateTime _ => true
  | NTimeDelta z => negb (Z.eqb z 0)
  | NOther _ _ => true
  end.

(** ** AttributeValue classes and objects *)

(** A class derived from AttributeValue (attributevalue.py:18-127, created by
    260-289 for the standard types).  [ac_name] is the identity of the class;
    [ac_bases] the names of its other concrete AttributeValue superclasses (none
    for the standard classes; custom classes may derive from them);
    [ac_id] is IDENTIFIER, [ac_type] is TYPE. *)
Record avclass : Type := mkClass {
  ac_name : string;
  ac_bases : list string;
  ac_id : string;
  ac_type : ntype
}.

(** [A is B] / [A == B] on classes *)
Definition class_eqb (a b : avclass) : bool := String.eqb (ac_name a) (ac_name b).

(** [issubclass(a, b)] *)
Definition issubclass (a b : avclass) : bool :=
  class_eqb a b || str_in (ac_name b) (ac_bases a).

(** An AttributeValue object (attributevalue.py:128-148): its class, its
    [dataType] (expression.py:31-48; initialised from IDENTIFIER) and [value]
    (None when unset). *)
Record attrval : Type := mkAV {
  av_class : avclass;
  av_dataType : string;
  av_value : native
}.

(** [isinstance(v, c)] *)
Definition av_isinstance (v : attrval) (c : avclass) : bool :=
  issubclass (av_class v) c.

(** AttributeValue._set_value, attributevalue.py:170-183: the new object state
    and the outcome. *)
Definition av_set_value (v : attrval) (x : native) : res attrval :=
  let* ok := native_isinstance x (ac_type (av_class v)) in
  if ok then Ok (mkAV (av_class v) (av_dataType v) x) else Raise ETypeError.

(** AttributeValue.__init__, attributevalue.py:130-148: [cls(value)];
    [value=None] leaves the value unset. *)
Definition av_new (c : avclass) (x : native) : res attrval :=
  let v := mkAV c (ac_id c) NNone in
  match x with
  | NNone => Ok v
  | _ => av_set_value v x
  end.

(** [a == b] on AttributeValue objects, attributevalue.py:154-161 with Python's
    dispatch: if [type b] is a strict subclass of [type a] the reflected
    [b.__eq__(a)] is tried first. *)
Definition av_dunder_eq (self other : attrval) : res bool :=
  if av_isinstance other (av_class self)
  then Ok (native_eqb (av_value self) (av_value other))
  else Raise ETypeError.

Definition av_eq (a b : attrval) : res bool :=
  if negb (class_eqb (av_class a) (av_class b)) && av_isinstance b (av_class a)
  then av_dunder_eq b a
  else av_dunder_eq a b.

(** ** The sixteen standard classes, attributevalue.py:47-127, 272-286 *)
Definition xs (n : string) : string := ("http://www.w3.org/2001/XMLSchema#" ++ n)%string.
Definition xq (n : string) : string :=
  ("http://www.w3.org/TR/2002/WD-xquery-operators-20020816#" ++ n)%string.

(** TYPE_NAMES zipped with TYPE_URIS and NATIVE_TYPES (attributevalue.py:70-125) *)
Definition TYPE_TABLE : list (string * (string * ntype)) :=
  [ ("String", (xs "string", NTStr));
    ("AnyURI", (xs "anyURI", NTStr));
    ("Integer", (xs "integer", NTInt));
    ("Boolean", (xs "boolean", NTBool));
    ("Double", (xs "double", NTFloat));
    ("Date", (xs "date", NTDateTime));
    ("DateTime", (xs "dateTime", NTDateTime));
    ("Time", (xs "time", NTDateTime));
    ("DayTimeDuration", (xq "dayTimeDuration", NTTimeDelta));
    ("YearMonthDuration", (xq "yearMonthDuration", NTTimeDelta));
    ("X500Name", ("urn:oasis:names:tc:xacml:1.0:data-type:x500Name", NTStr));
    ("Rfc822Name", ("urn:oasis:names:tc:xacml:1.0:data-type:rfc822Name", NTStr));
    ("HexBinary", (xs "hexBinary", NTInt));
    ("Base64Binary", (xs "base64Binary", NTNotImplemented));
    ("IpAddress", ("urn:oasis:names:tc:xacml:2.0:data-type:ipAddress", NTStr));
    ("DnsName", ("urn:oasis:names:tc:xacml:2.0:data-type:dnsName", NTStr)) ].

(** attributevalue.py:281-284: class <TypeName>AttributeValue *)
Definition std_class (p : string * (string * ntype)) : avclass :=
  mkClass (fst p ++ "AttributeValue")%string [] (fst (snd p)) (snd (snd p)).

(** AttributeValueClassFactory.IDENTIFIER2CLASS_MAP as built at import,
    attributevalue.py:274-286 *)
Definition STD_CLASS_MAP : list (string * avclass) :=
  map (fun p => (fst (snd p), std_class p)) TYPE_TABLE.

Definition StringAV : avclass :=
  std_class ("String", (xs "string", NTStr)).
Definition AnyURIAV : avclass :=
  std_class ("AnyURI", (xs "anyURI", NTStr)).
Definition IntegerAV : avclass :=
  std_class ("Integer", (xs "integer", NTInt)).
Definition BooleanAV : avclass :=
  std_class ("Boolean", (xs "boolean", NTBool)).
Definition DoubleAV : avclass :=
  std_class ("Double", (xs "double", NTFloat)).

(** ** Values of expressions

    What [Expression.evaluate] and function [evaluate] methods return and take:
    plain Python values, AttributeValue objects, bags (TypedList of
    AttributeValue objects, utils/__init__.py:50-63; element type None arises
    from a designator whose dataType is not registered), anything else
    ([POpaque], with its truth value). *)
Inductive pyval : Type :=
| PNat (v : native)
| PAttr (a : attrval)
| PBag (elementType : option avclass) (items : list attrval)
| POpaque (n : N) (truth : bool).

(** Python truth: AttributeValue defines neither __bool__ nor __len__, so its
    instances are true; a TypedList is true when not empty. *)
Definition truthy (v : pyval) : bool :=
  match v with
  | PNat n => native_truthy n
  | PAttr _ => true
  | PBag _ items => match items with [] => false | _ => true end
  | POpaque _ b => b
  end.

(** [isinstance(v, c)] for an AttributeValue class [c] *)
Definition py_isinstance (v : pyval) (c : avclass) : bool :=
  match v with
  | PAttr a => av_isinstance a c
  | _ => false
  end.

(** TypedList.append / extend on a bag (utils/__init__.py:82-93,108-118):
    every item is checked before anything is added;
    [isinstance(x, None)] raises TypeError. *)
Definition bag_check (et : option avclass) (x : pyval) : res attrval :=
  match et with
  | None => Raise ETypeError
  | Some c =>
      match x with
      | PAttr a => if av_isinstance a c then Ok a else Raise ETypeError
      | _ => Raise ETypeError
      end
  end.

Definition bag_extend (et : option avclass) (bag : list attrval)
  (items : list pyval) : res (list attrval) :=
  let* new := mapM (bag_check et) items in
  Ok (bag ++ new).
