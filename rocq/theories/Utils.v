(** Container classes of ndg/xacml/utils/__init__.py and the attribute value class
    registry of core/attributevalue.py. *)
From Verif Require Export Values.

(** ** Iterables

    The argument of [extend] and [+=].  A [OneShot] iterable (generator, iterator)
    gives its items to the first loop over it and none afterwards.
    Simplification: iterating does not raise. *)
Inductive iterable (A : Type) : Type :=
| Reiterable (l : list A)
| OneShot (l : list A).
Arguments Reiterable {A} l.
Arguments OneShot {A} l.
Definition iterate {A} (it : iterable A) : list A * iterable A :=
  match it with
  | Reiterable l => (l, it)
  | OneShot l => (l, OneShot [])
  end.

(** Operations shared by the two list classes. *)
Inductive lop (A : Type) : Type :=
| LAppend (x : A)
| LExtend (it : iterable A)
| LIadd (it : iterable A).
Arguments LAppend {A} x.
Arguments LExtend {A} it.
Arguments LIadd {A} it.

(** ** TypedList, utils/__init__.py:50-118.  [inst] is
    [lambda i: isinstance(i, elementType)]. *)
Section TypedList.
Context {A : Type}.
Variable inst : A -> bool.

(** TypedList.__init__, utils/__init__.py:56-63: the initial content is not checked *)
Definition tl_new (init : list A) : list A := init.

(** TypedList.extend, utils/__init__.py:82-93 *)
Definition tl_extend (it : iterable A) (self : list A) : res unit * list A :=
  let '(items, it') := iterate it in
  if forallb inst items then (Ok tt, self ++ fst (iterate it'))
  else (Raise ETypeError, self).

(** TypedList.__iadd__, utils/__init__.py:95-106 *)
Definition tl_iadd (it : iterable A) (self : list A) : res unit * list A :=
  let '(items, it') := iterate it in
  if forallb inst items then (Ok tt, self ++ fst (iterate it'))
  else (Raise ETypeError, self).

(** TypedList.append, utils/__init__.py:108-118 *)
Definition tl_append (x : A) (self : list A) : res unit * list A :=
  if inst x then (Ok tt, self ++ [x]) else (Raise ETypeError, self).

Definition tl_step (self : list A) (o : lop A) : res unit * list A :=
  match o with
  | LAppend x => tl_append x self
  | LExtend it => tl_extend it self
  | LIadd it => tl_iadd it self
  end.
Definition tl_run (ops : list (lop A)) (self : list A) : list A :=
  fold_left (fun l o => snd (tl_step l o)) ops self.
End TypedList.

(** ** UniqList, utils/__init__.py:17-47.  [same] is identity of objects, [eq] their
    [==], which may raise. *)
Section UniqList.
Context {A : Type}.
Variable same : A -> A -> bool.
Variable eq : A -> A -> res bool.

(** [x in l] for lists: identity first, then equality *)
Fixpoint ul_contains (x : A) (l : list A) : res bool :=
  match l with
  | [] => Ok false
  | y :: r =>
      if same y x then Ok true
      else let* b := eq y x in
           if b then Ok true else ul_contains x r
  end.

(** [[i for i in iter if i not in self]] *)
Fixpoint ul_new_items (self items : list A) : res (list A) :=
  match items with
  | [] => Ok []
  | x :: r =>
      let* b := ul_contains x self in
      let* rest := ul_new_items self r in
      Ok (if b then rest else x :: rest)
  end.

(** UniqList.extend, utils/__init__.py:23-28 *)
Definition ul_extend (it : iterable A) (self : list A) : res unit * list A :=
  match ul_new_items self (fst (iterate it)) with
  | Ok items => (Ok tt, self ++ items)
  | Raise e => (Raise e, self)
  end.

(** UniqList.__iadd__, utils/__init__.py:30-36 *)
Definition ul_iadd (it : iterable A) (self : list A) : res unit * list A :=
  match ul_new_items self (fst (iterate it)) with
  | Ok items => (Ok tt, self ++ items)
  | Raise e => (Raise e, self)
  end.

(** the loop of UniqList.append, utils/__init__.py:43-45 *)
Fixpoint ul_present (x : A) (l : list A) : res bool :=
  match l with
  | [] => Ok false
  | y :: r => let* b := eq y x in if b then Ok true else ul_present x r
  end.
(** UniqList.append, utils/__init__.py:38-47 *)
Definition ul_append (x : A) (self : list A) : res unit * list A :=
  match ul_present x self with
  | Ok true => (Ok tt, self)
  | Ok false => (Ok tt, self ++ [x])
  | Raise e => (Raise e, self)
  end.

Definition ul_step (self : list A) (o : lop A) : res unit * list A :=
  match o with
  | LAppend x => ul_append x self
  | LExtend it => ul_extend it self
  | LIadd it => ul_iadd it self
  end.
Definition ul_run (ops : list (lop A)) (self : list A) : list A :=
  fold_left (fun l o => snd (ul_step l o)) ops self.
End UniqList.

(** ** RestrictedKeyNamesDict, utils/__init__.py:121-157.  Keys are strings. *)
Record rdict (V : Type) : Type := mkRdict {
  rd_names : list string;           (* __keyNames *)
  rd_items : list (string * V)
}.
Arguments mkRdict {V} rd_names rd_items.
Arguments rd_names {V} r.
Arguments rd_items {V} r.

Section RestrictedDict.
Context {V : Type}.

(** [dict.update(self, d)] *)
Definition dict_update (d : list (string * V)) (self : list (string * V)) : list (string * V) :=
  fold_left (fun m p => dict_set (fst p) (snd p) m) d self.

(** RestrictedKeyNamesDict.__init__, utils/__init__.py:125-130 *)
Definition rd_new (d : list (string * V)) : rdict V :=
  let items := dict_update d [] in mkRdict (map fst items) items.

(** RestrictedKeyNamesDict.__setitem__, utils/__init__.py:132-142 *)
Definition rd_setitem (k : string) (v : V) (self : rdict V) : res unit * rdict V :=
  if str_in k (rd_names self)
  then (Ok tt, mkRdict (rd_names self) (dict_set k v (rd_items self)))
  else (Raise EKeyError, self).

(** RestrictedKeyNamesDict.update, utils/__init__.py:144-157, given two
    dictionaries; the message of the KeyError is formatted with too few arguments,
    so that a TypeError is raised *)
Definition rd_update (d kw : list (string * V)) (self : rdict V) : res unit * rdict V :=
  if forallb (fun p => str_in (fst p) (rd_names self)) d then
    if forallb (fun p => str_in (fst p) (rd_names self)) kw then
      (Ok tt, mkRdict (rd_names self) (dict_update kw (dict_update d (rd_items self))))
    else (Raise ETypeError, self)
  else (Raise ETypeError, self).

(** [del d[k]] and [d.setdefault(k, v)], inherited from dict: the latter does not
    call __setitem__ *)
Definition rd_delitem (k : string) (self : rdict V) : res unit * rdict V :=
  if dict_mem k (rd_items self)
  then (Ok tt, mkRdict (rd_names self) (dict_del k (rd_items self)))
  else (Raise EKeyError, self).
Definition rd_setdefault (k : string) (v : V) (self : rdict V) : res unit * rdict V :=
  if dict_mem k (rd_items self) then (Ok tt, self)
  else (Ok tt, mkRdict (rd_names self) (dict_set k v (rd_items self))).

Inductive rop : Type :=
| RSet (k : string) (v : V)
| RUpdate (d kw : list (string * V))
| RDel (k : string)
| RSetDefault (k : string) (v : V).
Definition rd_step (self : rdict V) (o : rop) : res unit * rdict V :=
  match o with
  | RSet k v => rd_setitem k v self
  | RUpdate d kw => rd_update d kw self
  | RDel k => rd_delitem k self
  | RSetDefault k v => rd_setdefault k v self
  end.
Definition rd_run (ops : list rop) (self : rdict V) : rdict V :=
  fold_left (fun s o => snd (rd_step s o)) ops self.
End RestrictedDict.
Arguments rop : clear implicits.

(** ** VettedDict, utils/__init__.py:163-271.  The filters may raise; keys are
    strings (the subclasses of the package have filters that raise TypeError for
    any other key).  Methods not defined by the class come from MutableMapping. *)
Section VettedDict.
Context {V : Type}.
Variable keyFilter : string -> res bool.
Variable valueFilter : V -> res bool.

(** VettedDict._verifyKeyValPair, utils/__init__.py:190-207 *)
Definition vd_verify (k : string) (v : V) : res bool :=
  let* a := keyFilter k in
  if negb a then Ok false
  else let* b := valueFilter v in
       if negb b then Ok false else Ok true.

(** VettedDict.__setitem__, utils/__init__.py:209-218 *)
Definition vd_setitem (k : string) (v : V) (m : list (string * V))
  : res unit * list (string * V) :=
  match vd_verify k v with
  | Ok true => (Ok tt, dict_set k v m)
  | Ok false => (Ok tt, m)
  | Raise e => (Raise e, m)
  end.

(** VettedDict.__getitem__, utils/__init__.py:220-230 *)
Definition vd_getitem (k : string) (m : list (string * V)) : res V :=
  match dict_get k m with Some v => Ok v | None => Raise EKeyError end.

(** VettedDict.get, utils/__init__.py:232-247; the result [None] is Python's None *)
Definition vd_get (k : string) (arg : list V) (m : list (string * V)) : option V :=
  match dict_get k m with
  | Some v => Some v
  | None => match arg with
            | _ :: x :: _ => Some x
            | _ => None
            end
  end.

(** VettedDict.__delitem__, utils/__init__.py:264-265 *)
Definition vd_delitem (k : string) (m : list (string * V)) : res unit * list (string * V) :=
  if dict_mem k m then (Ok tt, dict_del k m) else (Raise EKeyError, m).

(** MutableMapping.update with a mapping: item assignments until one raises *)
Fixpoint vd_update (d : list (string * V)) (m : list (string * V))
  : res unit * list (string * V) :=
  match d with
  | [] => (Ok tt, m)
  | (k, v) :: r =>
      let '(o, m') := vd_setitem k v m in
      match o with
      | Ok _ => vd_update r m'
      | Raise e => (Raise e, m')
      end
  end.

(** MutableMapping.pop without default, popitem (the first key), clear (popitem
    until it raises KeyError), setdefault *)
Definition vd_pop (k : string) (m : list (string * V)) : res unit * list (string * V) :=
  match vd_getitem k m with
  | Ok _ => vd_delitem k m
  | Raise e => (Raise e, m)
  end.
Definition vd_popitem (m : list (string * V)) : res unit * list (string * V) :=
  match m with
  | [] => (Raise EKeyError, m)
  | (k, _) :: _ => vd_delitem k m
  end.
Definition vd_clear (m : list (string * V)) : res unit * list (string * V) := (Ok tt, []).
Definition vd_setdefault (k : string) (v : V) (m : list (string * V))
  : res unit * list (string * V) :=
  match vd_getitem k m with
  | Ok _ => (Ok tt, m)
  | Raise _ => vd_setitem k v m
  end.

Inductive vop : Type :=
| VSet (k : string) (v : V)
| VDel (k : string)
| VUpdate (d : list (string * V))
| VPop (k : string)
| VPopItem
| VClear
| VSetDefault (k : string) (v : V).
Definition vd_step (m : list (string * V)) (o : vop) : res unit * list (string * V) :=
  match o with
  | VSet k v => vd_setitem k v m
  | VDel k => vd_delitem k m
  | VUpdate d => vd_update d m
  | VPop k => vd_pop k m
  | VPopItem => vd_popitem m
  | VClear => vd_clear m
  | VSetDefault k v => vd_setdefault k v m
  end.
Definition vd_run (ops : list vop) (m : list (string * V)) : list (string * V) :=
  fold_left (fun s o => snd (vd_step s o)) ops m.
End VettedDict.
Arguments vop : clear implicits.

(** ** Attribute value class registry, core/attributevalue.py:216-339 *)

(** What may be offered as an attribute value class. *)
Inductive candidate : Type :=
| CAttrClass (c : avclass)     (* derived from (or registered with) AttributeValue *)
| COtherClass (n : nat)        (* another class *)
| CNotAClass (n : nat).        (* not a class at all: issubclass raises TypeError *)

(** AttributeValueClassMap.keyFilter, attributevalue.py:229-242: keys are strings here *)
Definition class_key_filter (k : string) : res bool := Ok true.
(** AttributeValueClassMap.valueFilter, attributevalue.py:244-257 *)
Definition class_value_filter (v : candidate) : res bool :=
  match v with
  | CAttrClass _ => Ok true
  | COtherClass _ => Raise ETypeError
  | CNotAClass _ => Raise ETypeError
  end.

(** AttributeValueClassFactory.IDENTIFIER2CLASS_MAP as initialised by the class body,
    attributevalue.py:272-289; one class object shared by the whole program *)
Definition class_map_init : list (string * candidate) :=
  map (fun p => (fst p, CAttrClass (snd p))) STD_CLASS_MAP.

(** AttributeValueClassFactory.addClass, attributevalue.py:317-339.  The identifier
    is any object ([native]); a temporary class map validates the arguments, then
    the only item of it is copied. *)
Definition add_class (identifier : native) (cls : candidate) (overwrite : bool)
    (m : list (string * candidate)) : res unit * list (string * candidate) :=
  match identifier with
  | NStr id =>
      let '(r, classMap) := vd_setitem class_key_filter class_value_filter id cls [] in
      match r with
      | Raise e => (Raise e, m)
      | Ok _ =>
          if overwrite then vd_update class_key_filter class_value_filter classMap m
          else
            (fix go (l : list (string * candidate)) (m : list (string * candidate)) :=
               match l with
               | [] => (Ok tt, m)
               | (k, v) :: rest =>
                   if negb (dict_mem k m) then
                     let '(r, m') := vd_setitem class_key_filter class_value_filter k v m in
                     match r with
                     | Ok _ => go rest m'
                     | Raise e => (Raise e, m')
                     end
                   else go rest m
               end) classMap m
      end
  | _ => (Raise ETypeError, m)
  end.

(** AttributeValueClassFactory.__call__, attributevalue.py:307-315 *)
Definition class_factory (m : list (string * candidate)) (identifier : string)
  : option candidate := vd_get identifier [] m.

(** Operations on the registry: addClass and the methods of the map itself. *)
Inductive cop : Type :=
| CAdd (identifier : native) (cls : candidate) (overwrite : bool)
| CMap (o : vop candidate).
Definition class_step (m : list (string * candidate)) (o : cop)
  : res unit * list (string * candidate) :=
  match o with
  | CAdd id c ov => add_class id c ov m
  | CMap o => vd_step class_key_filter class_value_filter m o
  end.
Definition class_run (ops : list cop) (m : list (string * candidate)) : list (string * candidate) :=
  fold_left (fun s o => snd (class_step s o)) ops m.
