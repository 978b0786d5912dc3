(** The function map used through every method of a mapping
    (core/functions/__init__.py:523-757, utils/__init__.py:163-271).  FunctionMap is a
    VettedDict, VettedDict a collections.abc.MutableMapping: the methods it does not
    define are those of the library, which are written with its own [__getitem__],
    [__setitem__], [__delitem__], [__iter__] and [__len__].  As FunctionMap overrides
    [__getitem__] and [get] so that they load, the inherited methods load as well.
    Simplifications: keys are strings; a value that is no function class is [None], and
    [None] as the default of a lookup is Python's None; the views returned by [keys],
    [items] and [values] are lists, as utils/__init__.py:252-259 makes them. *)
From Verif Require Export FuncMap.

(** What a call gives back. *)
Inductive given : Type :=
| GNone
| GClass (c : fclass)
| GItem (id : string) (c : fclass)
| GTruth (b : bool)
| GNumber (n : nat)
| GKeys (l : list string)
| GClasses (l : list fclass)
| GItems (l : list (string * fclass)).

Definition gclass (x : option fclass) : given :=
  match x with Some c => GClass c | None => GNone end.

Inductive mcall : Type :=
| MLook (id : string)                              (* m[id] *)
| MGet (id : string) (args : list (option fclass)) (* m.get(id, *args) *)
| MLoad (id : string)
| MLoadAll
| MLoadCustom (id : string) (src : factory_source)
| MPut (id : string) (v : option fclass)           (* m[id] = v *)
| MDel (id : string)                               (* del m[id] *)
| MPop (id : string) (default : option (option fclass))
| MPopItem
| MClear
| MSetDefault (id : string) (v : option fclass)
| MUpdate (kvs : list (string * option fclass))
| MIn (id : string)                                (* id in m *)
| MLen
| MKeys
| MValues
| MItems.

Section Methods.
Variable cm : list (string * avclass).

(** VettedDict.get, utils/__init__.py:232-247: only a second default is looked at *)
Definition vget (id : string) (args : list (option fclass)) (m : fmap) : option fclass :=
  match dict_get id (fm_map m) with
  | Some c => Some c
  | None => match args with
            | _ :: d :: _ => d
            | _ => None
            end
  end.

(** FunctionMap.get, functions/__init__.py:740-757 *)
Definition mm_get (id : string) (args : list (option fclass)) (m : fmap)
  : res given * fmap :=
  match vget id args m with
  | Some c => (Ok (GClass c), m)
  | None =>
      let '(r, m1) := fm_load cm id m in
      match r with
      | Raise e => (Raise e, m1)
      | Ok _ => (Ok (gclass (vget id args m1)), m1)
      end
  end.

(** MutableMapping.pop of the library: the lookup is [self[key]], functions/__init__.py:725-738,
    and only KeyError makes the default count; utils/__init__.py:264-265 deletes *)
Definition mm_pop (id : string) (default : option (option fclass)) (m : fmap)
  : res given * fmap :=
  let '(r, m1) := fm_getitem cm id m in
  match r with
  | Ok c => let '(d, m2) := fm_delitem id m1 in
            match d with
            | Ok _ => (Ok (GClass c), m2)
            | Raise e => (Raise e, m2)
            end
  | Raise EKeyError => match default with
                       | Some d => (Ok (gclass d), m1)
                       | None => (Raise EKeyError, m1)
                       end
  | Raise e => (Raise e, m1)
  end.

(** MutableMapping.popitem: the first key of [iter(self)] (utils/__init__.py:267-268),
    looked up with [self[key]], and deleted *)
Definition mm_popitem (m : fmap) : res given * fmap :=
  match fm_map m with
  | [] => (Raise EKeyError, m)
  | (id, _) :: _ =>
      let '(r, m1) := fm_getitem cm id m in
      match r with
      | Raise e => (Raise e, m1)
      | Ok c => let '(d, m2) := fm_delitem id m1 in
                match d with
                | Ok _ => (Ok (GItem id c), m2)
                | Raise e => (Raise e, m2)
                end
      end
  end.

(** MutableMapping.clear: [popitem] until it raises KeyError.  [None]: the number of
    rounds given was not enough. *)
Fixpoint mm_clear (rounds : nat) (m : fmap) : option (res given * fmap) :=
  match rounds with
  | O => None
  | S n => let '(r, m1) := mm_popitem m in
           match r with
           | Ok _ => mm_clear n m1
           | Raise EKeyError => Some (Ok GNone, m1)
           | Raise e => Some (Raise e, m1)
           end
  end.

(** MutableMapping.setdefault: [self[key]], and [self[key] = default] if that raises
    KeyError *)
Definition mm_setdefault (id : string) (v : option fclass) (m : fmap) : res given * fmap :=
  let '(r, m1) := fm_getitem cm id m in
  match r with
  | Ok c => (Ok (GClass c), m1)
  | Raise EKeyError => let '(s, m2) := fm_setitem id v m1 in
                       match s with
                       | Ok _ => (Ok (gclass v), m2)
                       | Raise e => (Raise e, m2)
                       end
  | Raise e => (Raise e, m1)
  end.

(** MutableMapping.update: [self[key] = value] for one item after the other *)
Fixpoint mm_update (kvs : list (string * option fclass)) (m : fmap) : res given * fmap :=
  match kvs with
  | [] => (Ok GNone, m)
  | (id, v) :: rest =>
      let '(s, m1) := fm_setitem id v m in
      match s with
      | Ok _ => mm_update rest m1
      | Raise e => (Raise e, m1)
      end
  end.

Definition mm_unit (x : res unit * fmap) : res given * fmap :=
  let '(r, m) := x in (match r with Ok _ => Ok GNone | Raise e => Raise e end, m).

(** One call.  [in], [len], [keys], [values] and [items]: utils/__init__.py:252-271.
    [None]: see mm_clear. *)
Definition mm_step (c : mcall) (m : fmap) : option (res given * fmap) :=
  match c with
  | MLook id => Some (let '(r, m1) := fm_getitem cm id m in
                      (match r with Ok c => Ok (GClass c) | Raise e => Raise e end, m1))
  | MGet id args => Some (mm_get id args m)
  | MLoad id => Some (mm_unit (fm_load cm id m))
  | MLoadAll => Some (mm_unit (fm_load_all cm FUNCTION_NAMES m))
  | MLoadCustom id src => Some (mm_unit (fm_load_custom id src m))
  | MPut id v => Some (mm_unit (fm_setitem id v m))
  | MDel id => Some (mm_unit (fm_delitem id m))
  | MPop id d => Some (mm_pop id d m)
  | MPopItem => Some (mm_popitem m)
  | MClear => mm_clear (S (length (fm_map m))) m
  | MSetDefault id v => Some (mm_setdefault id v m)
  | MUpdate kvs => Some (mm_update kvs m)
  | MIn id => Some (Ok (GTruth (dict_mem id (fm_map m))), m)
  | MLen => Some (Ok (GNumber (length (fm_map m))), m)
  | MKeys => Some (Ok (GKeys (map fst (fm_map m))), m)
  | MValues => Some (Ok (GClasses (map snd (fm_map m))), m)
  | MItems => Some (Ok (GItems (fm_map m)), m)
  end.

(** A sequence of calls: the outcomes, and the map afterwards. *)
Fixpoint mm_run (h : list mcall) (m : fmap) : option (list (res given) * fmap) :=
  match h with
  | [] => Some ([], m)
  | c :: rest =>
      match mm_step c m with
      | None => None
      | Some (r, m1) =>
          match mm_run rest m1 with
          | None => None
          | Some (rs, m2) => Some (r :: rs, m2)
          end
      end
  end.
End Methods.
