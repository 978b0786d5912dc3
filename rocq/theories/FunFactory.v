(** Function class factories as objects, ndg/xacml/core/functions/__init__.py:345-512,
    with the classes derived from FunctionClassFactoryBase in functions/v1 and
    functions/v2.  FuncMap.v, which needs only what one call of a new factory gives,
    leaves the factory object out; here it has its look-up table, its classes have an
    identity, and the table of data types may change between the calls. *)
From Verif Require Export FuncMap.

(** FUNCTION_NS_SUFFIX of a factory class (388): not set, a string, or another object,
    whose method [split] raises [e] (419). *)
Inductive suffix_var : Type :=
| SufNone
| SufStr (s : string)
| SufOther (e : exn).

(** A member of FUNCTION_NAMES (389): a string, or another object, whose method [split]
    raises [e] (454). *)
Inductive name_item : Type :=
| ItemStr (id : string)
| ItemOther (e : exn).

(** FUNCTION_NAMES: an object without [__iter__] (such as None), a collection, or one
    string, which has [__iter__] too. *)
Inductive names_var : Type :=
| NamesNotIterable
| NamesOf (l : list name_item)
| NamesStr (s : string).

(** A class derived from FunctionClassFactoryBase.  FUNCTION_BASE_CLASS (390) is not
    set, or is what [type(className, (FUNCTION_BASE_CLASS,), classVars)] (486-488) calls
    on: for the class name, TYPE and FUNCTION_NS it raises, or gives a class whose
    instances behave as the function. *)
Record fkind : Type := mkKind {
  fk_suffix : suffix_var;
  fk_base : option (string -> avclass -> string -> res fn);
  fk_names : names_var
}.

(** A class made by a factory (480-488); [md_no] is its identity. *)
Record made_class : Type := mkMade {
  md_no : nat;
  md_name : string;
  md_type : avclass;
  md_ns : string;
  md_fn : fn
}.

(** A factory object: [self.__class__.FUNCTION_NS_SUFFIX], [self.functionSuffix], the
    base class, the names and [self.__map]. *)
Record factory : Type := mkFactory {
  fa_suffix : string;
  fa_camel : string;
  fa_base : string -> avclass -> string -> res fn;
  fa_names : list name_item;
  fa_cache : list (string * made_class)
}.

(** functionSuffix, functions/__init__.py:419-422 *)
Definition camel_suffix (suffix : string) : string :=
  py_join "" (flat_map (fun n => match n with
                                 | EmptyString => []
                                 | String c rest => [String (ascii_upper c) rest]
                                 end) (py_split "-" suffix)).

(** The members an iteration over FUNCTION_NAMES gives; those of a string are its
    characters. *)
Definition names_of (v : names_var) : list name_item :=
  match v with
  | NamesNotIterable => []
  | NamesOf l => l
  | NamesStr s => map (fun c => ItemStr (String c "")) (list_ascii_of_string s)
  end.

(** FunctionClassFactoryBase.__init__, functions/__init__.py:396-422 *)
Definition factory_new (k : fkind) : res factory :=
  match fk_suffix k, fk_base k with
  | SufNone, _ => Raise ETypeError
  | _, None => Raise ETypeError
  | suffix, Some base =>
      match fk_names k with
      | NamesNotIterable => Raise ETypeError
      | names =>
          match suffix with
          | SufStr s => Ok (mkFactory s (camel_suffix s) base (names_of names) [])
          | SufOther e => Raise e
          | SufNone => Raise ETypeError
          end
      end
  end.

(** The program: the table of data types (AttributeValueClassFactory), the number of
    the next class to be made, the factory. *)
Record fstore : Type := mkFstore {
  fs_types : list (string * avclass);
  fs_next : nat;
  fs_factory : factory
}.

(** The data type of an identifier and its name, functions/__init__.py:448-478.
    [identifier.split(':')[-1]], the type part (a separator may not be empty), its
    name in camel case, the URI, the class. *)
Definition type_for (types : list (string * avclass)) (suffix id : string)
  : res (string * avclass) :=
  let* functionName := py_last (py_split ":" id) in
  let* typePart := match suffix with
                   | EmptyString => Raise EValueError
                   | _ => py_first (py_split suffix functionName)
                   end in
  let* typeName0 := py_capitalize_first typePart in
  let* typeName := if has_char "-" typeName0
                   then camel (py_split "-" typeName0)
                   else Ok typeName0 in
  let* uri :=
    match dict_get typeName TYPE_URI_MAP with
    | Some u => Ok u
    | None =>
        match dict_get typePart SPECIAL_TYPE_MAP with
        | Some n => match dict_get n TYPE_URI_MAP with
                    | Some u => Ok u
                    | None => Raise EKeyError
                    end
        | None => Raise ETypeError
        end
    end in
  match dict_get uri types with
  | Some c => Ok (typeName, c)
  | None => Raise ETypeError
  end.

(** FunctionClassFactoryBase.loadFunction, functions/__init__.py:438-490 *)
Definition fa_load (id : string) (s : fstore) : res unit * fstore :=
  let f := fs_factory s in
  match type_for (fs_types s) (fa_suffix f) id with
  | Raise e => (Raise e, s)
  | Ok (typeName, c) =>
      let className := (typeName ++ fa_camel f)%string in
      match fa_base f className c id with
      | Raise e => (Raise e, s)
      | Ok fn =>
          (Ok tt, mkFstore (fs_types s) (S (fs_next s))
                    (mkFactory (fa_suffix f) (fa_camel f) (fa_base f) (fa_names f)
                       (dict_set id (mkMade (fs_next s) className c id fn) (fa_cache f))))
      end
  end.

(** FunctionClassFactoryBase.__call__, functions/__init__.py:492-512; [None] would be
    returned if the look-up table still had no class. *)
Definition fa_call (id : string) (s : fstore) : res (option made_class) * fstore :=
  match dict_get id (fa_cache (fs_factory s)) with
  | Some c => (Ok (Some c), s)
  | None =>
      let '(r, s') := fa_load id s in
      match r with
      | Raise e => (Raise e, s')
      | Ok _ => (Ok (dict_get id (fa_cache (fs_factory s'))), s')
      end
  end.

(** FunctionClassFactoryBase.initAllFunctionClasses, functions/__init__.py:424-436 *)
Fixpoint fa_load_names (l : list name_item) (s : fstore) : res unit * fstore :=
  match l with
  | [] => (Ok tt, s)
  | ItemOther e :: _ => (Raise e, s)
  | ItemStr id :: rest =>
      let '(r, s') := fa_load id s in
      match r with
      | Raise e => (Raise e, s')
      | Ok _ => fa_load_names rest s'
      end
  end.
Definition fa_init_all (s : fstore) : res unit * fstore :=
  fa_load_names (fa_names (fs_factory s)) s.

(** AttributeValueClassFactory.addClass for a data type that it accepts,
    attributevalue.py:317-339 (Utils.v has the whole of it) *)
Definition fa_register (uri : string) (c : avclass) (overwrite : bool) (s : fstore) : fstore :=
  mkFstore (if overwrite || negb (dict_mem uri (fs_types s))
            then dict_set uri c (fs_types s) else fs_types s)
           (fs_next s) (fs_factory s).

(** What a program does with a factory. *)
Inductive facop : Type :=
| FacLoad (id : string)
| FacCall (id : string)
| FacInitAll
| FacRegister (uri : string) (c : avclass) (overwrite : bool).
Definition fa_step (s : fstore) (o : facop) : fstore :=
  match o with
  | FacLoad id => snd (fa_load id s)
  | FacCall id => snd (fa_call id s)
  | FacInitAll => snd (fa_init_all s)
  | FacRegister uri c ov => fa_register uri c ov s
  end.
Definition fa_run (os : list facop) (s : fstore) : fstore := fold_left fa_step os s.

(** ** The factories of the package that are derived from FunctionClassFactoryBase *)
Definition std_kind (suffix : string) (mk : avclass -> fn) (names : list string) : fkind :=
  mkKind (SufStr suffix) (Some (fun _ c _ => Ok (mk c))) (NamesOf (map ItemStr names)).
Definition std_types : list string :=
  [ "string"; "boolean"; "integer"; "double"; "time"; "date"; "dateTime"; "anyURI";
    "hexBinary"; "base64Binary"; "dayTimeDuration"; "yearMonthDuration"; "x500Name";
    "rfc822Name" ].

(** v1/at_least_one_member_of.py:63-94, v1/bag.py:53-82, v1/equal.py:50-80,
    v1/match.py:83-102, v1/one_and_only.py:52-81, v2/concatenate.py:70-87,
    v2/regexp_match.py:17-37 *)
Definition kind_of (fam : family) : option fkind :=
  match fam with
  | FamAtLeastOne =>
      Some (std_kind "-at-least-one-member-of" FnAtLeastOne
              (map (fun t => v1 (t ++ "-at-least-one-member-of")) std_types))
  | FamBag => Some (std_kind "-bag" FnBag (map (fun t => v1 (t ++ "-bag")) std_types))
  | FamEqual =>
      Some (std_kind "-equal" FnEqual
              (map (fun t => v1 (t ++ "-equal"))
                 [ "string"; "boolean"; "integer"; "double"; "date"; "time"; "dateTime";
                   "dayTimeDuration"; "yearMonthDuration"; "anyURI"; "x500Name";
                   "rfc822Name"; "hexBinary"; "base64Binary"; "xpath-node" ]))
  | FamMatch =>
      Some (std_kind "-match" FnMatch [ v1 "x500Name-match"; v1 "rfc822Name-match";
                                        v1 "xpath-node-match" ])
  | FamOneAndOnly =>
      Some (std_kind "-one-and-only" FnOneAndOnly
              (map (fun t => v1 (t ++ "-one-and-only")) std_types))
  | FamConcat =>
      Some (std_kind "-concatenate" FnConcat [ v2 "string-concatenate";
                                               v2 "url-string-concatenate" ])
  | FamRegexp2 =>
      Some (std_kind "-regexp-match" FnRegexp
              [ v2 "anyURI-regexp-match"; v2 "ipAddress-regexp-match";
                v2 "dnsName-regexp-match"; v2 "rfc822Name-regexp-match";
                v2 "x500Name-regexp-match" ])
  | FamAnd | FamNot | FamRound | FamRegexpString => None
  end.
