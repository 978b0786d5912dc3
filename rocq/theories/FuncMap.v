(** Function identifiers: the standard catalogue, the resolution of an identifier
    to a function class, and the FunctionMap object with its caches. *)
From Verif Require Export Functions.

(** ** The standard catalogue *)

(** AbstractFunction.V1_0_FUNCTION_NS and V2_0_FUNCTION_NS,
    functions/__init__.py:43-44 *)
Definition V1_NS : string := "urn:oasis:names:tc:xacml:1.0:function:".
Definition V2_NS : string := "urn:oasis:names:tc:xacml:2.0:function:".
Definition v1 (n : string) : string := (V1_NS ++ n)%string.
Definition v2 (n : string) : string := (V2_NS ++ n)%string.

(** XacmlFunctionNames.FUNCTION_NAMES, functions/__init__.py:71-284, in order *)
Definition FUNCTION_NAMES : list string :=
  [ v1 "string-equal"; v1 "boolean-equal"; v1 "integer-equal";
    v1 "double-equal"; v1 "date-equal"; v1 "time-equal"; v1 "dateTime-equal";
    v1 "dayTimeDuration-equal"; v1 "yearMonthDuration-equal";
    v1 "anyURI-equal"; v1 "x500Name-equal"; v1 "rfc822Name-equal";
    v1 "hexBinary-equal"; v1 "base64Binary-equal"; v1 "integer-add";
    v1 "double-add"; v1 "integer-subtract"; v1 "double-subtract";
    v1 "integer-multiply"; v1 "double-multiply"; v1 "integer-divide";
    v1 "double-divide"; v1 "integer-mod"; v1 "integer-abs"; v1 "double-abs";
    v1 "round"; v1 "floor"; v1 "string-normalize-space";
    v1 "string-normalize-to-lower-case"; v1 "double-to-integer";
    v1 "integer-to-double"; v1 "or"; v1 "and"; v1 "n-of"; v1 "not";
    v1 "integer-greater-than"; v1 "integer-greater-than-or-equal";
    v1 "integer-less-than"; v1 "integer-less-than-or-equal";
    v1 "double-greater-than"; v1 "double-greater-than-or-equal";
    v1 "double-less-than"; v1 "double-less-than-or-equal";
    v1 "dateTime-add-dayTimeDuration"; v1 "dateTime-add-yearMonthDuration";
    v1 "dateTime-subtract-dayTimeDuration";
    v1 "dateTime-subtract-yearMonthDuration";
    v1 "date-add-yearMonthDuration"; v1 "date-subtract-yearMonthDuration";
    v1 "string-greater-than"; v1 "string-greater-than-or-equal";
    v1 "string-less-than"; v1 "string-less-than-or-equal";
    v1 "time-greater-than"; v1 "time-greater-than-or-equal";
    v1 "time-less-than"; v1 "time-less-than-or-equal"; v2 "time-in-range";
    v1 "dateTime-greater-than"; v1 "dateTime-greater-than-or-equal";
    v1 "dateTime-less-than"; v1 "dateTime-less-than-or-equal";
    v1 "date-greater-than"; v1 "date-greater-than-or-equal";
    v1 "date-less-than"; v1 "date-less-than-or-equal";
    v1 "string-one-and-only"; v1 "string-bag-size"; v1 "string-is-in";
    v1 "string-bag"; v1 "boolean-one-and-only"; v1 "boolean-bag-size";
    v1 "boolean-is-in"; v1 "boolean-bag"; v1 "integer-one-and-only";
    v1 "integer-bag-size"; v1 "integer-is-in"; v1 "integer-bag";
    v1 "double-one-and-only"; v1 "double-bag-size"; v1 "double-is-in";
    v1 "double-bag"; v1 "time-one-and-only"; v1 "time-bag-size";
    v1 "time-is-in"; v1 "time-bag"; v1 "date-one-and-only";
    v1 "date-bag-size"; v1 "date-is-in"; v1 "date-bag";
    v1 "dateTime-one-and-only"; v1 "dateTime-bag-size"; v1 "dateTime-is-in";
    v1 "dateTime-bag"; v1 "anyURI-one-and-only"; v1 "anyURI-bag-size";
    v1 "anyURI-is-in"; v1 "anyURI-bag"; v1 "hexBinary-one-and-only";
    v1 "hexBinary-bag-size"; v1 "hexBinary-is-in"; v1 "hexBinary-bag";
    v1 "base64Binary-one-and-only"; v1 "base64Binary-bag-size";
    v1 "base64Binary-is-in"; v1 "base64Binary-bag";
    v1 "dayTimeDuration-one-and-only"; v1 "dayTimeDuration-bag-size";
    v1 "dayTimeDuration-is-in"; v1 "dayTimeDuration-bag";
    v1 "yearMonthDuration-one-and-only"; v1 "yearMonthDuration-bag-size";
    v1 "yearMonthDuration-is-in"; v1 "yearMonthDuration-bag";
    v1 "x500Name-one-and-only"; v1 "x500Name-bag-size"; v1 "x500Name-is-in";
    v1 "x500Name-bag"; v1 "rfc822Name-one-and-only";
    v1 "rfc822Name-bag-size"; v1 "rfc822Name-is-in"; v1 "rfc822Name-bag";
    v2 "string-concatenate"; v2 "uri-string-concatenate"; v1 "any-of";
    v1 "all-of"; v1 "any-of-any"; v1 "all-of-any"; v1 "any-of-all";
    v1 "all-of-all"; v1 "map"; v1 "x500Name-match"; v1 "rfc822Name-match";
    v1 "string-regexp-match"; v2 "anyURI-regexp-match";
    v2 "ipAddress-regexp-match"; v2 "dnsName-regexp-match";
    v2 "rfc822Name-regexp-match"; v2 "x500Name-regexp-match";
    v1 "xpath-node-count"; v1 "xpath-node-equal"; v1 "xpath-node-match";
    v1 "string-intersection"; v1 "string-at-least-one-member-of";
    v1 "string-union"; v1 "string-subset"; v1 "string-set-equals";
    v1 "boolean-intersection"; v1 "boolean-at-least-one-member-of";
    v1 "boolean-union"; v1 "boolean-subset"; v1 "boolean-set-equals";
    v1 "integer-intersection"; v1 "integer-at-least-one-member-of";
    v1 "integer-union"; v1 "integer-subset"; v1 "integer-set-equals";
    v1 "double-intersection"; v1 "double-at-least-one-member-of";
    v1 "double-union"; v1 "double-subset"; v1 "double-set-equals";
    v1 "time-intersection"; v1 "time-at-least-one-member-of";
    v1 "time-union"; v1 "time-subset"; v1 "time-set-equals";
    v1 "date-intersection"; v1 "date-at-least-one-member-of";
    v1 "date-union"; v1 "date-subset"; v1 "date-set-equals";
    v1 "dateTime-intersection"; v1 "dateTime-at-least-one-member-of";
    v1 "dateTime-union"; v1 "dateTime-subset"; v1 "dateTime-set-equals";
    v1 "anyURI-intersection"; v1 "anyURI-at-least-one-member-of";
    v1 "anyURI-union"; v1 "anyURI-subset"; v1 "anyURI-set-equals";
    v1 "hexBinary-intersection"; v1 "hexBinary-at-least-one-member-of";
    v1 "hexBinary-union"; v1 "hexBinary-subset"; v1 "hexBinary-set-equals";
    v1 "base64Binary-intersection"; v1 "base64Binary-at-least-one-member-of";
    v1 "base64Binary-union"; v1 "base64Binary-subset";
    v1 "base64Binary-set-equals"; v1 "dayTimeDuration-intersection";
    v1 "dayTimeDuration-at-least-one-member-of"; v1 "dayTimeDuration-union";
    v1 "dayTimeDuration-subset"; v1 "dayTimeDuration-set-equals";
    v1 "yearMonthDuration-intersection";
    v1 "yearMonthDuration-at-least-one-member-of";
    v1 "yearMonthDuration-union"; v1 "yearMonthDuration-subset";
    v1 "yearMonthDuration-set-equals"; v1 "x500Name-intersection";
    v1 "x500Name-at-least-one-member-of"; v1 "x500Name-union";
    v1 "x500Name-subset"; v1 "x500Name-set-equals";
    v1 "rfc822Name-intersection"; v1 "rfc822Name-at-least-one-member-of";
    v1 "rfc822Name-union"; v1 "rfc822Name-subset";
    v1 "rfc822Name-set-equals" ].

(** ** Function class factories *)

(** SPECIAL_TYPE_MAP, functions/__init__.py:26-28 *)
Definition SPECIAL_TYPE_MAP : list (string * string) :=
  [ ("url-string", "AnyURI"); ("xpath-node", "String") ].

(** AttributeValue.TYPE_URI_MAP, attributevalue.py:125 *)
Definition TYPE_URI_MAP : list (string * string) :=
  map (fun p => (fst p, fst (snd p))) TYPE_TABLE.

(** The FunctionClassFactory classes of the function modules: two in packages v1
    and v2 are called regexp_match. *)
Inductive family : Type :=
| FamAnd | FamNot | FamRound | FamRegexpString
| FamAtLeastOne | FamBag | FamEqual | FamMatch | FamOneAndOnly
| FamConcat | FamRegexp2.

(** The modules of ndg/xacml/core/functions/v1 and v2 that have a
    FunctionClassFactory.  Stands for callModuleObject (utils/factory.py:63-132)
    on "ndg.xacml.core.functions.v1.<module>.FunctionClassFactory"; any other
    module name gives ImportError or AttributeError ([None]).
    Simplification: the Python import machinery is reduced to this table; a
    module name with a colon is taken as "module:object" by importModuleObject
    (factory.py:30-35) and then fails, as no object of these modules other than
    the module itself has an attribute FunctionClassFactory. *)
Definition import_factory (pkg2 : bool) (module : string) : option family :=
  if pkg2 then
    dict_get module [ ("concatenate", FamConcat); ("regexp_match", FamRegexp2) ]
  else
    dict_get module
      [ ("and", FamAnd); ("at_least_one_member_of", FamAtLeastOne);
        ("bag", FamBag); ("equal", FamEqual); ("match", FamMatch);
        ("not", FamNot); ("one_and_only", FamOneAndOnly);
        ("regexp_match", FamRegexpString); ("round", FamRound) ].

(** [''.join([_capitalize(i) for i in parts])], functions/__init__.py:461 *)
Definition camel (parts : list string) : res string :=
  let* l := mapM py_capitalize_first parts in
  Ok (py_join "" l).

(** FunctionClassFactoryBase.loadFunction, functions/__init__.py:438-490: the
    AttributeValue class for the type part of the identifier.  [cm] is the class
    map of AttributeValueClassFactory. *)
Definition function_type (cm : list (string * avclass)) (suffix id : string)
  : res avclass :=
  let* functionName := py_last (py_split ":" id) in
  let* typePart := py_first (py_split suffix functionName) in
  let* typeName0 := py_capitalize_first typePart in
  let* typeName := if has_char "-" typeName0
                   then camel (py_split "-" typeName0)
                   else Ok typeName0 in
  let* uri :=
    match dict_get typeName TYPE_URI_MAP with
    | Some u => Ok u
    | None =>
        match dict_get typePart SPECIAL_TYPE_MAP with
        | Some n => match dict_get n TYPE_URI_MAP with
                    | Some u => Ok u
                    | None => Raise EKeyError
                    end
        | None => Raise ETypeError
        end
    end in
  match dict_get uri cm with
  | Some c => Ok c
  | None => Raise ETypeError
  end.

(** Calling a FunctionClassFactory: FunctionClassFactoryBase.__call__
    (functions/__init__.py:492-512) or, for the single function families,
    v1/and.py:61-72, v1/not.py:61-72, v1/round.py:41-52,
    v1/regexp_match.py:93-105 ([None] for another identifier).  The suffixes are
    FUNCTION_NS_SUFFIX of each module.
    Simplification: the cache of a factory object ([__map]) is left out; a
    factory is created for one identifier (620-691) and only ever called with
    it, and the class it makes is represented by its behaviour. *)
Definition typed (r : res avclass) (mk : avclass -> fn) : res (option fn) :=
  let* c := r in Ok (Some (mk c)).
Definition factory_call (cm : list (string * avclass)) (fam : family) (id : string)
  : res (option fn) :=
  match fam with
  | FamAnd => Ok (if String.eqb id (v1 "and") then Some FnAnd else None)
  | FamNot => Ok (if String.eqb id (v1 "not") then Some FnNot else None)
  | FamRound => Ok (if String.eqb id (v1 "round") then Some FnRound else None)
  | FamRegexpString =>
      Ok (if String.eqb id (v1 "string-regexp-match")
          then Some (FnRegexp StringAV) else None)
  | FamAtLeastOne => typed (function_type cm "-at-least-one-member-of" id) FnAtLeastOne
  | FamBag => typed (function_type cm "-bag" id) FnBag
  | FamEqual => typed (function_type cm "-equal" id) FnEqual
  | FamMatch => typed (function_type cm "-match" id) FnMatch
  | FamOneAndOnly => typed (function_type cm "-one-and-only" id) FnOneAndOnly
  | FamConcat => typed (function_type cm "-concatenate" id) FnConcat
  | FamRegexp2 => typed (function_type cm "-regexp-match" id) FnRegexp
  end.

(** ** Resolution of an identifier *)

(** What a FunctionMap maps an identifier to: a function class, whose instances
    behave as [f]; a class whose instantiation raises (possible for custom
    functions only); the constant NotImplemented. *)
Inductive fclass : Type :=
| FImpl (f : fn)
| FUnusable (e : exn)
| FNotImplemented.

(** The special prefix a function name starts with, functions/__init__.py:656-660
    (the order of the two dict keys is irrelevant, no name starts with both) *)
Definition special_prefix (functionName : string) : option string :=
  if startswith "url-string-" functionName then Some "url-string-"
  else if startswith "xpath-node-" functionName then Some "xpath-node-"
  else None.

(** The module for a function name, functions/__init__.py:647-665 *)
Definition module_name (functionName : string) : string :=
  match py_split "-" functionName with
  | [] => ""
  | [p] => p
  | _ :: rest =>
      match special_prefix functionName with
      | Some pre =>
          py_lower (py_join "_" (py_split "-"
            (str_drop (String.length pre) functionName)))
      | None => py_lower (py_join "_" rest)
      end
  end.

(** The loop over SUPPORTED_NSS, functions/__init__.py:642-670: package and
    function name of an identifier. *)
Definition namespace_of (id : string) : option (bool * string) :=
  if startswith V1_NS id then
    match py_last (py_split V1_NS id) with Ok n => Some (false, n) | Raise _ => None end
  else if startswith V2_NS id then
    match py_last (py_split V2_NS id) with Ok n => Some (true, n) | Raise _ => None end
  else None.

(** unsupportedFunctionErrorFactory, functions/__init__.py:299-319 (it raises
    rather than returns the exception) *)
Definition unsupported_error (id : string) : exn :=
  if str_in id FUNCTION_NAMES then EUnsupportedStdFunctionError
  else EUnsupportedFunctionError.

(** ** The FunctionMap object *)

(** FunctionMap instance, functions/__init__.py:563-578: the VettedDict content
    and the factories by identifier.  [__custom_class_factory_map], which is never
    read, is left out. *)
Record fmap : Type := mkFmap {
  fm_map : list (string * fclass);
  fm_factories : list (string * family)
}.
Definition fm_new : fmap := mkFmap [] [].

(** [self[id] = value] with the filters of FunctionMap (keys are strings here;
    every fclass passes valueFilter, 596-612) *)
Definition fm_put (id : string) (c : fclass) (m : fmap) : fmap :=
  mkFmap (dict_set id c (fm_map m)) (fm_factories m).

(** FunctionMap.loadFunction, functions/__init__.py:620-691 *)
Definition fm_load (cm : list (string * avclass)) (id : string) (m : fmap)
  : res unit * fmap :=
  if dict_mem id (fm_map m) then (Ok tt, m)
  else
    match dict_get id (fm_factories m) with
    | Some fam =>
        match factory_call cm fam id with
        | Ok (Some f) => (Ok tt, fm_put id (FImpl f) m)
        | Ok None => (Raise ETypeError, m)
        | Raise e => (Raise e, m)
        end
    | None =>
        match namespace_of id with
        | None => (Raise EFunctionMapConfigError, m)
        | Some (pkg2, functionName) =>
            match import_factory pkg2 (module_name functionName) with
            | None => (Ok tt, fm_put id FNotImplemented m)
            | Some fam =>
                match factory_call cm fam id with
                | Raise e => (Raise e, m)
                | Ok None => (Raise (unsupported_error id), m)
                | Ok (Some f) =>
                    let m1 := fm_put id (FImpl f) m in
                    (Ok tt, mkFmap (fm_map m1) (dict_set id fam (fm_factories m1)))
                end
            end
        end
    end.

(** FunctionMap.__getitem__, functions/__init__.py:725-738 *)
Definition fm_getitem (cm : list (string * avclass)) (id : string) (m : fmap)
  : res fclass * fmap :=
  let '(r, m1) := match dict_get id (fm_map m) with
                  | Some _ => (Ok tt, m)
                  | None => fm_load cm id m
                  end in
  match r with
  | Raise e => (Raise e, m1)
  | Ok _ => match dict_get id (fm_map m1) with
            | Some c => (Ok c, m1)
            | None => (Raise EKeyError, m1)
            end
  end.

(** FunctionMap.get without default, functions/__init__.py:740-757; a result of
    [Ok None] would be Python's None. *)
Definition fm_get (cm : list (string * avclass)) (id : string) (m : fmap)
  : res (option fclass) * fmap :=
  match dict_get id (fm_map m) with
  | Some c => (Ok (Some c), m)
  | None =>
      let '(r, m1) := fm_load cm id m in
      match r with
      | Raise e => (Raise e, m1)
      | Ok _ => (Ok (dict_get id (fm_map m1)), m1)
      end
  end.

(** FunctionMap.loadAllCore, functions/__init__.py:614-618 *)
Fixpoint fm_load_all (cm : list (string * avclass)) (ids : list string) (m : fmap)
  : res unit * fmap :=
  match ids with
  | [] => (Ok tt, m)
  | id :: rest =>
      let '(r, m1) := fm_load cm id m in
      match r with
      | Raise e => (Raise e, m1)
      | Ok _ => fm_load_all cm rest m1
      end
  end.

(** What a custom function factory does when called with an identifier: raises,
    returns None, returns a function class or NotImplemented, returns something
    that is not derived from AbstractFunction. *)
Inductive factory_outcome : Type :=
| FORaise (e : exn) | FONone | FOClass (c : fclass) | FOBad.

(** How load_custom_function gets its factory: passed as an object, a path that
    is not a string, a path whose import raises, a path to a factory. *)
Inductive factory_source : Type :=
| FSObject (o : factory_outcome)
| FSNoPath
| FSImportFails (e : exn)
| FSPath (o : factory_outcome).

(** FunctionMap.load_custom_function, functions/__init__.py:693-723 *)
Definition fm_load_custom (id : string) (src : factory_source) (m : fmap)
  : res unit * fmap :=
  if str_in id FUNCTION_NAMES then (Raise EOverwritingStdFunctionError, m)
  else
    let factory := match src with
                   | FSObject o => Ok o
                   | FSNoPath => Raise ETypeError
                   | FSImportFails e => Raise e
                   | FSPath o => Ok o
                   end in
    match factory with
    | Raise e => (Raise e, m)
    | Ok (FORaise e) => (Raise e, m)
    | Ok FONone => (Raise (unsupported_error id), m)
    | Ok (FOClass c) => (Ok tt, fm_put id c m)
    | Ok FOBad => (Raise ETypeError, m)
    end.

(** [functionMap[id] = value] by the user, VettedDict.__setitem__
    (utils/__init__.py:208-217) with the filters; [None] is a value that is not a
    function class. *)
Definition fm_setitem (id : string) (v : option fclass) (m : fmap) : res unit * fmap :=
  match v with
  | Some c => (Ok tt, fm_put id c m)
  | None => (Raise ETypeError, m)
  end.

(** [del functionMap[id]], utils/__init__.py:263-264 *)
Definition fm_delitem (id : string) (m : fmap) : res unit * fmap :=
  if dict_mem id (fm_map m) then (Ok tt, mkFmap (dict_del id (fm_map m)) (fm_factories m))
  else (Raise EKeyError, m).

(** Operations on a function map. *)
Inductive fop : Type :=
| FGetItem (id : string)
| FGet (id : string)
| FLoad (id : string)
| FLoadAll
| FLoadCustom (id : string) (src : factory_source)
| FSetItem (id : string) (v : option fclass)
| FDelItem (id : string).

Definition fm_step (cm : list (string * avclass)) (o : fop) (m : fmap) : fmap :=
  match o with
  | FGetItem id => snd (fm_getitem cm id m)
  | FGet id => snd (fm_get cm id m)
  | FLoad id => snd (fm_load cm id m)
  | FLoadAll => snd (fm_load_all cm FUNCTION_NAMES m)
  | FLoadCustom id src => snd (fm_load_custom id src m)
  | FSetItem id v => snd (fm_setitem id v m)
  | FDelItem id => snd (fm_delitem id m)
  end.

Definition fm_run (cm : list (string * avclass)) (ops : list fop) (m : fmap) : fmap :=
  fold_left (fun m o => fm_step cm o m) ops m.
