(** Objects found by the name of their module (utils/factory.py) and the reader
    factory that uses it (parsers/etree/factory.py).

    The interpreter is an argument: [obj] are Python objects, [mods] is the state of
    the loaded modules and everything else that importing and calling may change. *)
From Verif Require Export Base Strings.

(** [s.rsplit(c, 1)] for a single character: the parts before and after the last
    occurrence, [None] if there is none *)
Fixpoint rsplit1 (c : ascii) (s : string) : option (string * string) :=
  match s with
  | EmptyString => None
  | String x s' =>
      match rsplit1 c s' with
      | Some (l, r) => Some (String x l, r)
      | None => if Ascii.eqb x c then Some (EmptyString, s') else None
      end
  end.

Section Factory.
Variables obj mods : Type.

(** [sys.path] is a reference to a list object; the lists that it may refer to. *)
Record interp : Type := mkInterp {
  in_mods : mods;
  in_lists : list (list string);
  in_path : nat
}.

(** [__import__(name, globals(), locals(), [])]: gives the top level package *)
Variable import_module : string -> interp -> res obj * interp.
(** [getattr(o, name)].  Simplification: it changes nothing. *)
Variable get_attribute : interp -> obj -> string -> res obj.
(** [issubclass(o, t)]; TypeError if [o] is not a class *)
Variable is_subclass : obj -> obj -> res bool.
(** [os.path.exists(path)] *)
Variable path_exists : string -> interp -> bool.
(** The object called with positional and keyword arguments *)
Variable call_object : obj -> list obj -> list (string * obj) -> interp -> res obj * interp.

(** A [for] loop of getattr, factory.py:46-47 and 53-54 *)
Fixpoint get_path (w : interp) (o : obj) (names : list string) : res obj :=
  match names with
  | [] => Ok o
  | n :: rest => let* o' := get_attribute w o n in get_path w o' rest
  end.

(** The module name and the path of the object in it, factory.py:28-40 *)
Definition split_name (moduleName : string) (objectName : option string)
  : res (string * list string) :=
  match objectName with
  | None =>
      match rsplit1 ":" moduleName with
      | Some (m, n) => Ok (m, if has_char "." n then py_split "." n else [n])
      | None =>
          match rsplit1 "." moduleName with
          | Some (m, n) => Ok (m, [n])
          | None => Raise EValueError   (* one value to unpack *)
          end
      end
  | Some n => Ok (moduleName, [n])
  end.

(** importModuleObject, factory.py:17-61.  The AttributeError of the first loop is
    raised again with another message.  [objectType]: None or a class, which is true. *)
Definition import_module_object (moduleName : string) (objectName : option string)
  (objectType : option obj) (w : interp) : res obj * interp :=
  match split_name moduleName objectName with
  | Raise e => (Raise e, w)
  | Ok (m, path) =>
      let '(r, w') := import_module m w in
      (let* top := r in
       let* module := get_path w' top (tl (py_split "." m)) in
       let* o := get_path w' module path in
       match objectType with
       | None => Ok o
       | Some t => let* b := is_subclass o t in if b then Ok o else Raise ETypeError
       end, w')
  end.

Definition append_to (a : nat) (p : string) (l : list (list string)) : list (list string) :=
  firstn a l ++ match skipn a l with
                | [] => []
                | x :: rest => (x ++ [p]) :: rest
                end.

(** callModuleObject, factory.py:64-132.  [sysPathBak] is the list object itself, not
    a copy: after the append it is not empty, and sys.path is bound to it again. *)
Definition call_module_object (moduleName : string) (objectName : option string)
  (moduleFilePath : option string) (objectType : option obj)
  (objectArgs : list obj) (objectProperties : list (string * obj)) (w : interp)
  : res obj * interp :=
  let found :=
    match moduleFilePath with
    | Some p =>
        if String.eqb p "" then import_module_object moduleName objectName objectType w
        else if path_exists p w then
          let bak := in_path w in
          let w1 := mkInterp (in_mods w) (append_to bak p (in_lists w)) bak in
          let '(r, w2) := import_module_object moduleName objectName objectType w1 in
          (r, match nth_error (in_lists w2) bak with
              | Some (_ :: _) => mkInterp (in_mods w2) (in_lists w2) bak
              | _ => w2
              end)
        else (Raise (EOther 5), w)   (* IOError *)
    | None => import_module_object moduleName objectName objectType w
    end in
  match found with
  | (Raise e, w') => (Raise e, w')
  | (Ok o, w') => call_object o objectArgs objectProperties w'
  end.

(** ** ReaderFactory (parsers/etree/factory.py:66-108) *)

(** Keys of READER_CLASS_MAP are compared by identity *)
Variable same : obj -> obj -> bool.
(** [xacmlType.__name__]; AttributeError if it has none *)
Variable name_of : obj -> res string.
(** XacmlCoreBase, ETreeAbstractReader *)
Variables core_base abstract_reader : obj.

Fixpoint reader_get (k : obj) (m : list (obj * obj)) : option obj :=
  match m with
  | [] => None
  | (k', v) :: m' => if same k k' then Some v else reader_get k m'
  end.
Fixpoint reader_set (k v : obj) (m : list (obj * obj)) : list (obj * obj) :=
  match m with
  | [] => [(k, v)]
  | (k', v') :: m' => if same k k' then (k', v) :: m' else (k', v') :: reader_set k v m'
  end.

(** keyFilter and valueFilter, factory.py:36-63 *)
Definition type_filter (base x : obj) : res bool :=
  let* b := is_subclass x base in
  if b then Ok true else Raise ETypeError.

(** ReaderFactory.addReader, factory.py:70-80, through VettedDict.__setitem__
    (utils/__init__.py:190-218) *)
Definition add_reader (k v : obj) (m : list (obj * obj)) : res unit * list (obj * obj) :=
  match type_filter core_base k with
  | Raise e => (Raise e, m)
  | Ok _ => match type_filter abstract_reader v with
            | Raise e => (Raise e, m)
            | Ok _ => (Ok tt, reader_set k v m)
            end
  end.

(** The inferred name, factory.py:103-106 *)
Definition reader_class_name (n : string) : string :=
  "ndg.xacml.parsers.etree." ++ py_lower n ++ "reader." ++ n ++ "Reader".

(** ReaderFactory.getReader, factory.py:82-108 *)
Definition get_reader (k : obj) (m : list (obj * obj)) (w : interp) : res obj * interp :=
  match reader_get k m with
  | Some v => (Ok v, w)
  | None =>
      match name_of k with
      | Raise e => (Raise e, w)
      | Ok n => import_module_object (reader_class_name n) None None w
      end
  end.

Definition add_readers (ops : list (obj * obj)) (m : list (obj * obj)) : list (obj * obj) :=
  fold_left (fun m o => snd (add_reader (fst o) (snd o) m)) ops m.
End Factory.
Arguments mkInterp {mods}.
Arguments in_mods {mods}.
Arguments in_lists {mods}.
Arguments in_path {mods}.
