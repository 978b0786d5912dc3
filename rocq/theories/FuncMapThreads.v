(** Several threads of one process using one function map: the map is a module level
    object ([functionMap], core/functions/__init__.py:759-761) that every match, apply
    and condition of the process looks functions up in, and it loads them on demand.

    A thread is a program whose steps are the operations on the two dicts of the map,
    each atomic in Python: [get], [in] and item access ([MGet]), item assignment
    ([MPut]) and deletion ([MDel]) on the dict of function classes, [get] ([MFactory])
    and item assignment ([MPutFactory]) on the dict of factories.  What happens between
    two such steps (parsing the identifier, importing the module, calling the factory)
    acts on the thread's own objects.
    Simplification: importing a module and calling a factory always give the same
    result (FuncMap.v: import_factory, factory_call); function classes are represented
    by their behaviour, so the two equivalent classes that two threads may create for
    one identifier are not distinguished. *)
From Verif Require Export FuncMap EvalThreads.

Inductive MT (A : Type) : Type :=
| MDone (r : res A)
| MGet (id : string) (k : option fclass -> MT A)
| MPut (id : string) (c : fclass) (k : MT A)
| MDel (id : string) (k : bool -> MT A)
| MFactory (id : string) (k : option family -> MT A)
| MPutFactory (id : string) (fam : family) (k : MT A).
Arguments MDone {A} r.
Arguments MGet {A} id k.
Arguments MPut {A} id c k.
Arguments MDel {A} id k.
Arguments MFactory {A} id k.
Arguments MPutFactory {A} id fam k.

(** [x], then [f] on its outcome. *)
Fixpoint then_m {A B} (x : MT A) (f : res A -> MT B) : MT B :=
  match x with
  | MDone r => f r
  | MGet id k => MGet id (fun o => then_m (k o) f)
  | MPut id c k => MPut id c (then_m k f)
  | MDel id k => MDel id (fun o => then_m (k o) f)
  | MFactory id k => MFactory id (fun o => then_m (k o) f)
  | MPutFactory id fam k => MPutFactory id fam (then_m k f)
  end.
Definition bind_m {A B} (x : MT A) (f : A -> MT B) : MT B :=
  then_m x (fun r => match r with Ok a => f a | Raise e => MDone (Raise e) end).

(** FunctionMap.__getitem__, functions/__init__.py:725-738, with the given
    loadFunction *)
Definition getitem_with (load : string -> MT unit) (id : string) : MT fclass :=
  MGet id (fun found =>
    bind_m (match found with
            | Some _ => MDone (Ok tt)
            | None => load id
            end)
      (fun _ => MGet id (fun found =>
        match found with
        | Some c => MDone (Ok c)
        | None => MDone (Raise EKeyError)
        end))).

(** FunctionMap.loadFunction, functions/__init__.py:620-691.  [depth] bounds the
    recursion through [self[functionNs]] (630-631); beyond it Python raises
    RecursionError. *)
Fixpoint load_m (cm : list (string * avclass)) (depth : nat) (id : string) : MT unit :=
  MGet id (fun found =>
    match found with
    | Some _ =>
        match depth with
        | O => MDone (Raise ERecursionError)
        | S d => bind_m (getitem_with (load_m cm d) id) (fun _ => MDone (Ok tt))
        end
    | None =>
        MFactory id (fun cached =>
          match cached with
          | Some fam =>
              match factory_call cm fam id with
              | Ok (Some f) => MPut id (FImpl f) (MDone (Ok tt))
              | Ok None => MDone (Raise ETypeError)
              | Raise e => MDone (Raise e)
              end
          | None =>
              match namespace_of id with
              | None => MDone (Raise EFunctionMapConfigError)
              | Some (pkg2, functionName) =>
                  match import_factory pkg2 (module_name functionName) with
                  | None => MPut id FNotImplemented (MDone (Ok tt))
                  | Some fam =>
                      match factory_call cm fam id with
                      | Raise e => MDone (Raise e)
                      | Ok None => MDone (Raise (unsupported_error id))
                      | Ok (Some f) =>
                          MPut id (FImpl f) (MPutFactory id fam (MDone (Ok tt)))
                      end
                  end
              end
          end)
    end).

Definition getitem_m (cm : list (string * avclass)) (depth : nat) (id : string) : MT fclass :=
  getitem_with (load_m cm depth) id.

(** FunctionMap.get without default, functions/__init__.py:740-757 *)
Definition get_m (cm : list (string * avclass)) (depth : nat) (id : string) : MT (option fclass) :=
  MGet id (fun found =>
    match found with
    | Some c => MDone (Ok (Some c))
    | None => bind_m (load_m cm depth id) (fun _ => MGet id (fun found => MDone (Ok found)))
    end).

(** FunctionMap.loadAllCore, functions/__init__.py:614-618 *)
Fixpoint load_all_m (cm : list (string * avclass)) (depth : nat) (ids : list string) : MT unit :=
  match ids with
  | [] => MDone (Ok tt)
  | id :: rest => bind_m (load_m cm depth id) (fun _ => load_all_m cm depth rest)
  end.

(** FunctionMap.load_custom_function, functions/__init__.py:693-723 *)
Definition load_custom_m (id : string) (src : factory_source) : MT unit :=
  if str_in id FUNCTION_NAMES then MDone (Raise EOverwritingStdFunctionError)
  else
    let factory := match src with
                   | FSObject o => Ok o
                   | FSNoPath => Raise ETypeError
                   | FSImportFails e => Raise e
                   | FSPath o => Ok o
                   end in
    match factory with
    | Raise e => MDone (Raise e)
    | Ok (FORaise e) => MDone (Raise e)
    | Ok FONone => MDone (Raise (unsupported_error id))
    | Ok (FOClass c) => MPut id c (MDone (Ok tt))
    | Ok FOBad => MDone (Raise ETypeError)
    end.

(** VettedDict.__setitem__ and __delitem__, utils/__init__.py:208-217 and 263-264 *)
Definition setitem_m (id : string) (v : option fclass) : MT unit :=
  match v with
  | Some c => MPut id c (MDone (Ok tt))
  | None => MDone (Raise ETypeError)
  end.
Definition delitem_m (id : string) : MT unit :=
  MDel id (fun was => MDone (if was then Ok tt else Raise EKeyError)).

(** One operation and what the caller gets: the class for a lookup, nothing for the
    other operations, or an exception. *)
Definition op_m (cm : list (string * avclass)) (depth : nat) (o : fop) : MT (option fclass) :=
  match o with
  | FGetItem id => bind_m (getitem_m cm depth id) (fun c => MDone (Ok (Some c)))
  | FGet id => get_m cm depth id
  | FLoad id => bind_m (load_m cm depth id) (fun _ => MDone (Ok None))
  | FLoadAll => bind_m (load_all_m cm depth FUNCTION_NAMES) (fun _ => MDone (Ok None))
  | FLoadCustom id src => bind_m (load_custom_m id src) (fun _ => MDone (Ok None))
  | FSetItem id v => bind_m (setitem_m id v) (fun _ => MDone (Ok None))
  | FDelItem id => bind_m (delitem_m id) (fun _ => MDone (Ok None))
  end.

(** The operations of a thread, one after the other; the caller handles exceptions. *)
Fixpoint ops_m (cm : list (string * avclass)) (depth : nat) (ops : list fop)
  : MT (list (res (option fclass))) :=
  match ops with
  | [] => MDone (Ok [])
  | o :: rest =>
      then_m (op_m cm depth o) (fun r =>
        bind_m (ops_m cm depth rest) (fun rs => MDone (Ok (r :: rs))))
  end.

(** ** Running threads *)

(** One step of a thread. *)
Definition step_m {A} (x : MT A) (m : fmap) : MT A * fmap :=
  match x with
  | MDone r => (MDone r, m)
  | MGet id k => (k (dict_get id (fm_map m)), m)
  | MPut id c k => (k, fm_put id c m)
  | MDel id k =>
      if dict_mem id (fm_map m)
      then (k true, mkFmap (dict_del id (fm_map m)) (fm_factories m))
      else (k false, m)
  | MFactory id k => (k (dict_get id (fm_factories m)), m)
  | MPutFactory id fam k => (k, mkFmap (fm_map m) (dict_set id fam (fm_factories m)))
  end.

(** A schedule says which thread makes the next step. *)
Definition schedule_step_m {A} (i : nat) (s : list (MT A) * fmap) : list (MT A) * fmap :=
  match nth_error (fst s) i with
  | None => s
  | Some x => let '(x', m') := step_m x (snd s) in (replace_nth i x' (fst s), m')
  end.
Fixpoint run_schedule_m {A} (sched : list nat) (s : list (MT A) * fmap) : list (MT A) * fmap :=
  match sched with
  | [] => s
  | i :: rest => run_schedule_m rest (schedule_step_m i s)
  end.
