(** Which element tree library the package uses: Config and importElementTree,
    ndg/xacml/__init__.py:15-49, and the modules that call it when they are loaded
    (parsers/etree/__init__.py:17, reader.py:16, context.py:16, utils/etree.py:13,
    utils/xpath_selector.py:13).

    Simplification: a module is its name; what it does with the library is elsewhere. *)
From Verif Require Export Base Strings.

Inductive tree : Type := Lxml | XmlEtree | OldEtree.

(** What importing each library does at one time *)
Definition libs : Type := tree -> res unit.

(** [try: from xml.etree import ElementTree; except ImportError: import ElementTree],
    __init__.py:33-37 and 44-48 *)
Definition import_plain (l : libs) : res tree :=
  match l XmlEtree with
  | Ok _ => Ok XmlEtree
  | Raise EImportError => let* _ := l OldEtree in Ok OldEtree
  | Raise e => Raise e
  end.

(** importElementTree, __init__.py:23-49; Config.use_lxml before and after *)
Definition import_tree (l : libs) (use_lxml : option bool) : res tree * option bool :=
  match use_lxml with
  | Some true => ((let* _ := l Lxml in Ok Lxml), Some true)
  | Some false => (import_plain l, Some false)
  | None =>
      match l Lxml with
      | Ok _ => (Ok Lxml, Some true)
      | Raise EImportError => (import_plain l, Some false)
      | Raise e => (Raise e, Some false)
      end
  end.

(** The process: Config.use_lxml and the modules loaded, with their library and what
    Config.use_lxml was when their classes were made (xpath_selector.py:51,
    parsers/etree/__init__.py:24). *)
Record tworld : Type := mkTworld {
  tw_config : option bool;
  tw_loaded : list (string * (tree * option bool))
}.

Inductive top : Type :=
| TLoad (m : string) (l : libs)        (* a module is imported *)
| TAssign (b : bool).                  (* the user sets Config.use_lxml *)

(** A loaded module is not loaded again; a module whose loading raises is not loaded. *)
Definition t_step (w : tworld) (o : top) : tworld :=
  match o with
  | TAssign b => mkTworld (Some b) (tw_loaded w)
  | TLoad m l =>
      match dict_get m (tw_loaded w) with
      | Some _ => w
      | None =>
          match import_tree l (tw_config w) with
          | (Ok t, c) => mkTworld c (dict_set m (t, c) (tw_loaded w))
          | (Raise _, c) => mkTworld c (tw_loaded w)
          end
      end
  end.
Fixpoint t_run (h : list top) (w : tworld) : tworld :=
  match h with
  | [] => w
  | o :: rest => t_run rest (t_step w o)
  end.
