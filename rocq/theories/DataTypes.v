(** Custom data types: the classes of attribute values and the readers of their contents,
    parsers/etree/attributevaluereader.py. *)
From Verif Require Export Readers Utils.

(** What addReader may be given as reader class: a subclass of ETreeDataTypeReaderBase,
    with what its parse method does; another class; an object that is no class *)
Inductive reader_arg : Type :=
| RReader (parse : dtreader)
| ROtherClass (n : N)
| RNotAClass (n : N).

(** ETreeDataTypeReaderClassMap.keyFilter and valueFilter, attributevaluereader.py:114-142,
    for string keys; issubclass raises TypeError on what is no class *)
Definition dt_key_filter (k : string) : res bool := Ok true.
Definition dt_value_filter (r : reader_arg) : res bool :=
  match r with
  | RReader _ => Ok true
  | ROtherClass _ => Raise ETypeError
  | RNotAClass _ => Raise ETypeError
  end.

(** AttributeValueClassFactory.IDENTIFIER2CLASS_MAP and DataTypeReaderClassFactory.MAP *)
Record dtworld : Type := mkDt {
  dt_classes : list (string * candidate);
  dt_readers : list (string * reader_arg)
}.

(** After import, attributevalue.py:272-289, attributevaluereader.py:145-154 *)
Definition dt_init : dtworld :=
  mkDt class_map_init (map (fun p => (fst (snd p), RReader default_dtreader)) TYPE_TABLE).

(** DataTypeReaderClassFactory.addReader, attributevaluereader.py:156-158 *)
Definition add_dtreader (identifier : native) (r : reader_arg) (m : list (string * reader_arg))
  : res unit * list (string * reader_arg) :=
  match identifier with
  | NStr id => vd_setitem dt_key_filter dt_value_filter id r m
  | _ => (Raise ETypeError, m)
  end.

(** DataTypeReaderClassFactory.getReader, attributevaluereader.py:160-162 *)
Definition get_dtreader (dataType : string) (m : list (string * reader_arg)) : res reader_arg :=
  vd_getitem dataType m.

Inductive dtop : Type :=
| DClass (identifier : native) (cls : candidate) (overwrite : bool)   (* addClass *)
| DReader (identifier : native) (r : reader_arg).                     (* addReader *)
Definition dt_step (w : dtworld) (o : dtop) : res unit * dtworld :=
  match o with
  | DClass id c ov => let '(r, m) := add_class id c ov (dt_classes w) in (r, mkDt m (dt_readers w))
  | DReader id rd => let '(r, m) := add_dtreader id rd (dt_readers w) in (r, mkDt (dt_classes w) m)
  end.
Definition dt_run (os : list dtop) (w : dtworld) : dtworld :=
  fold_left (fun w o => snd (dt_step w o)) os w.

(** What the readers of policies use. *)
Definition env_of (w : dtworld) : renv :=
  mkRenv (flat_map (fun p => match snd p with CAttrClass c => [(fst p, c)] | _ => [] end) (dt_classes w))
         (flat_map (fun p => match snd p with RReader r => [(fst p, r)] | _ => [] end) (dt_readers w))
         fm_new.
