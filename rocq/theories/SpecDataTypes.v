(** Notions used in the statements about custom data types. *)
From Verif Require Import DataTypes SpecUtils SpecRead.

(** The class for the data type after the operations: one of the standard ones or the
    first registered, unless overwritten. *)
Fixpoint class_after (os : list dtop) (dt : string) (cur : option avclass) : option avclass :=
  match os with
  | [] => cur
  | DClass (NStr id) (CAttrClass c) overwrite :: rest =>
      class_after rest dt
        (if String.eqb id dt then
           match cur with Some old => if overwrite then Some c else Some old | None => Some c end
         else cur)
  | _ :: rest => class_after rest dt cur
  end.
(** The reader of contents: the last that was registered. *)
Fixpoint reader_after (os : list dtop) (dt : string) (cur : option dtreader) : option dtreader :=
  match os with
  | [] => cur
  | DReader (NStr id) (RReader r) :: rest => reader_after rest dt (if String.eqb id dt then Some r else cur)
  | _ :: rest => reader_after rest dt cur
  end.
Definition standard_class (dt : string) : option avclass := dict_get dt STD_CLASS_MAP.
Definition standard_reader (dt : string) : option dtreader :=
  match dict_get dt STANDARD_TYPES with Some _ => Some default_dtreader | None => None end.

(** [n] is an attribute value of data type [dt]. *)
Definition value_element (n : node) (dt : string) : Prop :=
  called "AttributeValue" n = true /\ xml_attr "DataType" n = Some dt.
