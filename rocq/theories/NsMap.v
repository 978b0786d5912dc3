(** The namespace prefixes of the process: ElementTree._namespace_map, as it is used by
    readers (parsers/etree/reader.py:29-46), by writing (parsers/etree/__init__.py:45-51) and
    by pretty printing (utils/etree.py:47-74).

    The map is a module attribute that holds a dict; readers and the printer replace the dict
    by another one.  Simplifications: one printing is one step; the prefixes that ElementTree's
    own serialiser registers are the user's changes here. *)
From Verif Require Export PrettyPrint.

Definition nsdict : Type := list (string * string).     (* URI to prefix *)

(** The dicts there are, which of them the module attribute holds, and the backups of the
    readers that exist: the attribute __namespace_map_backup of each. *)
Record nsworld : Type := mkNs {
  ns_dicts : list nsdict;
  ns_current : nat;
  ns_backups : list (nat * nat)
}.

Inductive nsop : Type :=
| NBackup (r : nat)                       (* reader.py:40, in the constructor of reader r *)
| NMark                                   (* reader.py:41 *)
| NRestore (r : nat)                      (* reader.py:46, when reader r is deleted *)
| NSet (uri prefix : string)              (* makeEtreeElement, etree/__init__.py:50 *)
| NPrint (indent space : string) (e : pnode)   (* prettyPrint, utils/etree.py:47-74 *)
| NUser (change : nsdict -> nsdict).      (* others change the dict, e.g. register_namespace *)

(** XacmlPolicyBase.XACML_2_0_POLICY_NS, core/__init__.py:129-130 *)
Definition POLICY_NS : string := "urn:oasis:names:tc:xacml:2.0:policy:schema:os".

Definition dict_at (w : nsworld) (i : nat) : nsdict := nth i (ns_dicts w) [].
Fixpoint put_dict (i : nat) (d : nsdict) (l : list nsdict) : list nsdict :=
  match l, i with
  | [], _ => []
  | _ :: l', O => d :: l'
  | y :: l', S i' => y :: put_dict i' d l'
  end.
Fixpoint lookup_nat (r : nat) (l : list (nat * nat)) : option nat :=
  match l with
  | [] => None
  | (k, v) :: l' => if Nat.eqb k r then Some v else lookup_nat r l'
  end.

(** Change the dict that is in the module attribute. *)
Definition change_current (f : nsdict -> nsdict) (w : nsworld) : nsworld :=
  mkNs (put_dict (ns_current w) (f (dict_at w (ns_current w))) (ns_dicts w)) (ns_current w) (ns_backups w).
(** Copy the dict that is in the module attribute. *)
Definition copy_current (w : nsworld) : nat * nsworld :=
  (length (ns_dicts w),
   mkNs (ns_dicts w ++ [dict_at w (ns_current w)]) (ns_current w) (ns_backups w)).

(** One operation.  [lxml]: Config.use_lxml; then the module attribute is not used. *)
Definition ns_step (lxml : bool) (o : nsop) (w : nsworld) : nsworld :=
  if lxml then w
  else
    match o with
    | NBackup r =>
        let (i, w1) := copy_current w in
        mkNs (ns_dicts w1) (ns_current w1) ((r, i) :: ns_backups w1)
    | NMark => change_current (dict_set "" POLICY_NS) w
    | NRestore r =>
        match lookup_nat r (ns_backups w) with
        | Some i => mkNs (ns_dicts w) i (ns_backups w)
        | None => w               (* AttributeError in __del__, which is ignored *)
        end
    | NSet uri prefix => change_current (dict_set uri prefix) w
    | NPrint indent space e =>
        let m := dict_at w (ns_current w) in
        let (i, w1) := copy_current w in
        match print_elem false indent space [] e (mkPstate m (map snd m)) with
        | (r, st) =>
            let w2 := change_current (fun _ => ps_map st) w1 in
            match r with
            | Ok _ => mkNs (ns_dicts w2) i (ns_backups w2)
            | Raise _ => w2
            end
        end
    | NUser f => change_current f w
    end.
Fixpoint ns_run (lxml : bool) (ops : list nsop) (w : nsworld) : nsworld :=
  match ops with
  | [] => w
  | o :: rest => ns_run lxml rest (ns_step lxml o w)
  end.

(** ElementTree._namespace_map *)
Definition ns_map (w : nsworld) : nsdict := dict_at w (ns_current w).

(** ETreeAbstractReader.__init__, reader.py:29-41: refused without TYPE *)
Definition reader_new (typed : bool) (r : nat) : res unit * list nsop :=
  if typed then (Ok tt, [NBackup r; NMark]) else (Raise ENotImplementedError, []).
(** ETreeAbstractReader.__del__, reader.py:43-46 *)
Definition reader_del (r : nat) : list nsop := [NRestore r].
