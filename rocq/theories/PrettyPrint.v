(** Pretty printing of element trees: ndg/xacml/utils/etree.py:47-202.

    Simplification: strings are 8 bit; attribute values and texts are strings. *)
From Coq Require Import DecimalString.
From Verif Require Export Base Strings Text.

(** Elements with everything the printer looks at: tag, attributes, the namespace map
    of lxml (prefix None for the default namespace; empty for xml.etree), text, tail
    and children; comments. *)
Inductive pnode : Type :=
| PElem (tag : string) (attrs : list (string * string)) (nsmap : list (option string * string))
    (text tail : option string) (kids : list pnode)
| PComment (text tail : option string).

Definition p_tail (e : pnode) : option string :=
  match e with PElem _ _ _ _ t _ => t | PComment _ t => t end.

(** What is changed while printing: ElementTree._namespace_map (URI to prefix) and
    the prefixes in use, shared by all printers of a run (etree.py:61-68). *)
Record pstate : Type := mkPstate {
  ps_map : list (string * string);
  ps_mapped : list string
}.

(** [x] then [f], with state *)
Definition PP (A : Type) : Type := pstate -> res A * pstate.
Definition bind_p {A B} (x : PP A) (f : A -> PP B) : PP B :=
  fun st => match x st with
            | (Ok a, st') => f a st'
            | (Raise e, st') => (Raise e, st')
            end.
Definition ret_p {A} (a : A) : PP A := fun st => (Ok a, st).
Definition raise_p {A} (e : exn) : PP A := fun st => (Raise e, st).
Notation "'let^' x ':=' e1 'in' e2" := (bind_p e1 (fun x => e2))
  (at level 200, x pattern, e1 at level 100, e2 at level 200, right associativity).

(** _PrettyPrint.estrip, etree.py:93-106 *)
Definition estrip (t : option string) : string :=
  match t with None => "" | Some s => py_strip s end.

(** _PrettyPrint.MAX_NS_TRIES, etree.py:81 *)
Definition MAX_NS_TRIES : nat := 256.

(** ["ns%d" % i] *)
Definition ns_name (i : nat) : string := "ns" ++ NilEmpty.string_of_uint (Nat.to_uint i).

(** _allocNsPrefix, etree.py:181-202: the prefix of a known URI, else the first of
    ns0, ns1, ... that is not in use, which is entered into both maps. *)
Definition alloc_prefix (ns : string) : PP string :=
  fun st =>
    match dict_get ns (ps_map st) with
    | Some p => (Ok p, st)
    | None =>
        match find (fun p => negb (str_in p (ps_mapped st))) (map ns_name (seq 0 MAX_NS_TRIES)) with
        | Some p => (Ok p, mkPstate (dict_set ns p (ps_map st)) (p :: ps_mapped st))
        | None => (Raise EKeyError, st)
        end
    end.

(** _getNamespacePrefix, etree.py:166-179; ["%s" % None] is "None" *)
Definition get_prefix (lxml : bool) (nsmap : list (option string * string)) (ns : string) : PP string :=
  if lxml then
    match find (fun e => String.eqb (snd e) ns) nsmap with
    | Some (Some p, _) => ret_p p
    | Some (None, _) => ret_p "None"
    | None => raise_p EKeyError
    end
  else alloc_prefix ns.

Definition quote : string := String (ascii_of_N 34) "".
Definition lf : string := String (ascii_of_N 10) "".

(** [' xmlns:%s="%s"' % (prefix, ns)] *)
Definition declaration (prefix ns : string) : string :=
  (" xmlns:" ++ prefix ++ "=" ++ quote ++ ns ++ quote)%string.

(** The loop over attributes, etree.py:122-137: text and declared namespaces *)
Fixpoint print_attrs (lxml : bool) (nsmap : list (option string * string)) (declared : list string)
  (attrs : list (string * string)) : PP (string * list string) :=
  match attrs with
  | [] => ret_p ("", declared)
  | (attr, val) :: rest =>
      let attrNamespace := get_ns attr in
      let^ (decl, name, declared1) :=
        if String.eqb attrNamespace "" then ret_p ("", attr, declared)
        else
          let^ prefix := get_prefix lxml nsmap attrNamespace in
          let name := (prefix ++ ":" ++ get_local_part attr)%string in
          if str_in attrNamespace declared then ret_p ("", name, declared)
          else ret_p (declaration prefix attrNamespace, name, declared ++ [attrNamespace]) in
      let^ (text, declared2) := print_attrs lxml nsmap declared1 rest in
      ret_p ((decl ++ " " ++ name ++ "=" ++ quote ++ val ++ quote ++ text)%string, declared2)
  end.

Definition SPACE : string := "    ".

(** The loop over children and the end tag, etree.py:155-162; [pr] prints a child,
    [last] is the tail of the child before. *)
Definition print_children (pr : pnode -> PP string) (indent tag : string) :=
  fix go (last : option string) (kids : list pnode) : PP string :=
  match kids with
  | [] => ret_p (lf ++ indent ++ estrip last ++ "</" ++ tag ++ ">")%string
  | k :: rest =>
      let^ t := pr k in
      let^ u := go (p_tail k) rest in
      ret_p (lf ++ t ++ u)%string
  end.

(** _PrettyPrint.__call__, etree.py:108-164.  A comment's tag is a function, which
    re.search does not take.  The children get the default [space]. *)
Fixpoint print_elem (lxml : bool) (indent space : string) (declared : list string) (e : pnode)
  : PP string :=
  match e with
  | PComment _ _ => raise_p ETypeError
  | PElem etag attrs nsmap text _ kids =>
      let^ (strAttrib, declared1) := print_attrs lxml nsmap declared attrs in
      let namespace := get_ns etag in
      let^ nsPrefix := get_prefix lxml nsmap namespace in
      let tag := (nsPrefix ++ ":" ++ get_local_part etag)%string in
      let known := str_in namespace declared1 in
      let nsDeclaration := if known then "" else declaration nsPrefix namespace in
      let declared2 := if known then declared1 else declared1 ++ [namespace] in
      let start := (indent ++ "<" ++ tag ++ nsDeclaration ++ strAttrib ++ ">" ++ estrip text)%string in
      match kids with
      | [] => ret_p (start ++ "</" ++ tag ++ ">")%string
      | _ => let^ body := print_children (print_elem lxml (indent ++ space) SPACE declared2) indent tag None kids in
            ret_p (start ++ body)%string
      end
  end.

(** prettyPrint, etree.py:47-74: outcome and ElementTree._namespace_map afterwards.
    The map is put back only if printing does not raise. *)
Definition pretty_print (lxml : bool) (ns_map : list (string * string)) (indent space : string) (e : pnode)
  : res string * list (string * string) :=
  let mapped := if lxml then [] else map snd ns_map in
  match print_elem lxml indent space [] e (mkPstate ns_map mapped) with
  | (Ok text, _) => (Ok text, ns_map)
  | (Raise x, st) => (Raise x, ps_map st)
  end.
