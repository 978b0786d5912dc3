(** Notions used in the statements about function identifiers and function maps. *)
From Verif Require Import FuncMap.

(** What a newly created function map gives for an identifier. *)
Definition resolve (cm : list (string * avclass)) (id : string) : res fclass :=
  fst (fm_getitem cm id fm_new).

(** The two strings agree except perhaps for the case of the first letter of the
    left one. *)
Definition capitalised (t name : string) : Prop :=
  exists c rest, t = String c rest /\ name = String (ascii_upper c) rest.

(** [t] is how function names spell the data type with this URI: the type's name,
    with a small or capital first letter, or one of the two special names. *)
Inductive spells_type : string -> string -> Prop :=
| spells_plain : forall t name uri nt,
    In (name, (uri, nt)) TYPE_TABLE -> capitalised t name -> spells_type t uri
| spells_url : spells_type "url-string" (xs "anyURI")
| spells_xpath : spells_type "xpath-node" (xs "string").

(** The families of functions that exist for several data types, by namespace. *)
Definition typed_families : list (string * string * (avclass -> fn)) :=
  [ (V1_NS, "equal", FnEqual); (V1_NS, "match", FnMatch); (V1_NS, "bag", FnBag);
    (V1_NS, "one-and-only", FnOneAndOnly);
    (V1_NS, "at-least-one-member-of", FnAtLeastOne);
    (V2_NS, "concatenate", FnConcat); (V2_NS, "regexp-match", FnRegexp) ].

(** [id] names the function [f]: one of four fixed identifiers, or an identifier in
    a namespace whose last segment is "<type>-<family>". *)
Inductive names_function (cm : list (string * avclass)) : string -> fn -> Prop :=
| names_and : names_function cm (v1 "and") FnAnd
| names_not : names_function cm (v1 "not") FnNot
| names_round : names_function cm (v1 "round") FnRound
| names_regexp : names_function cm (v1 "string-regexp-match") (FnRegexp StringAV)
| names_typed : forall ns family mk segments t uri c,
    In (ns, family, mk) typed_families ->
    startswith ns (segments ++ ":") = true ->
    spells_type t uri -> dict_get uri cm = Some c ->
    names_function cm (segments ++ ":" ++ t ++ "-" ++ family) (mk c).

(** The identifiers of the standard catalogue that have an implementation. *)
Definition all_types : list string :=
  [ "string"; "boolean"; "integer"; "double"; "time"; "date"; "dateTime"; "anyURI";
    "hexBinary"; "base64Binary"; "dayTimeDuration"; "yearMonthDuration"; "x500Name";
    "rfc822Name" ].
Definition of_types (ns family : string) (types : list string) : list string :=
  map (fun t => ns ++ t ++ "-" ++ family)%string types.
Definition IMPLEMENTED : list string :=
  (of_types V1_NS "equal" (all_types ++ ["xpath-node"]) ++
   of_types V1_NS "match" ["x500Name"; "rfc822Name"; "xpath-node"] ++
   of_types V1_NS "bag" all_types ++
   of_types V1_NS "one-and-only" all_types ++
   of_types V1_NS "at-least-one-member-of" all_types ++
   of_types V2_NS "concatenate" ["string"] ++
   of_types V2_NS "regexp-match"
     ["anyURI"; "ipAddress"; "dnsName"; "rfc822Name"; "x500Name"] ++
   [v1 "string-regexp-match"; v1 "and"; v1 "not"; v1 "round"])%list.

(** The standard catalogue itself, by families. *)
Definition named (ns : string) (names : list string) : list string := map (fun n => ns ++ n)%string names.
Definition families (types names : list string) : list string :=
  flat_map (fun family => of_types "urn:oasis:names:tc:xacml:1.0:function:" family types) names.
Definition CATALOGUE : list string :=
  (families all_types ["equal"; "one-and-only"; "bag-size"; "is-in"; "bag"] ++
   families all_types ["intersection"; "at-least-one-member-of"; "union"; "subset"; "set-equals"] ++
   families ["integer"; "double"] ["add"; "subtract"; "multiply"; "divide"; "abs"] ++
   families ["integer"; "double"; "string"; "time"; "dateTime"; "date"]
     ["greater-than"; "greater-than-or-equal"; "less-than"; "less-than-or-equal"] ++
   families ["dateTime"] ["add-dayTimeDuration"; "subtract-dayTimeDuration"] ++
   families ["dateTime"; "date"] ["add-yearMonthDuration"; "subtract-yearMonthDuration"] ++
   families ["x500Name"; "rfc822Name"; "xpath-node"] ["match"] ++
   families ["xpath-node"] ["count"; "equal"] ++
   named "urn:oasis:names:tc:xacml:1.0:function:"
     ["integer-mod"; "round"; "floor"; "string-normalize-space"; "string-normalize-to-lower-case";
      "double-to-integer"; "integer-to-double"; "or"; "and"; "n-of"; "not"; "any-of"; "all-of";
      "any-of-any"; "all-of-any"; "any-of-all"; "all-of-all"; "map"; "string-regexp-match"] ++
   named "urn:oasis:names:tc:xacml:2.0:function:"
     ["time-in-range"; "string-concatenate"; "uri-string-concatenate"; "anyURI-regexp-match";
      "ipAddress-regexp-match"; "dnsName-regexp-match"; "rfc822Name-regexp-match";
      "x500Name-regexp-match"])%list.

(** ** Custom functions *)

(** The class a factory yields. *)
Definition yields (src : factory_source) : option fclass :=
  match src with
  | FSObject (FOClass c) | FSPath (FOClass c) => Some c
  | _ => None
  end.

(** The function class the user has put under [id] and not deleted since: by
    load_custom_function (which refuses standard identifiers) or by item
    assignment. *)
Definition custom_effect (id : string) (acc : option fclass) (o : fop) : option fclass :=
  match o with
  | FLoadCustom i src =>
      if String.eqb i id && negb (str_in id FUNCTION_NAMES)
      then match yields src with Some c => Some c | None => acc end
      else acc
  | FSetItem i (Some c) => if String.eqb i id then Some c else acc
  | FDelItem i => if String.eqb i id then None else acc
  | _ => acc
  end.
Definition last_custom (id : string) (ops : list fop) : option fclass :=
  fold_left (custom_effect id) ops None.

(** The operation does not assign an item directly. *)
Definition no_assignment (o : fop) : Prop :=
  match o with FSetItem _ _ => False | _ => True end.
