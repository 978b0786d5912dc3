(** Specification for pretty printing: a reader for a part of XML, independent of the
    printer, and when two trees are alike up to white space. *)
From Verif Require Import PrettyPrint SpecText.

(** ** Characters and names *)
Fixpoint all_chars (f : ascii -> bool) (s : string) : bool :=
  match s with EmptyString => true | String c s' => f c && all_chars f s' end.

(** Characters of names: no blanks, no markup, no colon, no braces. *)
Definition name_char (c : ascii) : bool :=
  negb (is_space c) && negb (has_char c (quote ++ "<>&=/:{}'")).
(** Characters that stand for themselves in attribute values: no markup and no control
    characters (XML readers turn line breaks in attributes into blanks). *)
Definition attr_char (c : ascii) : bool :=
  negb (has_char c (quote ++ "<&")) && (32 <=? N_of_ascii c)%N.
(** Characters that stand for themselves in text. *)
Definition text_char (c : ascii) : bool :=
  negb (has_char c "<>&") && ((32 <=? N_of_ascii c)%N || (N_of_ascii c =? 9)%N || (N_of_ascii c =? 10)%N).

Definition name_ok (s : string) : Prop := s <> "" /\ all_chars name_char s = true.
Definition uri_ok (u : string) : Prop :=
  u <> "" /\ all_chars attr_char u = true /\ has_char open_brace u = false /\ has_char close_brace u = false.

(** The ElementTree form of a qualified name. *)
Definition expanded (uri local : string) : string := ("{" ++ uri ++ "}" ++ local)%string.

(** ** Reading XML text

    Elements, attributes in double quotes, namespace declarations with prefix and
    plain text; everything else (references, comments, default namespaces, ...) is not
    read.  [fuel] bounds the number of nested steps; the length of the text is enough. *)
Notation "'let?' x ':=' e1 'in' e2" := (match e1 with Some x => e2 | None => None end)
  (at level 200, x pattern, e1 at level 100, e2 at level 200, right associativity).

(** The longest prefix of characters satisfying [f], and the rest. *)
Fixpoint span (f : ascii -> bool) (s : string) : string * string :=
  match s with
  | EmptyString => ("", "")
  | String c s' => if f c then let '(a, b) := span f s' in (String c a, b) else ("", s)
  end.
Definition skip (p s : string) : option string :=
  if String.prefix p s then Some (str_drop (String.length p) s) else None.

Definition read_name (s : string) : option (string * string) :=
  let '(n, rest) := span name_char s in
  if String.eqb n "" then None else Some (n, rest).

(** name or prefix:name *)
Definition xname : Type := (option string * string)%type.
Definition read_xname (s : string) : option (xname * string) :=
  let? (n, rest) := read_name s in
  match skip ":" rest with
  | None => Some ((None, n), rest)
  | Some s1 => let? (l, rest1) := read_name s1 in Some ((Some n, l), rest1)
  end.

(** [ name="value"]... up to and with [>] *)
Fixpoint read_attrs (fuel : nat) (s : string) : option (list (xname * string) * string) :=
  match fuel with
  | O => None
  | S fuel' =>
      match skip ">" s with
      | Some rest => Some ([], rest)
      | None =>
          let? s1 := skip " " s in
          let? (n, s2) := read_xname s1 in
          let? s3 := skip ("=" ++ quote) s2 in
          let '(v, s4) := span attr_char s3 in
          let? s5 := skip quote s4 in
          let? (l, rest) := read_attrs fuel' s5 in
          Some ((n, v) :: l, rest)
      end
  end.

(** Namespace declarations [xmlns:prefix="uri"], as pairs of prefix and URI, and the
    other attributes. *)
Fixpoint declarations (l : list (xname * string)) : list (string * string) :=
  match l with
  | [] => []
  | ((Some p, n), v) :: l' => if String.eqb p "xmlns" then (n, v) :: declarations l' else declarations l'
  | _ :: l' => declarations l'
  end.
Fixpoint others (l : list (xname * string)) : list (xname * string) :=
  match l with
  | [] => []
  | ((Some p, n), v) :: l' => if String.eqb p "xmlns" then others l' else ((Some p, n), v) :: others l'
  | x :: l' => x :: others l'
  end.

(** The ElementTree form of a name in the scope of declarations; [xmlns] alone is not
    read. *)
Definition resolve (scope : list (string * string)) (n : xname) : option string :=
  match n with
  | (None, l) => if String.eqb l "xmlns" then None else Some l
  | (Some p, l) => let? u := dict_get p scope in Some (expanded u l)
  end.
Fixpoint resolve_all (scope : list (string * string)) (l : list (xname * string))
  : option (list (string * string)) :=
  match l with
  | [] => Some []
  | (n, v) :: l' =>
      let? n' := resolve scope n in
      let? rest := resolve_all scope l' in
      Some ((n', v) :: rest)
  end.
Fixpoint distinct (l : list string) : bool :=
  match l with [] => true | x :: l' => negb (str_in x l') && distinct l' end.

Definition xname_text (n : xname) : string :=
  match n with (None, l) => l | (Some p, l) => (p ++ ":" ++ l)%string end.
Definition text_opt (t : string) : option string := if String.eqb t "" then None else Some t.
Definition set_tail (e : pnode) (t : string) : pnode :=
  match e with
  | PElem tag attrs ns text _ kids => PElem tag attrs ns text (text_opt t) kids
  | PComment text _ => PComment text (text_opt t)
  end.

Fixpoint read_elem (fuel : nat) (scope : list (string * string)) (s : string) {struct fuel}
  : option (pnode * string) :=
  match fuel with
  | O => None
  | S fuel' =>
      let? s1 := skip "<" s in
      let? (n, s2) := read_xname s1 in
      let? (raw, s3) := read_attrs (S (String.length s2)) s2 in
      let decls := declarations raw in
      if distinct (map fst decls) && forallb (fun d => negb (String.eqb (snd d) "")) decls then
        let scope' := decls ++ scope in
        let? tag := resolve scope' n in
        let? attrs := resolve_all scope' (others raw) in
        if distinct (map fst attrs) then
          let? (text, kids, s4) := read_items fuel' scope' s3 in
          let? s5 := skip ("</" ++ xname_text n ++ ">") s4 in
          Some (PElem tag attrs [] (text_opt text) None kids, s5)
        else None
      else None
  end
(** Text, then the child elements each with the text after it, up to an end tag. *)
with read_items (fuel : nat) (scope : list (string * string)) (s : string) {struct fuel}
  : option (string * list pnode * string) :=
  match fuel with
  | O => None
  | S fuel' =>
      let '(text, s1) := span text_char s in
      match skip "</" s1 with
      | Some _ => Some (text, [], s1)
      | None =>
          let? (e, s2) := read_elem fuel' scope s1 in
          let? (tail, kids, s3) := read_items fuel' scope s2 in
          Some (text, set_tail e tail :: kids, s3)
      end
  end.

(** One element, with nothing but blanks around it. *)
Definition xml_read (s : string) : option pnode :=
  let? (e, rest) := read_elem (S (String.length s)) [] (lstrip s) in
  if String.eqb (lstrip rest) "" then Some e else None.

(** ** Alike up to white space at the ends of texts *)
Definition chars (t : option string) : string := match t with None => "" | Some s => s end.
Definition same_text (t t' : option string) : Prop :=
  exists s, trimmed (chars t) s /\ trimmed (chars t') s.

(** The tail of the outermost element is outside it. *)
Inductive alike : pnode -> pnode -> Prop :=
| Alike : forall tag attrs ns ns' text text' tail tail' kids kids',
    same_text text text' ->
    Forall2 (fun k k' => alike k k' /\ same_text (p_tail k) (p_tail k')) kids kids' ->
    alike (PElem tag attrs ns text tail kids) (PElem tag attrs ns' text' tail' kids').

(** ** What can be printed faithfully *)
Definition text_ok (t : option string) : Prop :=
  match t with None => True | Some s => all_chars text_char s = true end.
Definition attr_ok (a : string * string) : Prop :=
  ((name_ok (fst a) /\ fst a <> "xmlns") \/
   (exists u l, fst a = expanded u l /\ uri_ok u /\ name_ok l)) /\
  all_chars attr_char (snd a) = true.

(** Every element is in a namespace; attribute names differ; texts and values contain
    only characters that stand for themselves; text stands only before the first child
    and after the last; no comments. *)
Inductive printable : pnode -> Prop :=
| Printable : forall u l attrs ns text tail kids,
    uri_ok u -> name_ok l ->
    Forall attr_ok attrs -> NoDup (map fst attrs) ->
    text_ok text ->
    (forall k, In k kids -> printable k /\ text_ok (p_tail k)) ->
    (forall pre k k' post, kids = pre ++ k :: k' :: post -> all_blank (chars (p_tail k))) ->
    printable (PElem (expanded u l) attrs ns text tail kids).

(** Indentation: blanks, tabs and line breaks. *)
Definition white (s : string) : Prop :=
  all_chars (fun c => (N_of_ascii c =? 32)%N || (N_of_ascii c =? 9)%N || (N_of_ascii c =? 10)%N) s = true.

(** A map from URIs to prefixes is usable: different URIs have different prefixes, and
    these are names other than xmlns. *)
Definition usable_map (m : list (string * string)) : Prop :=
  (forall u u' p, dict_get u m = Some p -> dict_get u' m = Some p -> u = u') /\
  (forall u p, dict_get u m = Some p -> name_ok p /\ p <> "xmlns").

(** lxml: every element of the tree that knows a namespace knows it by the prefix that
    [m] gives it. *)
Inductive prefixes_agree (m : list (string * string)) : pnode -> Prop :=
| AgreeElem : forall tag attrs ns text tail kids,
    (forall u p q, find (fun e => String.eqb (snd e) u) ns = Some (p, q) ->
       dict_get u m = Some (match p with Some p => p | None => "None" end)) ->
    (forall k, In k kids -> prefixes_agree m k) ->
    prefixes_agree m (PElem tag attrs ns text tail kids)
| AgreeComment : forall text tail, prefixes_agree m (PComment text tail).

(** The namespaces that tags and attribute names of a tree mention. *)
Fixpoint namespaces (e : pnode) : list string :=
  match e with
  | PElem tag attrs _ _ _ kids =>
      get_ns tag :: filter (fun u => negb (String.eqb u "")) (map (fun a => get_ns (fst a)) attrs)
        ++ flat_map namespaces kids
  | PComment _ _ => []
  end.
Inductive no_comments : pnode -> Prop :=
| NoComments : forall tag attrs ns text tail kids,
    (forall k, In k kids -> no_comments k) -> no_comments (PElem tag attrs ns text tail kids).

(** lxml: every element knows the namespaces of its tag and attributes. *)
Inductive knows_namespaces : pnode -> Prop :=
| KnowsNamespaces : forall tag attrs ns text tail kids,
    (forall u, u = get_ns tag \/ (In u (map (fun a => get_ns (fst a)) attrs) /\ u <> "") ->
       exists p, In (p, u) ns) ->
    (forall k, In k kids -> knows_namespaces k) ->
    knows_namespaces (PElem tag attrs ns text tail kids).
