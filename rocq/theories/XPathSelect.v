(** XPath selection: ndg/xacml/utils/xpath_selector.py, with the part of the paths of
    xml.etree.ElementTree's findall (CPython's ElementPath.py) that has no predicates, no
    parent steps and no namespace wildcards or prefixes: names, "*", ".", "/" and "//".

    Simplification: other paths are outside of the model ([None] below); texts and names are
    8 bit. *)
From Verif Require Export Base Strings Text Syntax.

Inductive token : Type := TSlash | TDSlash | TDot | TStar | TName (n : string).

Definition space_char (c : ascii) : bool :=
  orb (N.eqb (N_of_ascii c) 32) (andb (N.leb 9 (N_of_ascii c)) (N.leb (N_of_ascii c) 13)).
(** Characters that end a name: the class [^/\[\]\(\)@!=\s] of xpath_tokenizer_re *)
Definition ends_name (c : ascii) : bool :=
  orb (space_char c) (has_char c "/[]()@!=").
(** Characters that begin another token *)
Definition not_first (c : ascii) : bool :=
  orb (ends_name c) (has_char c ".*:'""{}").

(** Where the tokenizer is: between tokens, after one "/", after ".", within "{...}", within a name *)
Inductive tmode : Type := MStart | MSlash | MDot | MUri (acc : string) | MName (acc : string).

Definition chr (c : ascii) : string := String c "".
Definition open_b : ascii := ascii_of_N 123.
Definition close_b : ascii := ascii_of_N 125.

(** xpath_tokenizer, without prefix map; [None]: outside of the model *)
Fixpoint tokenize (m : tmode) (s : string) : option (list token) :=
  match s with
  | "" =>
      match m with
      | MStart => Some []
      | MSlash => Some [TSlash]
      | MDot => Some [TDot]
      | MUri _ => None
      | MName acc => if String.eqb acc "" then None else Some [TName acc]
      end
  | String c s' =>
      let start (_ : unit) :=
        if Ascii.eqb c "/" then tokenize MSlash s'
        else if Ascii.eqb c "." then tokenize MDot s'
        else if Ascii.eqb c "*" then option_map (cons TStar) (tokenize MStart s')
        else if Ascii.eqb c open_b then tokenize (MUri "") s'
        else if not_first c then None
        else tokenize (MName (chr c)) s' in
      match m with
      | MStart => start tt
      | MSlash =>
          if Ascii.eqb c "/" then option_map (cons TDSlash) (tokenize MStart s')
          else option_map (cons TSlash) (start tt)
      | MDot => if Ascii.eqb c "." then None else option_map (cons TDot) (start tt)
      | MUri acc =>
          if Ascii.eqb c close_b then
            match s' with
            | "" => None
            | String d _ =>
                if orb (ends_name d) (orb (Ascii.eqb d "*") (orb (String.eqb acc "") (String.eqb acc "*")))
                then None
                else tokenize (MName (chr open_b ++ acc ++ chr close_b)) s'
            end
          else tokenize (MUri (acc ++ chr c)) s'
      | MName acc =>
          if Ascii.eqb c "/" then option_map (cons (TName acc)) (tokenize MSlash s')
          else if ends_name c then None
          else if andb (Ascii.eqb c ":") (negb (startswith (chr open_b) acc)) then None
          else tokenize (MName (acc ++ chr c)) s'
      end
  end.

(** The steps of a selector; [None] for "*" *)
Inductive sstep : Type :=
| SSelf
| SChild (t : option string)
| SDesc (t : option string).

Definition ESyntaxError : exn := EOther 21.

(** The loop of ElementPath.iterfind that makes the selector.  [fuel]: the number of tokens. *)
Fixpoint compile (fuel : nat) (toks : list token) : res (list sstep) :=
  match fuel with
  | O => Raise ERecursionError       (* not reached: every step takes a token *)
  | S fuel =>
      let next (st : sstep) (rest : list token) : res (list sstep) :=
        match rest with
        | [] => Ok [st]
        | [TSlash] => Ok [st]
        | TSlash :: rest' => let* l := compile fuel rest' in Ok (st :: l)
        | _ => let* l := compile fuel rest in Ok (st :: l)
        end in
      match toks with
      | [] => Raise ETypeError       (* iterfind gives None; list(None) *)
      | TDot :: rest => next SSelf rest
      | TStar :: rest => next (SChild None) rest
      | TName n :: rest => next (SChild (Some n)) rest
      | TDSlash :: TStar :: rest => next (SDesc None) rest
      | TDSlash :: TName n :: rest => next (SDesc (Some n)) rest
      | TDSlash :: _ => Raise ESyntaxError
      | TSlash :: _ => Raise EKeyError
      end
  end.

Definition kids_of (n : node) : list node := match n with Elem _ _ _ k => k | Comment _ => [] end.
Definition text_of (n : node) : option string := match n with Elem _ _ t _ => t | Comment t => Some t end.
(** [e.tag == tag]; the tag of a comment is a function *)
Definition tag_is (t : option string) (n : node) : bool :=
  match t with
  | None => true
  | Some t => match n with Elem tag _ _ _ => String.eqb tag t | Comment _ => false end
  end.

(** [elem.iter()] without the element itself *)
Fixpoint below (n : node) : list node :=
  match n with
  | Elem _ _ _ kids => flat_map (fun k => k :: below k) kids
  | Comment _ => []
  end.

(** prepare_self, prepare_child, prepare_star, prepare_descendant *)
Definition run_step (st : sstep) (result : list node) : list node :=
  match st with
  | SSelf => result
  | SChild t => flat_map (fun n => filter (tag_is t) (kids_of n)) result
  | SDesc t => flat_map (fun n => filter (tag_is t) (below n)) result
  end.
Fixpoint run_steps (steps : list sstep) (result : list node) : list node :=
  match steps with
  | [] => result
  | st :: rest => run_steps rest (run_step st result)
  end.

Fixpoint last_char (s : string) : option ascii :=
  match s with
  | "" => None
  | String c "" => Some c
  | String _ s' => last_char s'
  end.

(** Element.findall *)
Definition findall (elem : node) (path : string) : option (res (list node)) :=
  let path1 := match last_char path with
               | Some c => if Ascii.eqb c "/" then (path ++ "*")%string else path
               | None => path
               end in
  if startswith "/" path1 then Some (Raise ESyntaxError)
  else
    match tokenize MStart path1 with
    | None => None
    | Some toks =>
        Some (let* steps := compile (S (List.length toks)) toks in Ok (run_steps steps [elem]))
    end.

(** Paths that begin with "/" are made relative, xpath_selector.py:62-67 and 90-93 *)
Definition rel_path (path : string) : string :=
  if startswith "/" path then ("." ++ path)%string else path.

(** EtreeXPathSelector.selectText without lxml, xpath_selector.py:81-95 *)
Definition select_text (contextElem : node) (path : string) : option (res (list (option string))) :=
  option_map (fun r => let* elems := r in Ok (map text_of elems)) (findall contextElem (rel_path path)).

(** What lxml's XPath gives: elements, or strings *)
Inductive xitem : Type := XElem (n : node) | XString (s : string).
(** EtreeXPathSelector.selectText with lxml, xpath_selector.py:52-79; [etxpath]: ETXPath(path)(elem) *)
Definition select_text_lxml (etxpath : string -> node -> res (list xitem)) (contextElem : node) (path : string)
  : res (list (option string)) :=
  let* elems := etxpath (rel_path path) contextElem in
  Ok (map (fun m => match m with XElem n => text_of n | XString s => Some s end) elems).
