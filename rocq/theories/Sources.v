(** Loading policies from sources: finder/defaultfinder.py, the class methods fromSource
    and PDP.fromPolicySource, and the state of finder objects that are used again, also
    after a load that failed. *)
From Verif Require Export Readers Response.

(** ** Sources *)

(** What is given as a source: a str; an element; a stream or anything else. *)
Inductive source : Type := SText (s : string) | SElement (n : node) | SOther (k : N).

(** The file system, the streams and the web while one source is loaded. *)
Record world : Type := mkWorld {
  w_exists : string -> bool;            (* os.path.exists *)
  w_file : string -> res node;          (* ElementTree.parse(path).getroot() *)
  w_other : N -> res node;              (* ElementTree.parse(stream).getroot() *)
  w_fetch : string -> res node          (* urlfetcher.fetch_stream_from_url, then parsed *)
}.

(** ETreeAbstractReader._parse, parsers/etree/reader.py:48-63 *)
Definition parse_source (w : world) (s : source) : res node :=
  match s with
  | SElement n => Ok n
  | SText p => w_file w p
  | SOther k => w_other w k
  end.

(** os.path.dirname of posixpath: up to and with the last slash, and that without
    slashes at its end unless it consists of slashes. *)
Fixpoint upto_slash (s : string) : string :=
  match s with
  | EmptyString => EmptyString
  | String c s' =>
      match upto_slash s' with
      | EmptyString => if Ascii.eqb c "/" then String c EmptyString else EmptyString
      | t => String c t
      end
  end.
Fixpoint rstrip_slash (s : string) : string :=
  match s with
  | EmptyString => EmptyString
  | String c s' =>
      match rstrip_slash s' with
      | EmptyString => if Ascii.eqb c "/" then EmptyString else String c EmptyString
      | t => String c t
      end
  end.
Definition dirname (p : string) : string :=
  let head := upto_slash p in
  match rstrip_slash head with EmptyString => head | t => t end.

(** getDefaultPolicyFinder, finder/defaultfinder.py:17-37, and UrlPolicyFinder.__init__,
    finder/urlpolicyfinder.py:35-41.  The name file is defined nowhere. *)
Definition default_finder (w : world) (s : source) : res finder :=
  match s with
  | SText p => Ok (UrlFinder (if w_exists w p then Some (dirname p) else None))
  | _ => Raise ENameError
  end.

(** ** Reading, with the state of the finder after a failure *)

Definition SM (A : Type) : Type := fstate -> res A * fstate.
Definition slift {A} (r : res A) : SM A := fun st => (r, st).
Definition sbind {A B} (x : SM A) (f : A -> SM B) : SM B :=
  fun st => match x st with
            | (Ok a, st1) => f a st1
            | (Raise e, st1) => (Raise e, st1)
            end.
Notation "'let!' x ':=' e1 'in' e2" := (sbind e1 (fun x => e2))
  (at level 200, x pattern, e1 at level 100, e2 at level 200, right associativity).

(** addPolicyReference and addPolicySetReference, finder/policyfinderbase.py:63-83: the
    maps are not changed when they raise *)
Definition register_s (add : registry -> policybase -> res registry) (p : policybase) : SM unit :=
  fun st => match add (fs_reg st) p with
            | Ok g => (Ok tt, mkFstate g (fs_fetched st))
            | Raise e => (Raise e, st)
            end.

Section Sets.
Variable E : renv.
Variable fetch : string -> res node.
Variable fd : finder.
Variable nested : node -> SM policybase.

(** policyreader.py:61-152 *)
Definition read_policy_s (n : node) : SM policybase :=
  let! p := slift (read_policy E n) in
  let! _ := register_s add_policy p in
  slift (Ok p).

(** UrlPolicyFinder._findPolicyFromReference, urlpolicyfinder.py:88-103 *)
Definition find_from_reference_s (base : option string) (ref : option string) : SM unit :=
  match ref with
  | None => slift (Raise EAttributeError)
  | Some r =>
      let! url := slift (make_url base r) in
      let! d := (fun st => (fetch url, mkFstate (fs_reg st) (fs_fetched st ++ [url]))) in
      let! _ := nested d in
      slift (Ok tt)
  end.

(** findPolicy and findPolicySet, localpolicyfinder.py:20-48, urlpolicyfinder.py:43-86;
    [map_of]: the map that is searched *)
Definition find_s (map_of : registry -> list (option string * policybase)) (ref : option string)
  : SM policybase :=
  let lookup : SM policybase := fun st =>
    (match key_get ref (map_of (fs_reg st)) with
     | Some p => Ok p
     | None => Raise EXMLParseError
     end, st) in
  match fd with
  | LocalFinder => lookup
  | UrlFinder base =>
      let! _ := (fun st => match key_get ref (map_of (fs_reg st)) with
                           | Some _ => (Ok tt, st)
                           | None => find_from_reference_s base ref st
                           end) in
      lookup
  end.

(** PolicySetReader.processElement, policysetreader.py:46-151; see Readers.read_set *)
Fixpoint read_set_s (n : node) : SM policybase :=
  match n with
  | Comment _ => slift (Raise EAttributeError)
  | Elem tag attrs text kids =>
      if negb (String.eqb (get_local_part tag) "PolicySet") then slift (Raise EXMLParseError)
      else
        let! id := slift (required n "PolicySetId") in
        let! algId := slift (required n "PolicyCombiningAlgId") in
        let! alg := slift (policy_alg_of algId) in
        let! a :=
          (fix go (ks : list node) (a : sacc) : SM sacc :=
             match ks with
             | [] => slift (Ok a)
             | k :: rest =>
                 match k with
                 | Comment _ => go rest a
                 | Elem t _ _ _ =>
                     let l := get_local_part t in
                     let! a' :=
                       (if String.eqb l "Description" then
                          slift (Ok (mkSacc (description_of k (sc_description a)) (sc_target a)
                                       (sc_policies a)))
                        else if String.eqb l "PolicySetDefaults" then
                          slift (let* _ := read_defaults k in Raise EAttributeError)
                        else if String.eqb l "Target" then
                          slift (let* t := read_target E k in
                                 Ok (mkSacc (sc_description a) (Some t) (sc_policies a)))
                        else if String.eqb l "CombinerParameters" then
                          slift (Raise ENotImplementedError)
                        else if String.eqb l "PolicyCombinerParameters" then
                          slift (Raise ENotImplementedError)
                        else if String.eqb l "PolicySetCombinerParameters" then
                          slift (Raise ENotImplementedError)
                        else if String.eqb l "VariableDefinition" then slift (Raise EImportError)
                        else if String.eqb l "Policy" then
                          let! p := read_policy_s k in slift (Ok (sacc_add a p))
                        else if String.eqb l "PolicyIdReference" then
                          let! p := find_s rg_policies (el_text k) in slift (Ok (sacc_add a p))
                        else if String.eqb l "PolicySet" then
                          let! p := read_set_s k in slift (Ok (sacc_add a p))
                        else if String.eqb l "PolicySetIdReference" then
                          let! p := find_s rg_sets (el_text k) in slift (Ok (sacc_add a p))
                        else if String.eqb l "Obligations" then slift (Raise ENotImplementedError)
                        else slift (Raise EXMLParseError)) in
                     go rest a'
                 end
             end) kids (mkSacc None None []) in
        let p := PPolicySet (mkMeta (Some id) (Some (version_of n)) (Some algId)
                               (sc_description a) None)
                   (sc_target a) (Some alg) (sc_policies a) in
        let! _ := register_s add_policy_set p in
        slift (Ok p)
  end.
End Sets.

(** PolicyBaseReader, policybasereader.py:30-55; see Readers.read_doc *)
Fixpoint read_doc_s (limit : nat) (E : renv) (fetch : string -> res node) (fd : finder)
  (n : node) : SM policybase :=
  match limit with
  | O => slift (Raise ERecursionError)
  | S limit' =>
      let! l := slift (local_name n) in
      if String.eqb l "Policy" then read_policy_s E n
      else if String.eqb l "PolicySet" then
        read_set_s E fetch fd (read_doc_s limit' E fetch fd) n
      else slift (Raise EXMLParseError)
  end.

(** ** Entry points *)

(** The readerFactory argument: parsers.etree.factory.ReaderFactory; no class or no
    subclass of AbstractReaderFactory; a subclass whose getReader returns a class that is
    no reader, or raises.  Simplification: user defined reader classes are not modelled. *)
Inductive factory_arg : Type :=
| FacETree | FacNotFactory | FacNotReader | FacRaises (e : exn).
(** policybase.py:62-71, policy.py:190-198, policyset.py:147-155 *)
Definition get_reader (f : factory_arg) : res unit :=
  match f with
  | FacETree => Ok tt
  | FacNotFactory | FacNotReader => Raise ETypeError
  | FacRaises e => Raise e
  end.

(** The finder argument: None, a finder object, something else that is true or false *)
Inductive finder_arg : Type := FaNone | FaFinder (i : nat) | FaOther (truth : bool).

Section Load.
Variable limit : nat.
Variable RE : renv.

(** Policy.fromSource, policy.py:175-200, with PolicyReader.parse, policyreader.py:46-59:
    no finder *)
Definition policy_from_source (w : world) (s : source) (f : factory_arg) : res policybase :=
  let* _ := get_reader f in
  let* n := parse_source w s in
  read_policy RE n.
(** PolicySet.fromSource, policyset.py:133-157: AbstractReader.parse (parsers/__init__.py:43-53)
    is called without its argument common *)
Definition policyset_from_source (w : world) (s : source) (f : factory_arg) : res policybase :=
  let* _ := get_reader f in
  Raise ETypeError.

(** What the program has: finder objects and PDPs. *)
Record program : Type := mkProgram {
  ap_finders : list (finder * fstate);
  ap_pdps : list (option policybase)
}.

Fixpoint list_set {A} (i : nat) (x : A) (l : list A) : list A :=
  match l, i with
  | [], _ => []
  | _ :: l', O => x :: l'
  | y :: l', S i' => y :: list_set i' x l'
  end.

(** PolicyBase.fromSource, policybase.py:45-79 *)
Definition base_from_source (w : world) (s : source) (f : factory_arg) (fa : finder_arg)
  (st : program) : res policybase * program :=
  match get_reader f with
  | Raise e => (Raise e, st)
  | Ok _ =>
      match fa with
      | FaNone | FaOther _ => (Raise ETypeError, st)
      | FaFinder i =>
          match nth_error (ap_finders st) i with
          | None => (Raise ENameError, st)      (* there is no such variable *)
          | Some (fd, fst0) =>
              match parse_source w s with
              | Raise e => (Raise e, st)
              | Ok n =>
                  let (r, fst1) := read_doc_s limit RE (w_fetch w) fd n fst0 in
                  (r, mkProgram (list_set i (fd, fst1) (ap_finders st)) (ap_pdps st))
              end
          end
      end
  end.

Inductive op : Type :=
| ONewFinder (fd : finder)                              (* LocalPolicyFinder(), UrlPolicyFinder(base) *)
| ONewPdp (x : option polarg)                           (* PDP(policy) *)
| OFromSource (w : world) (s : source) (f : factory_arg) (fa : finder_arg)
                                                        (* PDP.fromPolicySource(source, factory, finder) *)
| OSetFromSource (i : nat) (w : world) (s : source) (f : factory_arg) (fa : finder_arg)
                                                        (* pdp.setPolicyFromSource(...) *)
| OSetPolicy (i : nat) (x : polarg).                    (* pdp.policy = x *)

Definition new_pdp (p : option policybase) (st : program) : program :=
  mkProgram (ap_finders st) (ap_pdps st ++ [p]).
Definition put (i : nat) (p : option policybase) (st : program) : program :=
  mkProgram (ap_finders st) (list_set i p (ap_pdps st)).

(** PDP.setPolicyFromSource, pdp.py:60-72 *)
Definition set_from_source (i : nat) (w : world) (s : source) (f : factory_arg) (fa : finder_arg)
  (st : program) : res unit * program :=
  let (r, st1) := base_from_source w s f fa st in
  match r with
  | Raise e => (Raise e, st1)
  | Ok p => (Ok tt, put i (Some p) st1)
  end.

(** One operation: its outcome and what the program has afterwards.  A PDP whose
    construction raises is not returned.  PDP.fromPolicySource, pdp.py:40-58: the default
    finder is not kept. *)
Definition step (o : op) (st : program) : res unit * program :=
  match o with
  | ONewFinder fd => (Ok tt, mkProgram (ap_finders st ++ [(fd, fstate0)]) (ap_pdps st))
  | ONewPdp x =>
      match pdp_new x with
      | Ok p => (Ok tt, new_pdp p st)
      | Raise e => (Raise e, st)
      end
  | OFromSource w s f fa =>
      let load (fa : finder_arg) (st : program) : res unit * program :=
        let (r, st1) := base_from_source w s f fa st in
        match r with
        | Raise e => (Raise e, st1)
        | Ok p => (Ok tt, new_pdp (Some p) st1)
        end in
      match fa with
      | FaNone | FaOther false =>
          match default_finder w s with
          | Raise e => (Raise e, st)
          | Ok fd =>
              let (r, st1) := load (FaFinder (length (ap_finders st)))
                                (mkProgram (ap_finders st ++ [(fd, fstate0)]) (ap_pdps st)) in
              (r, mkProgram (ap_finders st) (ap_pdps st1))
          end
      | _ => load fa st
      end
  | OSetFromSource i w s f fa =>
      match nth_error (ap_pdps st) i with
      | None => (Raise ENameError, st)          (* there is no such variable *)
      | Some _ => set_from_source i w s f fa st
      end
  | OSetPolicy i x =>
      match nth_error (ap_pdps st) i with
      | None => (Raise ENameError, st)          (* there is no such variable *)
      | Some self =>
          match pdp_set self x with
          | (Ok _, v) => (Ok tt, put i v st)
          | (Raise e, v) => (Raise e, put i v st)
          end
      end
  end.

Definition program0 : program := mkProgram [] [].
Fixpoint run (ops : list op) (st : program) : list (res unit) * program :=
  match ops with
  | [] => ([], st)
  | o :: rest => let (r, st1) := step o st in
                 let (rs, st2) := run rest st1 in (r :: rs, st2)
  end.
End Load.
