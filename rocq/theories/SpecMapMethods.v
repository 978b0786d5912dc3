(** Notions used in the statements about the function map as a mapping. *)
From Verif Require Export MapMethods SpecFuncMap.

(** ** What the map is: a list of identifiers with their classes, in the order in which
    they came in, and behind it what a new map gives for an identifier. *)
Definition shelf : Type := list (string * fclass).

Fixpoint on_shelf (id : string) (s : shelf) : option fclass :=
  match s with
  | [] => None
  | (i, c) :: rest => if String.eqb i id then Some c else on_shelf id rest
  end.
(** A new item goes last, an item that is there keeps its place. *)
Fixpoint shelve (id : string) (c : fclass) (s : shelf) : shelf :=
  match s with
  | [] => [(id, c)]
  | (i, d) :: rest => if String.eqb i id then (i, c) :: rest else (i, d) :: shelve id c rest
  end.
Fixpoint take_off (id : string) (s : shelf) : shelf :=
  match s with
  | [] => []
  | (i, d) :: rest => if String.eqb i id then take_off id rest else (i, d) :: take_off id rest
  end.

Section Expected.
Variable cm : list (string * avclass).

(** Asking for an identifier that is not there puts what a new map gives on the shelf. *)
Definition fetch (id : string) (s : shelf) : res fclass * shelf :=
  match on_shelf id s with
  | Some c => (Ok c, s)
  | None => match resolve cm id with
            | Ok c => (Ok c, shelve id c s)
            | Raise e => (Raise e, s)
            end
  end.
Fixpoint fetch_all (ids : list string) (s : shelf) : res given * shelf :=
  match ids with
  | [] => (Ok GNone, s)
  | id :: rest => match fetch id s with
                  | (Ok _, s') => fetch_all rest s'
                  | (Raise e, s') => (Raise e, s')
                  end
  end.
Definition answer (r : res fclass) : res given :=
  match r with Ok c => Ok (GClass c) | Raise e => Raise e end.
Definition done (r : res fclass) : res given :=
  match r with Ok _ => Ok GNone | Raise e => Raise e end.
(** The items before the first that is no function class. *)
Fixpoint classes_first (kvs : list (string * option fclass)) : shelf * bool :=
  match kvs with
  | [] => ([], true)
  | (id, Some c) :: rest => ((id, c) :: fst (classes_first rest), snd (classes_first rest))
  | (_, None) :: _ => ([], false)
  end.

(** What each call is expected to answer and to leave. *)
Definition expected (c : mcall) (s : shelf) : res given * shelf :=
  match c with
  | MLook id | MSetDefault id _ => (answer (fst (fetch id s)), snd (fetch id s))
  | MGet id (_ :: Some d :: _) =>
      (Ok (GClass (match on_shelf id s with Some c => c | None => d end)), s)
  | MGet id _ => (answer (fst (fetch id s)), snd (fetch id s))
  | MLoad id => (done (fst (fetch id s)), snd (fetch id s))
  | MLoadAll => fetch_all FUNCTION_NAMES s
  | MLoadCustom id src =>
      if in_dec string_dec id FUNCTION_NAMES then (Raise EOverwritingStdFunctionError, s)
      else match src with
           | FSNoPath | FSObject FOBad | FSPath FOBad => (Raise ETypeError, s)
           | FSImportFails e | FSObject (FORaise e) | FSPath (FORaise e) => (Raise e, s)
           | FSObject FONone | FSPath FONone => (Raise EUnsupportedFunctionError, s)
           | FSObject (FOClass c) | FSPath (FOClass c) => (Ok GNone, shelve id c s)
           end
  | MPut id (Some c) => (Ok GNone, shelve id c s)
  | MPut id None => (Raise ETypeError, s)
  | MDel id => match on_shelf id s with
               | Some _ => (Ok GNone, take_off id s)
               | None => (Raise EKeyError, s)
               end
  | MPop id _ => (answer (fst (fetch id s)), take_off id s)
  | MPopItem => match s with
                | [] => (Raise EKeyError, [])
                | (id, c) :: rest => (Ok (GItem id c), rest)
                end
  | MClear => (Ok GNone, [])
  | MUpdate kvs =>
      (if snd (classes_first kvs) then Ok GNone else Raise ETypeError,
       fold_left (fun s p => shelve (fst p) (snd p) s) (fst (classes_first kvs)) s)
  | MIn id => (Ok (GTruth (match on_shelf id s with Some _ => true | None => false end)), s)
  | MLen => (Ok (GNumber (length s)), s)
  | MKeys => (Ok (GKeys (map fst s)), s)
  | MValues => (Ok (GClasses (map snd s)), s)
  | MItems => (Ok (GItems s), s)
  end.
Fixpoint expected_all (h : list mcall) (s : shelf) : list (res given) * shelf :=
  match h with
  | [] => ([], s)
  | c :: rest => let '(r, s1) := expected c s in
                 let '(rs, s2) := expected_all rest s1 in (r :: rs, s2)
  end.
End Expected.

(** ** What a user has put under an identifier, from the calls and their outcomes *)

(** What the items of an update leave under the identifier. *)
Definition of_items (id : string) (l : shelf) (before : option fclass) : option fclass :=
  fold_left (fun acc p => if String.eqb (fst p) id then Some (snd p) else acc) l before.

Definition put_effect (id : string) (before : option fclass) (e : mcall * res given)
  : option fclass :=
  match e with
  | (MPut i (Some c), Ok _) => if String.eqb i id then Some c else before
  | (MLoadCustom i src, Ok _) => if String.eqb i id then yields src else before
  | (MUpdate kvs, _) => of_items id (fst (classes_first kvs)) before
  | (MDel i, Ok _) | (MPop i _, Ok _) => if String.eqb i id then None else before
  | (MPopItem, Ok (GItem i _)) => if String.eqb i id then None else before
  | (MClear, _) => None
  | _ => before
  end.
Definition put_by (id : string) (h : list mcall) (rs : list (res given)) : option fclass :=
  fold_left (put_effect id) (combine h rs) None.

(** The calls that only ask. *)
Definition only_asks (c : mcall) : bool :=
  match c with
  | MLook _ | MGet _ _ | MLoad _ | MLoadAll | MSetDefault _ _ | MIn _ | MLen | MKeys | MValues
  | MItems => true
  | _ => false
  end.
