(** The XACML functions implemented in ndg/xacml/core/functions/v1 and v2. *)
From Verif Require Export Values.

(** A function object: an instance of a class made by a function class factory.
    The class is determined by the function family (module) and, for typed
    families, by TYPE (functions/__init__.py:480-490).  [FnCustom] is a user
    function loaded with FunctionMap.load_custom_function. *)
Inductive fn : Type :=
| FnAnd | FnNot | FnRound
| FnEqual (c : avclass)
| FnMatch (c : avclass)
| FnBag (c : avclass)
| FnOneAndOnly (c : avclass)
| FnAtLeastOne (c : avclass)
| FnRegexp (c : avclass)
| FnConcat (c : avclass)
| FnCustom (name : string).

(** External collaborators of function evaluation.
    [fe_compile p] is the outcome of [re.compile(p)] ([None] = compiled);
    [fe_match p s] whether the compiled pattern matches at the start of [s];
    [fe_custom] the user functions. *)
Record fenv : Type := mkFenv {
  fe_compile : string -> option exn;
  fe_match : string -> string -> bool;
  fe_custom : string -> list pyval -> res pyval
}.

Definition py_bool (b : bool) : pyval := PNat (NBool b).

(** [type(v) == bool] *)
Definition as_bool (v : pyval) : option bool :=
  match v with PNat (NBool b) => Some b | _ => None end.

(** And.evaluate, v1/and.py:27-50: all types are checked first, then the
    arguments are scanned for a false one. *)
Fixpoint and_check (args : list pyval) : res (list bool) :=
  match args with
  | [] => Ok []
  | a :: rest =>
      match as_bool a with
      | None => Raise EXacmlContextTypeError
      | Some b => let* bs := and_check rest in Ok (b :: bs)
      end
  end.
Fixpoint and_scan (bs : list bool) : bool :=
  match bs with
  | [] => true
  | b :: rest => if negb b then false else and_scan rest
  end.
Definition and_eval (args : list pyval) : res pyval :=
  match args with
  | [] => Ok (py_bool true)
  | _ => let* bs := and_check args in Ok (py_bool (and_scan bs))
  end.

(** Not.evaluate, v1/not.py:27-50: one optional argument defaulting to None;
    more arguments are a Python TypeError. *)
Definition not_eval (args : list pyval) : res pyval :=
  match args with
  | [] => Raise EXacmlContextTypeError
  | [a] => match as_bool a with
           | None => Raise EXacmlContextTypeError
           | Some b => Ok (py_bool (negb b))
           end
  | _ => Raise ETypeError
  end.

(** EqualBase.evaluate, v1/equal.py:25-47 *)
Definition equal_eval (c : avclass) (args : list pyval) : res pyval :=
  match args with
  | [x; y] =>
      match x with
      | PAttr a =>
          if av_isinstance a c then
            match y with
            | PAttr b =>
                if av_isinstance b c
                then Ok (py_bool (native_eqb (av_value a) (av_value b)))
                else Raise EXacmlContextTypeError
            | _ => Raise EXacmlContextTypeError
            end
          else Raise EXacmlContextTypeError
      | _ => Raise EXacmlContextTypeError
      end
  | _ => Raise ETypeError
  end.

(** MatchBase.evaluate, v1/match.py:26-48: compares the AttributeValue objects
    (so a comparison across classes raises TypeError). *)
Definition match_eval (c : avclass) (args : list pyval) : res pyval :=
  match args with
  | [x; y] =>
      match x with
      | PAttr a =>
          if av_isinstance a c then
            match y with
            | PAttr b =>
                if av_isinstance b c
                then let* r := av_eq a b in Ok (py_bool r)
                else Raise EXacmlContextTypeError
            | _ => Raise EXacmlContextTypeError
            end
          else Raise EXacmlContextTypeError
      | _ => Raise EXacmlContextTypeError
      end
  | _ => Raise ETypeError
  end.

(** BagBase.evaluate, v1/bag.py:35-50: the loop checks and appends one argument
    at a time. *)
Fixpoint bag_loop (c : avclass) (bag : list attrval) (args : list pyval)
  : res (list attrval) :=
  match args with
  | [] => Ok bag
  | x :: rest =>
      match x with
      | PAttr a => if av_isinstance a c then bag_loop c (bag ++ [a]) rest
                   else Raise ETypeError
      | _ => Raise ETypeError
      end
  end.
Definition bag_eval (c : avclass) (args : list pyval) : res pyval :=
  let* items := bag_loop c [] args in
  Ok (PBag (Some c) items).

(** OneAndOnlyBase.evaluate, v1/one_and_only.py:27-49 *)
Definition one_and_only_eval (c : avclass) (args : list pyval) : res pyval :=
  match args with
  | [x] =>
      match x with
      | PBag et items =>
          if opt_eqb class_eqb et (Some c) then
            match items with
            | [a] => Ok (PAttr a)
            | _ => Raise EXacmlContextError
            end
          else Raise EXacmlContextError
      | _ => Raise EXacmlContextError
      end
  | _ => Raise ETypeError
  end.

(** [set(l)] under native equality: first occurrences.  Simplification: Python's
    set also treats one and the same NaN object as equal to itself. *)
Fixpoint py_set (l : list native) : list native :=
  match l with
  | [] => []
  | x :: rest => x :: filter (fun y => negb (native_eqb x y)) (py_set rest)
  end.
(** [s1 & s2] *)
Definition set_and (s1 s2 : list native) : list native :=
  filter (fun x => existsb (native_eqb x) s2) s1.

(** AtLeastOneMemberOfBase.evaluate, v1/at_least_one_member_of.py:28-60 *)
Definition at_least_one_eval (c : avclass) (args : list pyval) : res pyval :=
  match args with
  | [x; y] =>
      match x with
      | PBag et1 l1 =>
          if opt_eqb class_eqb et1 (Some c) then
            match y with
            | PBag et2 l2 =>
                if opt_eqb class_eqb et2 (Some c) then
                  let s1 := py_set (map av_value l1) in
                  let s2 := py_set (map av_value l2) in
                  Ok (py_bool (Nat.ltb 0 (length (set_and s1 s2))))
                else Raise EXacmlContextTypeError
            | _ => Raise EXacmlContextTypeError
            end
          else Raise EXacmlContextTypeError
      | _ => Raise EXacmlContextTypeError
      end
  | _ => Raise ETypeError
  end.

(** Python's round() of [m * 2^e] to an integer, ties to even. *)
Definition round_half_even (m e : Z) : Z :=
  if (0 <=? e)%Z then (m * 2 ^ e)%Z
  else
    let d := (2 ^ (- e))%Z in
    let q := (m / d)%Z in
    let r := (m mod d)%Z in
    if (2 * r <? d)%Z then q
    else if (d <? 2 * r)%Z then (q + 1)%Z
    else if Z.even q then q else (q + 1)%Z.

(** Round.evaluate, v1/round.py:24-35: a TypeError becomes an
    XacmlContextTypeError; round(nan) raises ValueError and round(inf)
    OverflowError (here [EOther 0]), which pass through.
    Simplification: an opaque object is taken not to support round(). *)
Definition round_eval (args : list pyval) : res pyval :=
  match args with
  | [PNat (NInt z)] => Ok (PNat (NInt z))
  | [PNat (NBool b)] => Ok (PNat (NInt (if b then 1 else 0)))
  | [PNat (NFloat (FNum m e))] => Ok (PNat (NInt (round_half_even m e)))
  | [PNat (NFloat FNan)] => Raise EValueError
  | [PNat (NFloat (FInf _))] => Raise (EOther 0)
  | [_] => Raise EXacmlContextTypeError
  | _ => Raise ETypeError
  end.

(** Compile-and-match without cache: what [RegexpMatchBase.evaluate] computes
    for one pair of values.  [re.compile] and [match] raise TypeError on non
    strings. *)
Definition regexp_values (F : fenv) (pat inp : native) : res pyval :=
  match pat with
  | NStr p =>
      match fe_compile F p with
      | Some e => Raise e
      | None =>
          match inp with
          | NStr s => Ok (py_bool (fe_match F p s))
          | _ => Raise ETypeError
          end
      end
  | _ => Raise ETypeError
  end.

(** RegexpMatchBase.evaluate, v1/regexp_match.py:46-68.  Simplification: the
    class level cache [compiled_regexes] is left out here; EvalState.v models
    it and StateFacts.v proves it transparent. *)
Definition regexp_eval (F : fenv) (c : avclass) (args : list pyval) : res pyval :=
  match args with
  | [x; y] =>
      match x with
      | PAttr a =>
          if av_isinstance a c then
            match y with
            | PAttr b =>
                if av_isinstance b c
                then regexp_values F (av_value a) (av_value b)
                else Raise ETypeError
            | _ => Raise ETypeError
            end
          else Raise ETypeError
      | _ => Raise ETypeError
      end
  | _ => Raise ETypeError
  end.

(** The type check loop of ConcatenateBase.evaluate, v2/concatenate.py:57-63;
    TYPE_REST is the standard string class (28-29). *)
Fixpoint concat_rest (args : list pyval) : res (list attrval) :=
  match args with
  | [] => Ok []
  | x :: rest =>
      match x with
      | PAttr a =>
          if av_isinstance a StringAV then
            let* l := concat_rest rest in Ok (a :: l)
          else Raise EXacmlContextTypeError
      | _ => Raise EXacmlContextTypeError
      end
  end.
(** [''.join(values)]: TypeError if an item is not a string *)
Fixpoint join_values (l : list native) : res string :=
  match l with
  | [] => Ok ""
  | NStr s :: rest => let* t := join_values rest in Ok (s ++ t)%string
  | _ :: _ => Raise ETypeError
  end.
(** ConcatenateBase.evaluate, v2/concatenate.py:31-67 *)
Definition concat_eval (c : avclass) (args : list pyval) : res pyval :=
  match args with
  | [] => Raise EXacmlContextError
  | [_] => Raise EXacmlContextError
  | x :: rest =>
      match x with
      | PAttr a =>
          if av_isinstance a c then
            let* l := concat_rest rest in
            let* s := join_values (av_value a :: map av_value l) in
            let* v := av_new c (NStr s) in
            Ok (PAttr v)
          else Raise EXacmlContextTypeError
      | _ => Raise EXacmlContextTypeError
      end
  end.

(** [function.evaluate( *inputs )] *)
Definition fn_eval (F : fenv) (f : fn) (args : list pyval) : res pyval :=
  match f with
  | FnAnd => and_eval args
  | FnNot => not_eval args
  | FnRound => round_eval args
  | FnEqual c => equal_eval c args
  | FnMatch c => match_eval c args
  | FnBag c => bag_eval c args
  | FnOneAndOnly c => one_and_only_eval c args
  | FnAtLeastOne c => at_least_one_eval c args
  | FnRegexp c => regexp_eval F c args
  | FnConcat c => concat_eval c args
  | FnCustom n => fe_custom F n args
  end.
