(** What every built in function gives for every list of arguments: its value, or the
    exception it raises. *)
From Verif Require Export Functions.
Local Open Scope list_scope.

(** The value is of the class or of a class derived from it. *)
Definition is_a (a : attrval) (c : avclass) : Prop :=
  ac_name (av_class a) = ac_name c \/ In (ac_name c) (ac_bases (av_class a)).
Definition a_value (c : avclass) (x : pyval) : Prop := exists a, x = PAttr a /\ is_a a c.
Definition a_bag (c : avclass) (x : pyval) (l : list attrval) : Prop :=
  exists c', x = PBag (Some c') l /\ ac_name c' = ac_name c.
Definition a_boolean (x : pyval) : Prop := exists b, x = PNat (NBool b).
Definition a_number (x : pyval) : Prop :=
  (exists z, x = PNat (NInt z)) \/ (exists b, x = PNat (NBool b)) \/ (exists f, x = PNat (NFloat f)).

Definition truth (b : bool) : pyval := PNat (NBool b).

(** [z] is the whole number nearest to [m * 2 ^ e], the even one if two are as near. *)
Definition nearest (m e z : Z) : Prop :=
  if (0 <=? e)%Z then z = (m * 2 ^ e)%Z
  else (2 * Z.abs (m - z * 2 ^ (- e)) < 2 ^ (- e))%Z \/
       ((2 * Z.abs (m - z * 2 ^ (- e)) = 2 ^ (- e))%Z /\ Z.Even z).

(** The text of a value that has one. *)
Definition text_of (a : attrval) (s : string) : Prop := av_value a = NStr s.

Inductive gives (F : fenv) : fn -> list pyval -> res pyval -> Prop :=
(* and *)
| and_value : forall bs, gives F FnAnd (map truth bs) (Ok (truth (forallb (fun b => b) bs)))
| and_type : forall args x, In x args -> ~ a_boolean x -> gives F FnAnd args (Raise EXacmlContextTypeError)
(* not *)
| not_value : forall b, gives F FnNot [truth b] (Ok (truth (negb b)))
| not_nothing : gives F FnNot [] (Raise EXacmlContextTypeError)
| not_type : forall x, ~ a_boolean x -> gives F FnNot [x] (Raise EXacmlContextTypeError)
| not_many : forall x y rest, gives F FnNot (x :: y :: rest) (Raise ETypeError)
(* round *)
| round_int : forall z, gives F FnRound [PNat (NInt z)] (Ok (PNat (NInt z)))
| round_bool : forall b, gives F FnRound [truth b] (Ok (PNat (NInt (if b then 1 else 0))))
| round_float : forall m e z, nearest m e z ->
    gives F FnRound [PNat (NFloat (FNum m e))] (Ok (PNat (NInt z)))
| round_nan : gives F FnRound [PNat (NFloat FNan)] (Raise EValueError)
| round_inf : forall sign, gives F FnRound [PNat (NFloat (FInf sign))] (Raise (EOther 0))
| round_type : forall x, ~ a_number x -> gives F FnRound [x] (Raise EXacmlContextTypeError)
| round_many : forall args, length args <> 1 -> gives F FnRound args (Raise ETypeError)
(* equal *)
| equal_value : forall c a b, is_a a c -> is_a b c ->
    gives F (FnEqual c) [PAttr a; PAttr b] (Ok (truth (native_eqb (av_value a) (av_value b))))
| equal_type : forall c x y, ~ (a_value c x /\ a_value c y) ->
    gives F (FnEqual c) [x; y] (Raise EXacmlContextTypeError)
| equal_many : forall c args, length args <> 2 -> gives F (FnEqual c) args (Raise ETypeError)
(* match: the objects are compared, which refuses to compare two classes *)
| match_value : forall c a b, is_a a c -> is_a b c -> is_a b (av_class a) -> is_a a (av_class b) ->
    gives F (FnMatch c) [PAttr a; PAttr b] (Ok (truth (native_eqb (av_value a) (av_value b))))
| match_classes : forall c a b, is_a a c -> is_a b c -> ~ (is_a b (av_class a) /\ is_a a (av_class b)) ->
    gives F (FnMatch c) [PAttr a; PAttr b] (Raise ETypeError)
| match_type : forall c x y, ~ (a_value c x /\ a_value c y) ->
    gives F (FnMatch c) [x; y] (Raise EXacmlContextTypeError)
| match_many : forall c args, length args <> 2 -> gives F (FnMatch c) args (Raise ETypeError)
(* bag *)
| bag_value : forall c l, (forall a, In a l -> is_a a c) -> gives F (FnBag c) (map PAttr l) (Ok (PBag (Some c) l))
| bag_type : forall c args x, In x args -> ~ a_value c x -> gives F (FnBag c) args (Raise ETypeError)
(* one-and-only *)
| one_value : forall c x a, a_bag c x [a] -> gives F (FnOneAndOnly c) [x] (Ok (PAttr a))
| one_not : forall c x, (forall a, ~ a_bag c x [a]) -> gives F (FnOneAndOnly c) [x] (Raise EXacmlContextError)
| one_many : forall c args, length args <> 1 -> gives F (FnOneAndOnly c) args (Raise ETypeError)
(* at-least-one-member-of *)
| member_true : forall c x y l1 l2 a b, a_bag c x l1 -> a_bag c y l2 -> In a l1 -> In b l2 ->
    native_eqb (av_value a) (av_value b) = true -> gives F (FnAtLeastOne c) [x; y] (Ok (truth true))
| member_false : forall c x y l1 l2, a_bag c x l1 -> a_bag c y l2 ->
    (forall a b, In a l1 -> In b l2 -> native_eqb (av_value a) (av_value b) = false) ->
    gives F (FnAtLeastOne c) [x; y] (Ok (truth false))
| member_type : forall c x y, ~ ((exists l, a_bag c x l) /\ (exists l, a_bag c y l)) ->
    gives F (FnAtLeastOne c) [x; y] (Raise EXacmlContextTypeError)
| member_many : forall c args, length args <> 2 -> gives F (FnAtLeastOne c) args (Raise ETypeError)
(* regexp-match: the pattern first *)
| regexp_value : forall c a b p s, is_a a c -> is_a b c -> text_of a p -> text_of b s ->
    fe_compile F p = None -> gives F (FnRegexp c) [PAttr a; PAttr b] (Ok (truth (fe_match F p s)))
| regexp_compile : forall c a b p e, is_a a c -> is_a b c -> text_of a p -> fe_compile F p = Some e ->
    gives F (FnRegexp c) [PAttr a; PAttr b] (Raise e)
| regexp_input : forall c a b p, is_a a c -> is_a b c -> text_of a p -> fe_compile F p = None ->
    (forall s, ~ text_of b s) -> gives F (FnRegexp c) [PAttr a; PAttr b] (Raise ETypeError)
| regexp_pattern : forall c a b, is_a a c -> is_a b c -> (forall p, ~ text_of a p) ->
    gives F (FnRegexp c) [PAttr a; PAttr b] (Raise ETypeError)
| regexp_type : forall c x y, ~ (a_value c x /\ a_value c y) -> gives F (FnRegexp c) [x; y] (Raise ETypeError)
| regexp_many : forall c args, length args <> 2 -> gives F (FnRegexp c) args (Raise ETypeError)
(* concatenate *)
| concat_value : forall c a s l ss, is_a a c -> text_of a s -> l <> [] ->
    Forall2 (fun v t => is_a v StringAV /\ text_of v t) l ss -> ac_type c = NTStr ->
    gives F (FnConcat c) (PAttr a :: map PAttr l)
      (Ok (PAttr (mkAV c (ac_id c) (NStr (s ++ String.concat "" ss)))))
| concat_class : forall c a l, is_a a c -> l <> [] -> (forall v, In v l -> is_a v StringAV) ->
    (ac_type c <> NTStr \/ exists v, In v (a :: l) /\ forall s, ~ text_of v s) ->
    gives F (FnConcat c) (PAttr a :: map PAttr l) (Raise ETypeError)
| concat_type : forall c x y rest, (~ a_value c x \/ exists z, In z (y :: rest) /\ ~ a_value StringAV z) ->
    gives F (FnConcat c) (x :: y :: rest) (Raise EXacmlContextTypeError)
| concat_few : forall c args, length args < 2 -> gives F (FnConcat c) args (Raise EXacmlContextError)
(* user functions: whatever they do *)
| custom_value : forall name args, gives F (FnCustom name) args (fe_custom F name args).

(** The exceptions a built in function can raise. *)
Definition may_raise (F : fenv) (f : fn) (e : exn) : Prop :=
  match f with
  | FnAnd => e = EXacmlContextTypeError
  | FnNot | FnEqual _ | FnMatch _ | FnAtLeastOne _ => e = EXacmlContextTypeError \/ e = ETypeError
  | FnRound => e = EXacmlContextTypeError \/ e = ETypeError \/ e = EValueError \/ e = EOther 0
  | FnBag _ => e = ETypeError
  | FnOneAndOnly _ => e = EXacmlContextError \/ e = ETypeError
  | FnRegexp _ => e = ETypeError \/ exists p, fe_compile F p = Some e
  | FnConcat _ => e = EXacmlContextTypeError \/ e = EXacmlContextError \/ e = ETypeError
  | FnCustom name => exists args, fe_custom F name args = Raise e
  end.
