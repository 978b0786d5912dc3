(** Notions used in the statements about function class factories. *)
From Verif Require Import FunFactory SpecFuncMap.

(** Words joined by hyphens, and the words without the hyphens, each with a capital
    first letter. *)
Inductive camel_case : string -> string -> Prop :=
| camel_word : forall w n, has_char "-" w = false -> capitalised w n -> camel_case w n
| camel_words : forall w n rest m, has_char "-" w = false -> capitalised w n ->
    camel_case rest m -> camel_case (w ++ "-" ++ rest) (n ++ m).

(** The last of the segments that colons separate. *)
Definition last_segment (id name : string) : Prop :=
  has_char ":" name = false /\ (id = name \/ exists before, id = (before ++ ":" ++ name)%string).

(** What stands before the first place where [suffix] occurs; all of it if it does not. *)
Definition before_suffix (suffix name t : string) : Prop :=
  (t = name /\ forall a b, name <> (a ++ suffix ++ b)%string) \/
  ((exists rest, name = (t ++ suffix ++ rest)%string) /\
   forall a b, name = (a ++ suffix ++ b)%string -> String.length t <= String.length a).

(** The type that an identifier names, for a factory with this suffix: its name in
    camel case and the URI of the data type. *)
Definition names_type (suffix id name uri : string) : Prop :=
  exists last t, last_segment id last /\ before_suffix suffix last t /\ camel_case t name /\
    ((exists nt, In (name, (uri, nt)) TYPE_TABLE) \/
     (t = "url-string"%string /\ uri = xs "anyURI") \/
     (t = "xpath-node"%string /\ uri = xs "string")).

(** The factory of a program that has just made it. *)
Definition just_made (k : fkind) (types : list (string * avclass)) (s : fstore) : Prop :=
  fs_types s = types /\ factory_new k = Ok (fs_factory s).

(** The class that the factory holds for an identifier. *)
Definition holds (s : fstore) (id : string) (c : made_class) : Prop :=
  dict_get id (fa_cache (fs_factory s)) = Some c.
Definition holds_none (s : fstore) (id : string) : Prop :=
  dict_get id (fa_cache (fs_factory s)) = None.

(** The operation makes a class for [id] even if there is one. *)
Definition reloads (s : fstore) (id : string) (o : facop) : Prop :=
  match o with
  | FacLoad i => i = id
  | FacInitAll => In (ItemStr id) (fa_names (fs_factory s))
  | FacCall _ | FacRegister _ _ _ => False
  end.
Definition registers (o : facop) : Prop :=
  match o with FacRegister _ _ _ => True | _ => False end.

(** The two programs differ at most in the classes held. *)
Definition same_factory (s s' : fstore) : Prop :=
  fs_types s' = fs_types s /\
  fa_suffix (fs_factory s') = fa_suffix (fs_factory s) /\
  fa_camel (fs_factory s') = fa_camel (fs_factory s) /\
  fa_base (fs_factory s') = fa_base (fs_factory s) /\
  fa_names (fs_factory s') = fa_names (fs_factory s).

(** What a call gave, the class seen as what its instances compute. *)
Definition behaviour (r : res (option made_class)) : res (option fn) :=
  match r with
  | Ok (Some c) => Ok (Some (md_fn c))
  | Ok None => Ok None
  | Raise e => Raise e
  end.
