(** Notions used to state what happens to the namespace prefixes of the process. *)
From Verif Require Export NsMap.

(** The prefix of a URI in a map *)
Fixpoint prefix_for (m : list (string * string)) (u : string) : option string :=
  match m with
  | [] => None
  | (u', p) :: m' => if String.eqb u' u then Some p else prefix_for m' u
  end.

(** There is a map, and no readers exist. *)
Definition quiet (w : nsworld) : Prop := ns_current w < length (ns_dicts w) /\ ns_backups w = [].

(** The life of a reader: it is created, things happen, it is deleted. *)
Definition life (r : nat) (body : list nsop) : list nsop :=
  (snd (reader_new true r) ++ body ++ reader_del r)%list.

(** Not the creation or the deletion of a reader *)
Definition plain (o : nsop) : Prop :=
  match o with NSet _ _ | NPrint _ _ _ | NUser _ => True | _ => False end.

(** Histories in which readers are deleted in the reverse order of their creation: what one
    thread does by parsing documents, with anything else in between.  Different readers have
    different names. *)
Inductive nested : list nsop -> Prop :=
| Nest_nil : nested []
| Nest_plain : forall o rest, plain o -> nested rest -> nested (o :: rest)
| Nest_life : forall r body rest, nested body -> ~ In (NBackup r) body -> nested rest ->
    nested (life r body ++ rest).

(** Histories of creations and deletions of readers only, in any order *)
Definition readers_only (h : list nsop) : Prop :=
  forall o, In o h -> match o with NBackup _ | NMark | NRestore _ => True | _ => False end.

(** The prefixes registered by writing, outside the life of any reader: a history of parsed
    documents, successful printing and written elements, from a world on. *)
Inductive sequential : nsworld -> list nsop -> list (string * string) -> Prop :=
| Seq_nil : forall w, sequential w [] []
| Seq_parse : forall w r body rest given, nested body -> ~ In (NBackup r) body ->
    sequential (ns_run false (life r body) w) rest given ->
    sequential w (life r body ++ rest) given
| Seq_print : forall w indent space e text rest given,
    fst (pretty_print false (ns_map w) indent space e) = Ok text ->
    sequential (ns_step false (NPrint indent space e) w) rest given ->
    sequential w (NPrint indent space e :: rest) given
| Seq_set : forall w u p rest given,
    sequential (ns_step false (NSet u p) w) rest given ->
    sequential w (NSet u p :: rest) ((u, p) :: given).

(** The last prefix given to a URI *)
Fixpoint last_given (given : list (string * string)) (u : string) (before : option string) : option string :=
  match given with
  | [] => before
  | (u', p) :: rest => last_given rest u (if String.eqb u' u then Some p else before)
  end.

(** The other users of the dict change nothing. *)
Definition no_others (h : list nsop) : Prop := forall f, ~ In (NUser f) h.

(** The prefixes that printing makes up *)
Definition made_up (p : string) : Prop := exists k, k < 256 /\ p = ns_name k.
