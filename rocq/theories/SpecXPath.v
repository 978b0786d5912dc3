(** Notions used to state what XPath selection gives. *)
From Verif Require Export XPathSelect.
Open Scope string_scope.

(** Paths: steps to children ("/") or to descendants ("//"), with a name or "*" ([None]). *)
Inductive axis : Type := Child | Descendant.
Definition path : Type := list (axis * option string).

(** Names: "local" or "{uri}local" *)
Definition letter (c : ascii) : bool :=
  has_char c "abcdefghijklmnopqrstuvwxyzABCDEFGHIJKLMNOPQRSTUVWXYZ_".
Definition name_rest (c : ascii) : bool := letter c || has_char c "0123456789-.".
Fixpoint every (f : ascii -> bool) (s : string) : Prop :=
  match s with "" => True | String c s' => f c = true /\ every f s' end.
Definition local_name (s : string) : Prop :=
  match s with "" => False | String c s' => letter c = true /\ every name_rest s' end.
Definition uri (s : string) : Prop :=
  s <> "" /\ s <> "*" /\ every (fun c => negb (has_char c "{}")) s.
Inductive tag_name : string -> Prop :=
| Tag_plain : forall l, local_name l -> tag_name l
| Tag_qualified : forall u l, uri u -> local_name l -> tag_name ("{" ++ u ++ "}" ++ l).

Definition path_ok (p : path) : Prop := forall a t, In (a, Some t) p -> tag_name t.

(** How paths are written *)
Definition test_text (t : option string) : string := match t with Some n => n | None => "*" end.
Fixpoint render (p : path) : string :=
  match p with
  | [] => ""
  | (Child, t) :: r => "/" ++ test_text t ++ render r
  | (Descendant, t) :: r => "//" ++ test_text t ++ render r
  end.
Inductive written : path -> string -> Prop :=
| W_absolute : forall p, p <> [] -> written p (render p)
| W_dot : forall p, written p ("." ++ render p)
| W_relative : forall t p, written ((Child, t) :: p) (test_text t ++ render p).

(** Places in a tree: the numbers of the children on the way down *)
Fixpoint place (n : node) (pos : list nat) : option node :=
  match pos with
  | [] => Some n
  | i :: rest =>
      match n with
      | Elem _ _ _ kids => match nth_error kids i with Some k => place k rest | None => None end
      | Comment _ => None
      end
  end.
(** The tags on the way down to a place, without that of the top; comments have none *)
Fixpoint tags_to (n : node) (pos : list nat) : list (option string) :=
  match pos with
  | [] => []
  | i :: rest =>
      match n with
      | Elem _ _ _ kids =>
          match nth_error kids i with
          | Some k => (match k with Elem t _ _ _ => Some t | Comment _ => None end) :: tags_to k rest
          | None => []
          end
      | Comment _ => []
      end
  end.
Definition text_at (n : node) : option string := match n with Elem _ _ t _ => t | Comment t => Some t end.

(** A step's test accepts a tag. *)
Definition accepts (t tag : option string) : Prop := match t with None => True | Some n => tag = Some n end.
(** A path leads down along tags. *)
Inductive leads : path -> list (option string) -> Prop :=
| L_here : leads [] []
| L_child : forall t p tag tags, accepts t tag -> leads p tags -> leads ((Child, t) :: p) (tag :: tags)
| L_desc : forall t p between tag tags, accepts t tag -> leads p tags ->
    leads ((Descendant, t) :: p) (between ++ tag :: tags).

(** Number of "//" in a path *)
Fixpoint descents (p : path) : nat :=
  match p with [] => 0 | (Child, _) :: r => descents r | (Descendant, _) :: r => S (descents r) end.
