(** Notions used in the statements about objects found by name. *)
From Verif Require Import Factory.

(** The character does not occur in the string. *)
Definition free_of (c : ascii) (s : string) : Prop := forall a b, s <> (a ++ String c b)%string.

(** A name of a module or an attribute: no separators in it. *)
Definition simple_name (s : string) : Prop := free_of "." s /\ free_of ":" s.

(** a, b, c as "a.b.c" *)
Fixpoint dotted (first : string) (rest : list string) : string :=
  match rest with
  | [] => first
  | n :: rest' => (first ++ "." ++ dotted n rest')%string
  end.

Section Spec.
Variables obj mods : Type.
Variable get_attribute : interp mods -> obj -> string -> res obj.
Variable is_subclass : obj -> obj -> res bool.

(** [o'] is the attribute of an attribute ... of [o], along the names. *)
Inductive follows (w : interp mods) : obj -> list string -> obj -> Prop :=
| follows_end : forall o, follows w o [] o
| follows_step : forall o n o1 rest o2,
    get_attribute w o n = Ok o1 -> follows w o1 rest o2 -> follows w o (n :: rest) o2.

(** The object passes as being of the wanted type. *)
Definition of_type (wanted : option obj) (o : obj) : Prop :=
  match wanted with None => True | Some t => is_subclass o t = Ok true end.

(** The module search path. *)
Definition search_path (w : interp mods) : option (list string) := nth_error (in_lists w) (in_path w).

(** An operation that leaves the module search path alone. *)
Definition leaves_path {A} (f : interp mods -> A * interp mods) : Prop :=
  forall w, in_lists (snd (f w)) = in_lists w /\ in_path (snd (f w)) = in_path w.

(** ** Readers *)
Variable same : obj -> obj -> bool.
Variables core_base abstract_reader : obj.

(** The registration of a reader is accepted. *)
Definition accepted (e : obj * obj) : Prop :=
  is_subclass (fst e) core_base = Ok true /\ is_subclass (snd e) abstract_reader = Ok true.

(** [v] is the reader last registered for [k]. *)
Definition registered_last (ops : list (obj * obj)) (k v : obj) : Prop :=
  exists before k' after,
    ops = before ++ (k', v) :: after /\ same k k' = true /\ accepted (k', v) /\
    (forall e, In e after -> same k (fst e) = true -> ~ accepted e).

Definition never_registered (ops : list (obj * obj)) (k : obj) : Prop :=
  forall e, In e ops -> same k (fst e) = true -> ~ accepted e.
End Spec.
