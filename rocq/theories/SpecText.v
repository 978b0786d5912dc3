(** Notions used in the statements about text utilities and registries. *)
From Verif Require Import Base Strings Syntax Registry.

(** ** C52: equality of ASCII strings up to case *)
Inductive same_letter : ascii -> ascii -> Prop :=
| sl_same : forall c, same_letter c c
| sl_case : forall k, (k < 26)%nat -> same_letter (ascii_of_nat (65 + k)) (ascii_of_nat (97 + k)).

(** [same_but_case s t]: [s] is [t] with some lower case letters in upper case. *)
Inductive same_but_case : string -> string -> Prop :=
| sbc_nil : same_but_case "" ""
| sbc_cons : forall c d s t, same_letter c d -> same_but_case s t ->
    same_but_case (String c s) (String d t).

(** ** C53 *)
(** [l] are the comma separated entries of [s]. *)
Definition entries (s : string) (l : list string) : Prop :=
  l <> [] /\ s = py_join "," l /\ forall e, In e l -> has_char "," e = false.

Fixpoint all_blank (s : string) : Prop :=
  match s with EmptyString => True | String c s' => is_space c = true /\ all_blank s' end.

(** [t] is [s] without the blanks at both ends. *)
Definition trimmed (s t : string) : Prop :=
  exists l r, s = (l ++ t ++ r)%string /\ all_blank l /\ all_blank r /\
    (forall c u, t = String c u -> is_space c = false) /\
    (forall c u, t = (u ++ String c "")%string -> is_space c = false).

(** ** C48: what a reference means *)
Inductive meaning : string -> string -> bool -> Prop :=
(* a URL of another scheme *)
| mean_ftp : forall r, meaning ("ftp://" ++ r) ("ftp://" ++ r) false
| mean_http : forall r, meaning ("http://" ++ r) ("http://" ++ r) false
| mean_https : forall r, meaning ("https://" ++ r) ("https://" ++ r) false
(* an absolute file *)
| mean_file_abs : forall r, meaning ("file:///" ++ r) ("file:///" ++ r) false
| mean_abs : forall r, meaning ("/" ++ r) ("file:///" ++ r) false
(* a file relative to the base path: the relative path *)
| mean_file_dot : forall p, meaning ("file://./" ++ p) p true
| mean_file_rel : forall p, String.prefix "/" p = false -> String.prefix "./" p = false ->
    meaning ("file://" ++ p) p true
| mean_rel : forall p, String.prefix "/" p = false ->
    (forall s, In s ["file://"; "ftp://"; "http://"; "https://"] -> String.prefix s p = false) ->
    meaning p p true.

(** The base path followed by exactly one separator, unless it is empty or
    already ends with one. *)
Definition under (base path : string) : string :=
  if String.eqb base "" then path
  else if String.eqb (String.substring (String.length base - 1) 1 base) "/"
  then (base ++ path)%string
  else (base ++ "/" ++ path)%string.

(** ** C46 *)
Definition id_of (p : policybase) : option string :=
  match p with PPolicy m _ _ _ => pm_id m | PPolicySet m _ _ _ => pm_id m end.

(** The policies (policy sets) offered for registration, in order. *)
Definition policies_offered (ops : list rgop) : list policybase :=
  flat_map (fun o => match o with RAdd (PPolicy m t a rs) => [PPolicy m t a rs] | _ => [] end) ops.
Definition sets_offered (ops : list rgop) : list policybase :=
  flat_map (fun o => match o with RAddSet (PPolicySet m t a cs) => [PPolicySet m t a cs] | _ => [] end) ops.

(** The first one with the given id. *)
Definition first_with (k : option string) (l : list policybase) : option policybase :=
  find (fun p => opt_eqb String.eqb (id_of p) k) l.
