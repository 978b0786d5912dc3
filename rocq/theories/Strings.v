(** Python string methods used by the modelled code, over Coq strings.
    Simplification: strings are sequences of 8-bit characters; [lower], [upper]
    and [strip] act on the ASCII range, which is all the modelled code relies
    on for its constants.  *)
From Verif Require Export Base.

(** [str.startswith] *)
Definition startswith (pre s : string) : bool := String.prefix pre s.

(** [s.split(sep)] for a non-empty separator.  [skip] counts the characters of
    an already recognised separator that are still to be passed over. *)
Fixpoint split_go (sep : string) (skip : nat) (acc s : string) : list string :=
  match s with
  | EmptyString => [acc]
  | String c s' =>
      match skip with
      | S k => split_go sep k acc s'
      | O => if String.prefix sep s
             then acc :: split_go sep (String.length sep - 1) "" s'
             else split_go sep 0 (acc ++ String c "")%string s'
      end
  end.
Definition py_split (sep s : string) : list string := split_go sep 0 "" s.

(** [l[-1]] of a list; Python raises IndexError on the empty list, which
    [split] never returns. *)
Definition py_last (l : list string) : res string :=
  match rev l with
  | [] => Raise EIndexError
  | x :: _ => Ok x
  end.

(** [l[0]] *)
Definition py_first (l : list string) : res string :=
  match l with
  | [] => Raise EIndexError
  | x :: _ => Ok x
  end.

(** [sep.join(l)] *)
Fixpoint py_join (sep : string) (l : list string) : string :=
  match l with
  | [] => ""
  | [x] => x
  | x :: xs => (x ++ sep ++ py_join sep xs)%string
  end.

Definition ascii_upper (c : ascii) : ascii :=
  let n := N_of_ascii c in
  if (97 <=? n)%N && (n <=? 122)%N then ascii_of_N (n - 32) else c.

Definition ascii_lower (c : ascii) : ascii :=
  let n := N_of_ascii c in
  if (65 <=? n)%N && (n <=? 90)%N then ascii_of_N (n + 32) else c.

(** [str.lower] *)
Fixpoint py_lower (s : string) : string :=
  match s with
  | EmptyString => ""
  | String c s' => String (ascii_lower c) (py_lower s')
  end.

(** [s[0].upper() + s[1:]]; IndexError on the empty string. *)
Definition py_capitalize_first (s : string) : res string :=
  match s with
  | EmptyString => Raise EIndexError
  | String c s' => Ok (String (ascii_upper c) s')
  end.

(** [c in s] for a single character *)
Fixpoint has_char (c : ascii) (s : string) : bool :=
  match s with
  | EmptyString => false
  | String d s' => Ascii.eqb c d || has_char c s'
  end.

(** Characters removed by [str.strip()] (ASCII range: TAB..CR, FS..US, space). *)
Definition is_space (c : ascii) : bool :=
  let n := N_of_ascii c in
  ((9 <=? n)%N && (n <=? 13)%N) || ((28 <=? n)%N && (n <=? 32)%N).

Fixpoint lstrip (s : string) : string :=
  match s with
  | EmptyString => ""
  | String c s' => if is_space c then lstrip s' else s
  end.

Fixpoint rstrip (s : string) : string :=
  match s with
  | EmptyString => ""
  | String c s' =>
      match rstrip s' with
      | EmptyString => if is_space c then "" else String c ""
      | t => String c t
      end
  end.

(** [str.strip()] *)
Definition py_strip (s : string) : string := rstrip (lstrip s).

(** [s[n:]] *)
Fixpoint str_drop (n : nat) (s : string) : string :=
  match n, s with
  | O, _ => s
  | S _, EmptyString => ""
  | S k, String _ s' => str_drop k s'
  end.
