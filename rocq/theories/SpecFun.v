(** Notions used in the statements about the XACML functions. *)
From Verif Require Import Functions.

(** The not-a-number double. *)
Definition is_nan (v : native) : bool :=
  match v with NFloat FNan => true | _ => false end.

(** Concatenation of a list of strings. *)
Fixpoint concat_strings (l : list string) : string :=
  match l with [] => "" | s :: r => (s ++ concat_strings r)%string end.
