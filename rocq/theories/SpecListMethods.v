(** Notions used in the statements about lists under all their methods. *)
From Coq Require Import Permutation.
From Verif Require Export ListMethods SpecUtils.

(** What a call puts into the list without the class looking at it. *)
Definition slipped_in {A} (c : lcall A) : list A :=
  match c with
  | CInit xs | CSetSlice _ _ xs => xs
  | CInsert _ x | CSet _ x => [x]
  | _ => []
  end.
(** Sorting rearranges the items. *)
Definition sorts {A} (c : lcall A) : Prop :=
  match c with CSort f => forall l, Permutation (snd (f l)) l | _ => True end.
(** Calls which add items to the list by other ways than append, extend, +=. *)
Definition adds {A} (c : lcall A) : bool :=
  match c with
  | CInit _ | CInsert _ _ | CSet _ _ | CSetSlice _ _ _ | CImul _ => true
  | _ => false
  end.
