(** TypedList and UniqList under all methods that change a list: the three they
    define themselves (Utils.v) and those they inherit from list, which are the
    interpreter's and know nothing of element types or of unique items. *)
From Coq Require Import Lia.
From Verif Require Export Utils.
Local Open Scope list_scope.

(** The calls.  Simplification: slices have step 1; what [sort] does, and the
    exception it may end with, depends on the comparisons and key function of
    the caller and is given as a function of the list. *)
Inductive lcall (A : Type) : Type :=
| COwn (o : lop A)                               (* append, extend, += *)
| CInit (init : list A)                          (* l.__init__(...) called again *)
| CInsert (i : Z) (x : A)                        (* l.insert(i, x) *)
| CSet (i : Z) (x : A)                           (* l[i] = x *)
| CSetSlice (i j : option Z) (xs : list A)       (* l[i:j] = xs *)
| CDel (i : Z)                                   (* del l[i] *)
| CDelSlice (i j : option Z)                     (* del l[i:j] *)
| CPop (i : option Z)                            (* l.pop(), l.pop(i) *)
| CRemove (x : A)                                (* l.remove(x) *)
| CClear                                         (* l.clear() *)
| CReverse                                       (* l.reverse() *)
| CImul (n : Z)                                  (* l *= n *)
| CSort (f : list A -> res unit * list A).       (* l.sort(...) *)
Arguments COwn {A} o.
Arguments CInit {A} init.
Arguments CInsert {A} i x.
Arguments CSet {A} i x.
Arguments CSetSlice {A} i j xs.
Arguments CDel {A} i.
Arguments CDelSlice {A} i j.
Arguments CPop {A} i.
Arguments CRemove {A} x.
Arguments CClear {A}.
Arguments CReverse {A}.
Arguments CImul {A} n.
Arguments CSort {A} f.

Section Methods.
Context {A : Type}.
(** [own] is the class' append, extend and +=; [same] identity, [eq] [==]. *)
Variable own : list A -> lop A -> res unit * list A.
Variable same : A -> A -> bool.
Variable eq : A -> A -> res bool.

(** The position an index stands for, if there is one. *)
Definition index_of (i : Z) (l : list A) : option nat :=
  let n := Z.of_nat (length l) in
  let k := if (i <? 0)%Z then (i + n)%Z else i in
  if ((k <? 0) || (n <=? k))%Z then None else Some (Z.to_nat k).
(** A bound of a slice, or the index of insert, moved into the list. *)
Definition bound_of (i : Z) (l : list A) : nat :=
  let n := Z.of_nat (length l) in
  let k := if (i <? 0)%Z then (i + n)%Z else i in
  Z.to_nat (Z.max 0 (Z.min k n)).
Definition slice_of (i j : option Z) (l : list A) : nat * nat :=
  let a := match i with Some i => bound_of i l | None => 0 end in
  let b := match j with Some j => bound_of j l | None => length l end in
  (a, Nat.max a b).

Definition put_between (a b : nat) (xs : list A) (l : list A) : list A :=
  firstn a l ++ xs ++ skipn b l.

(** list.remove: the first item identical or equal to the argument. *)
Fixpoint remove_item (x : A) (l : list A) : res (list A) :=
  match l with
  | [] => Raise EValueError
  | y :: r =>
      if same y x then Ok r
      else let* b := eq y x in
           if b then Ok r else let* r' := remove_item x r in Ok (y :: r')
  end.

(** A call on a TypedList or UniqList, utils/__init__.py:17-118 *)
Definition call (l : list A) (c : lcall A) : res unit * list A :=
  match c with
  | COwn o => own l o
  | CInit init => (Ok tt, init)
  | CInsert i x => (Ok tt, put_between (bound_of i l) (bound_of i l) [x] l)
  | CSet i x =>
      match index_of i l with
      | Some k => (Ok tt, put_between k (S k) [x] l)
      | None => (Raise EIndexError, l)
      end
  | CSetSlice i j xs =>
      let '(a, b) := slice_of i j l in (Ok tt, put_between a b xs l)
  | CDel i =>
      match index_of i l with
      | Some k => (Ok tt, put_between k (S k) [] l)
      | None => (Raise EIndexError, l)
      end
  | CDelSlice i j =>
      let '(a, b) := slice_of i j l in (Ok tt, put_between a b [] l)
  | CPop i =>
      match index_of (match i with Some i => i | None => (-1)%Z end) l with
      | Some k => (Ok tt, put_between k (S k) [] l)
      | None => (Raise EIndexError, l)
      end
  | CRemove x =>
      match remove_item x l with
      | Ok l' => (Ok tt, l')
      | Raise e => (Raise e, l)
      end
  | CClear => (Ok tt, [])
  | CReverse => (Ok tt, rev l)
  | CImul n => (Ok tt, concat (repeat l (Z.to_nat n)))
  | CSort f => f l
  end.

Definition calls (cs : list (lcall A)) (l : list A) : list A :=
  fold_left (fun l c => snd (call l c)) cs l.
End Methods.

(** The two classes. *)
Definition typed_calls {A} (inst : A -> bool) same eq :=
  @calls A (tl_step inst) same eq.
Definition uniq_calls {A} same eq := @calls A (ul_step same eq) same eq.
