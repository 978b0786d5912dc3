(** Notions used in the statements about effects and decisions (C90). *)
From Verif Require Import Vocab.

(** The string a value given to an object of family [f] stands for: a string stands for
    itself, an object of the family for its value.  Anything else stands for nothing. *)
Inductive stands_for (objs : vobjects) (f : vfamily) : varg -> string -> Prop :=
| by_string : forall s, stands_for objs f (VNative (NStr s)) s
| by_object : forall i c v, nth_error objs i = Some (c, v) -> vc_family c = f ->
    stands_for objs f (VRef i) v.

(** An object of class [c] takes [x], as [s]. *)
Definition taken (objs : vobjects) (c : vclass) (x : varg) (s : string) : Prop :=
  stands_for objs (vc_family c) x s /\ In s (vc_types c).

(** The objects [objs'] are [objs] but for the value of number [i], which is [v]. *)
Definition differ_at (i : nat) (v : string) (objs objs' : vobjects) : Prop :=
  (forall c w, nth_error objs i = Some (c, w) -> nth_error objs' i = Some (c, v)) /\
  (forall j, j <> i -> nth_error objs' j = nth_error objs j).

(** Two classes of one family with the same vocabulary, as PermitEffect and Effect. *)
Definition same_words (c d : vclass) : Prop :=
  vc_family c = vc_family d /\ forall s, In s (vc_types c) <-> In s (vc_types d).

(** The item [y] of a list is not object [i] and can be told to be different from it. *)
Definition told_apart (objs : vobjects) (c : vclass) (v : string) (y : varg) : Prop :=
  (exists s, y = VNative (NStr s) /\ In s (vc_types c) /\ s <> v) \/
  (exists j d w, y = VRef j /\ nth_error objs j = Some (d, w) /\ same_words c d /\ w <> v).
