(** Notions used to state which element tree library is used. *)
From Verif Require Export TreeChoice.

Definition fresh : tworld := mkTworld None [].
(** The user leaves Config alone. *)
Definition only_loads (h : list top) : Prop := forall b, ~ In (TAssign b) h.
(** xml.etree belongs to the standard library. *)
Definition standard (h : list top) : Prop := forall m l, In (TLoad m l) h -> l XmlEtree = Ok tt.
(** A module is loaded, with a library. *)
Definition uses (w : tworld) (m : string) (t : tree) : Prop :=
  exists c, In (m, (t, c)) (tw_loaded w).
