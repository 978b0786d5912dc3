(** Notions for the claims about reading policies into objects. *)
From Verif Require Export ReadObjects SpecObjects SpecFuncMap.

(** The finder holds, under each name, an object that stands for the policy that [st]
    holds under that name, and has fetched the same URLs. *)
Definition holds_for (h : heap) (x : option string * pval) (y : option string * policybase) : Prop :=
  fst x = fst y /\ for_policy h (snd x) (snd y).
Definition finder_for (s : lstate) (st : fstate) : Prop :=
  Forall2 (holds_for (ls_heap s)) (ls_policies s) (rg_policies (fs_reg st)) /\
  Forall2 (holds_for (ls_heap s)) (ls_sets s) (rg_sets (fs_reg st)) /\
  ls_fetched s = fs_fetched st.

(** Two function maps made by histories in which the same custom functions were
    registered *)
Definition same_functions (cm : list (string * avclass)) (m m' : fmap) : Prop :=
  exists ops ops', m = fm_run cm ops fm_new /\ m' = fm_run cm ops' fm_new /\
    forall id, last_custom id ops = last_custom id ops'.
(** The shared function map of the interpreter is the one of the environment, up to
    which of its functions were looked up so far. *)
Definition same_map (E : renv) (s : lstate) : Prop :=
  same_functions (re_cm E) (re_fmap E) (os_map (ls_os s)).

(** Every object is what it was. *)
Definition untouched (h h' : heap) : Prop :=
  forall a o, nth_error h a = Some o -> nth_error h' a = Some o.

(** The finder still holds what it held, perhaps more. *)
Definition holds_more (s s' : lstate) : Prop :=
  (exists l, ls_policies s' = (ls_policies s ++ l)%list) /\
  (exists l, ls_sets s' = (ls_sets s ++ l)%list) /\
  (exists l, ls_fetched s' = (ls_fetched s ++ l)%list).

(** [v] is one of the objects that the finder holds. *)
Definition held (s : lstate) (v : pval) : Prop :=
  exists k, In (k, v) (ls_policies s) \/ In (k, v) (ls_sets s).
(** [v] is a policy set, all of whose members the finder holds. *)
Definition lists_held (s : lstate) (h : heap) (v : pval) : Prop :=
  exists a l t items, v = PRef a /\ get_attr h a "policies" = Ok (PRef l) /\
    nth_error h l = Some (PTypedList t items) /\ forall i, In i items -> held s i.
(** This is so for all policy sets that the finder holds. *)
Definition members_held (s : lstate) : Prop :=
  forall k v, In (k, v) (ls_sets s) -> lists_held s (ls_heap s) v.

(** The states of a program that builds and changes objects, as in [careful_history],
    reads documents, successfully or not, registers functions and makes new finders. *)
Inductive grown (cm : list (string * avclass)) : lstate -> Prop :=
| grown_start : grown cm lstart
| grown_operation : forall s o, grown cm s -> careful (ls_heap s) o ->
    grown cm (with_os s (snd (ostep cm (ls_os s) o)))
| grown_read : forall s E fetch fd limit n, grown cm s -> re_cm E = cm ->
    grown cm (snd (doc_l E fetch fd limit n s))
| grown_functions : forall s ops, grown cm s ->
    grown cm (with_os s (mkOState (ls_heap s) (fm_run cm ops (os_map (ls_os s)))))
| grown_finder : forall s, grown cm s -> grown cm (mkLState (ls_os s) [] [] []).
