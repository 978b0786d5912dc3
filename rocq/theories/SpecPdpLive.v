(** Notions for the claims about PDPs in use while objects are changed. *)
From Verif Require Export PdpLive SpecReadObjects SpecEvalObjects SpecEvalLive.
From Coq Require Export List.
Local Open Scope string_scope.

Section Moments.
Variable O : oenv.
Variable n : nat.
Variable cm : list (string * avclass).
Let after := after O n cm.

(** The objects after [evs] *)
Definition objects (evs : list happening) : heap := ls_heap (sv_state (after evs)).

(** The calls of PDP.evaluate made in [evs] *)
Fixpoint calls_in (evs : list happening) : list (pval * pval) :=
  match evs with
  | [] => []
  | HCall pdp c :: rest => (pdp, c) :: calls_in rest
  | _ :: rest => calls_in rest
  end.
(** Call number [k] was made, on [pdp] with the request [c]. *)
Definition made (evs : list happening) (k : nat) (pdp c : pval) : Prop :=
  nth_error (calls_in evs) k = Some (pdp, c).

(** It has returned or raised [r]. *)
Definition answered (evs : list happening) (k : nat) (r : res response) : Prop :=
  nth_error (sv_calls (after evs)) k = Some (LDone r).
(** It is going on. *)
Definition pending (evs : list happening) (k : nat) (pdp c : pval) : Prop :=
  made evs k pdp c /\ forall r, ~ answered evs k r.

(** The policy of [pdp] is the object at [p]. *)
Definition in_force (evs : list happening) (pdp : pval) (p : nat) : Prop :=
  exists a, pdp = PRef a /\ get_attr (objects evs) a "policy" = Ok (PRef p).

(** The object at [b] is in use: it is part of the request of a call that is going on, or
    of a policy that has been in force for its PDP at some time since it was made. *)
Definition in_use (evs : list happening) (b : nat) : Prop :=
  exists k pdp c, pending evs k pdp c /\
   ((exists r, c = PRef r /\ reaches (objects evs) r b) \/
    (exists before since p, evs = (before ++ since)%list /\ made before k pdp c /\
       in_force before pdp p /\ reaches (objects evs) p b)).

(** What may happen after [evs]: no operation is called on an object in use, and only items
    of their types are inserted into lists unchecked; evaluate is called with objects that
    exist; documents are read with the function map of the process, and the finder holds
    policies. *)
Definition allowed (evs : list happening) (ev : happening) : Prop :=
  match ev with
  | HDo o => careful (objects evs) o /\ forall b, touches o = Some b -> ~ in_use evs b
  | HCall pdp c => forall r, c = PRef r -> nth_error (objects evs) r <> None
  | HRead E fetch fd limit d =>
      re_cm E = cm /\ same_map E (sv_state (after evs)) /\ exists st, finder_for (sv_state (after evs)) st
  | _ => True
  end.
Definition orderly (evs : list happening) : Prop :=
  forall before ev later, evs = (before ++ ev :: later)%list -> allowed before ev.

(** While call [k] is going on, the collaborators answer alike about its request. *)
Definition steady (evs : list happening) (k : nat) (c : pval) : Prop :=
  forall e1 e2 e3 pdp, evs = (e1 ++ e2 ++ e3)%list ->
    pending e1 k pdp c -> pending (e1 ++ e2) k pdp c ->
    same_collaborators O (objects e1) (objects (e1 ++ e2)) c.

(** A response with one result, whose decision reads [d] *)
Definition decides (r : res response) (d : decision) : Prop :=
  exists x o, r = Ok [x] /\ rs_decision x = Some o /\ value_of store0 o = d.

(** The first [m] happenings of an endless history *)
Definition first (m : nat) (f : nat -> happening) : list happening := map f (seq 0 m).
End Moments.
