(** Notions used in the statements about threads. *)
From Verif Require Import EvalThreads SpecState.

(** The process at the start: one thread for each list of evaluations, empty cache. *)
Definition start (S : senv) (threads : list (list (policybase * context)))
  : list (TH (list (res decision))) * shared :=
  (map (evaluations_t S) threads, mkShared [] []).

(** After the schedule, thread [i] is finished with the outcomes [rs] of its
    evaluations. *)
Definition finished (S : senv) (threads : list (list (policybase * context))) (sched : list nat)
  (i : nat) (rs : list (res decision)) : Prop :=
  nth_error (fst (run_schedule S sched (start S threads))) i = Some (Done (Ok rs)).

(** The first [n] entries of an endless schedule. *)
Definition first_steps (sched : nat -> nat) (n : nat) : list nat := map sched (seq 0 n).

(** Thread [i] is scheduled again and again. *)
Definition recurring (sched : nat -> nat) (i : nat) : Prop :=
  forall n, exists m, n <= m /\ sched m = i.

(** An evaluation's outcome is a decision, or an exception outside [Exception]
    that a collaborator raised. *)
Definition decision_or_escape (S : senv) (r : res decision) : Prop :=
  (exists d, r = Ok d) \/
  (exists e, r = Raise e /\ is_exception e = false /\ collaborator_raises_s S e).

(** One of the evaluations asks the attribute source about its own request, with
    a subject designator of its own policy tree; the request has a handler. *)
Definition asked_by (calls : list (policybase * context)) (q : request * designator) : Prop :=
  exists p, In (p, CtxRequest (fst q)) calls /\ In (snd q) (designators_policy p) /\
    dg_kind (snd q) = DSubject /\ rq_ctxHandler (fst q) <> None.
