(** Notions used in the statements about PDPs that threads share. *)
From Verif Require Import EvalThreads Sources PdpThreads SpecState.

(** ** The PDPs as they would be if every call took place in a single moment *)

(** [l'] is [l] with [v] at place [i]. *)
Definition updated {A} (i : nat) (v : A) (l l' : list A) : Prop :=
  exists before old after,
    l = (before ++ old :: after)%list /\ l' = (before ++ v :: after)%list /\ length before = i.

Section Moments.
Variable S : senv.
Variable limit : nat.
Variable RE : renv.

(** Reading the source with a new finder [fd] gives [r]. *)
Definition source_gives (w : Sources.world) (s : source) (f : factory_arg) (fd : finder)
  (r : res policybase) : Prop :=
  exists st, base_from_source limit RE w s f (FaFinder 0) (mkProgram [(fd, fstate0)] []) = (r, st).

(** [at_once pdps k a pdps']: with the PDPs [pdps] the call [k] has the answer [a] and
    leaves [pdps']. *)
Inductive at_once (pdps : list (option policybase))
  : call -> answer -> list (option policybase) -> Prop :=
| AO_evaluate : forall i c p, nth_error pdps i = Some (Some p) ->
    at_once pdps (CEvaluate i c) (ADecision (policy_eval (env_of S []) c p)) pdps
| AO_no_policy : forall i c, nth_error pdps i = Some None ->
    at_once pdps (CEvaluate i c) (ADecision (Raise EAttributeError)) pdps
| AO_get : forall i v, nth_error pdps i = Some v ->
    at_once pdps (CGetPolicy i) (AGot (Ok v)) pdps
| AO_set : forall i p pdps', updated i (Some p) pdps pdps' ->
    at_once pdps (CSetPolicy i (APolicy p)) (AUnit (Ok tt)) pdps'
| AO_refused : forall i x, i < length pdps ->
    at_once pdps (CSetPolicy i (ANotPolicy x)) (AUnit (Raise ETypeError)) pdps
| AO_load : forall i w s f fd p pdps', source_gives w s f fd (Ok p) ->
    updated i (Some p) pdps pdps' ->
    at_once pdps (CSetFromSource i w s f fd) (AUnit (Ok tt)) pdps'
| AO_load_fails : forall i w s f fd e, source_gives w s f fd (Raise e) -> i < length pdps ->
    at_once pdps (CSetFromSource i w s f fd) (AUnit (Raise e)) pdps
| AO_no_pdp : forall i c, length pdps <= i ->
    at_once pdps (CEvaluate i c) (ADecision (Raise ENameError)) pdps
| AO_get_no_pdp : forall i, length pdps <= i ->
    at_once pdps (CGetPolicy i) (AGot (Raise ENameError)) pdps
| AO_set_no_pdp : forall i x, length pdps <= i ->
    at_once pdps (CSetPolicy i x) (AUnit (Raise ENameError)) pdps
| AO_load_no_pdp : forall i w s f fd, length pdps <= i ->
    at_once pdps (CSetFromSource i w s f fd) (AUnit (Raise ENameError)) pdps.

(** ** Moments put into a trace *)

Inductive mark : Type :=
| Seen (e : event)
| Moment (t : nat) (k : call) (a : answer).
Definition visible (ms : list mark) : list event :=
  flat_map (fun m => match m with Seen e => [e] | Moment _ _ _ => [] end) ms.

(** Taken at their moments the calls have these answers. *)
Inductive legal : list (option policybase) -> list mark -> list (option policybase) -> Prop :=
| L_nil : forall pdps, legal pdps [] pdps
| L_seen : forall pdps e ms pdps', legal pdps ms pdps' -> legal pdps (Seen e :: ms) pdps'
| L_moment : forall pdps t k a pdps1 ms pdps', at_once pdps k a pdps1 -> legal pdps1 ms pdps' ->
    legal pdps (Moment t k a :: ms) pdps'.
End Moments.

(** A thread is outside a call, in a call before its moment, or in a call after it. *)
Inductive phase : Type := Outside | Before (k : call) | After (k : call) (a : answer).
Definition thread_of (m : mark) : nat :=
  match m with
  | Seen (Called t _) | Seen (Returned t _ _) | Moment t _ _ => t
  end.
(** Each call of thread [t] has its moment between its beginning and its end, and there
    it has the answer that it returns. *)
Inductive orderly (t : nat) : phase -> list mark -> phase -> Prop :=
| OR_nil : forall ph, orderly t ph [] ph
| OR_other : forall m ms ph ph', thread_of m <> t -> orderly t ph ms ph' ->
    orderly t ph (m :: ms) ph'
| OR_called : forall k ms ph, orderly t (Before k) ms ph ->
    orderly t Outside (Seen (Called t k) :: ms) ph
| OR_moment : forall k a ms ph, orderly t (After k a) ms ph ->
    orderly t (Before k) (Moment t k a :: ms) ph
| OR_returned : forall k a ms ph, orderly t Outside ms ph ->
    orderly t (After k a) (Seen (Returned t k a) :: ms) ph.

(** ** Steps of a run *)

Section Steps.
Variable S : senv.
Variable limit : nat.
Variable RE : renv.
Variable P : process.        (* at the start *)
Variable sched : list nat.

(** The process after [n] steps. *)
Definition after (n : nat) : process := prun S limit RE (firstn n sched) P.
(** The policy of PDP [i] after [n] steps. *)
Definition policy_at (n i : nat) : option (option policybase) := nth_error (pr_pdps (after n)) i.

(** In step [n] thread [t] makes the call [k]; the call [k] returns. *)
Definition calls_at (n t : nat) (k : call) : Prop :=
  pr_trace (after (n + 1)) = (pr_trace (after n) ++ [Called t k])%list.
Definition returns_at (n t : nat) (k : call) (a : answer) : Prop :=
  pr_trace (after (n + 1)) = (pr_trace (after n) ++ [Returned t k a])%list.

(** The call [k] that thread [t] makes in step [b] has not returned before step [n]. *)
Definition open_since (b t : nat) (k : call) (n : nat) : Prop :=
  b < n /\ calls_at b t k /\ forall m k' a, b < m < n -> ~ returns_at m t k' a.
(** The call of step [b] returns in step [e]. *)
Definition spans (t : nat) (k : call) (a : answer) (b e : nat) : Prop :=
  open_since b t k e /\ returns_at e t k a.
End Steps.

(** The call can change the policy of PDP [i]. *)
Definition changes (i : nat) (k : call) : Prop :=
  match k with
  | CSetPolicy j _ | CSetFromSource j _ _ _ _ => j = i
  | _ => False
  end.

(** The calls that thread [t] has made, the answers that its calls have had. *)
Definition made (t : nat) (tr : list event) : list call :=
  flat_map (fun e => match e with
                     | Called u k => if Nat.eqb u t then [k] else []
                     | _ => []
                     end) tr.
Definition answered (t : nat) (tr : list event) : list (call * answer) :=
  flat_map (fun e => match e with
                     | Returned u k a => if Nat.eqb u t then [(k, a)] else []
                     | _ => []
                     end) tr.
