(** PDP objects shared by several threads of one process (context/pdp.py): some threads
    evaluate requests while others assign policies or load them from sources.

    A thread's steps are: making the call; reading or assigning the slot of the PDP, each
    atomic in Python; the steps of an evaluation (EvalThreads.v); reading a source; and
    returning.  Simplifications: a policy object is not modified while threads run; a
    load has a finder of its own, so reading the source touches nothing that is shared
    and is one step. *)
From Verif Require Export EvalThreads Sources.

Inductive call : Type :=
| CEvaluate (i : nat) (c : context)                     (* pdp.evaluate(request) *)
| CGetPolicy (i : nat)                                  (* pdp.policy *)
| CSetPolicy (i : nat) (x : polarg)                     (* pdp.policy = x *)
| CSetFromSource (i : nat) (w : Sources.world) (s : source) (f : factory_arg) (fd : finder).
                                                        (* pdp.setPolicyFromSource(...) *)

(** What a call returns or raises: of a response the decision (see Response.v). *)
Inductive answer : Type :=
| ADecision (r : res decision)
| AGot (r : res (option policybase))
| AUnit (r : res unit).

(** What a thread is doing. *)
Inductive activity : Type :=
| Idle
| Started (k : call)
| Evaluating (k : call) (x : TH decision)
| Loaded (k : call) (i : nat) (p : policybase)
| Returning (k : call) (a : answer).

Record thread : Type := mkThread { th_todo : list call; th_doing : activity }.

(** What can be seen of a run: thread [t] makes a call, a call of thread [t] ends. *)
Inductive event : Type :=
| Called (t : nat) (k : call)
| Returned (t : nat) (k : call) (a : answer).

Record process : Type := mkProcess {
  pr_threads : list thread;
  pr_pdps : list (option policybase);
  pr_shared : shared;
  pr_trace : list event
}.

Section Run.
Variable S : senv.
Variable limit : nat.
Variable RE : renv.

(** PolicyBase.fromSource with a finder of its own, policybase.py:45-79 *)
Definition load (w : Sources.world) (s : source) (f : factory_arg) (fd : finder)
  : res policybase :=
  fst (base_from_source limit RE w s f (FaFinder 0) (mkProgram [(fd, fstate0)] [])).

(** One step of a thread that is neither idle nor evaluating nor returning: what it does
    next and the PDPs.  [self.policy] of PDP.evaluate (pdp.py:101) is read once; the
    property policy is pdp.py:74-90; setPolicyFromSource (pdp.py:60-72) reads the source and
    then assigns. *)
Definition enter (k : call) (pdps : list (option policybase))
  : activity * list (option policybase) :=
  match k with
  | CEvaluate i c =>
      match nth_error pdps i with
      | None => (Returning k (ADecision (Raise ENameError)), pdps)   (* no such variable *)
      | Some None => (Returning k (ADecision (Raise EAttributeError)), pdps)
      | Some (Some p) => (Evaluating k (policy_eval_t S c p), pdps)
      end
  | CGetPolicy i =>
      match nth_error pdps i with
      | None => (Returning k (AGot (Raise ENameError)), pdps)
      | Some v => (Returning k (AGot (Ok v)), pdps)
      end
  | CSetPolicy i x =>
      match nth_error pdps i with
      | None => (Returning k (AUnit (Raise ENameError)), pdps)
      | Some self =>
          let (r, v) := pdp_set self x in
          (Returning k (AUnit r), list_set i v pdps)
      end
  | CSetFromSource i w s f fd =>
      match nth_error pdps i with
      | None => (Returning k (AUnit (Raise ENameError)), pdps)
      | Some _ =>
          match load w s f fd with
          | Raise e => (Returning k (AUnit (Raise e)), pdps)
          | Ok p => (Loaded k i p, pdps)
          end
      end
  end.

(** One step of thread [t]. *)
Definition pstep (t : nat) (P : process) : process :=
  match nth_error (pr_threads P) t with
  | None => P
  | Some th =>
      let put_thread (th' : thread) := replace_nth t th' (pr_threads P) in
      match th_doing th with
      | Idle =>
          match th_todo th with
          | [] => P
          | k :: rest =>
              mkProcess (put_thread (mkThread rest (Started k))) (pr_pdps P) (pr_shared P)
                (pr_trace P ++ [Called t k])
          end
      | Started k =>
          let (a, pdps) := enter k (pr_pdps P) in
          mkProcess (put_thread (mkThread (th_todo th) a)) pdps (pr_shared P) (pr_trace P)
      | Evaluating k (Done r) =>
          mkProcess (put_thread (mkThread (th_todo th) Idle)) (pr_pdps P) (pr_shared P)
            (pr_trace P ++ [Returned t k (ADecision r)])
      | Evaluating k x =>
          let (x', w') := step_t S x (pr_shared P) in
          mkProcess (put_thread (mkThread (th_todo th) (Evaluating k x'))) (pr_pdps P) w'
            (pr_trace P)
      | Loaded k i p =>
          mkProcess (put_thread (mkThread (th_todo th) (Returning k (AUnit (Ok tt)))))
            (list_set i (Some p) (pr_pdps P)) (pr_shared P) (pr_trace P)
      | Returning k a =>
          mkProcess (put_thread (mkThread (th_todo th) Idle)) (pr_pdps P) (pr_shared P)
            (pr_trace P ++ [Returned t k a])
      end
  end.

Fixpoint prun (sched : list nat) (P : process) : process :=
  match sched with
  | [] => P
  | t :: rest => prun rest (pstep t P)
  end.

(** The process at the start: the calls each thread is going to make. *)
Definition begin (calls : list (list call)) (pdps : list (option policybase)) : process :=
  mkProcess (map (fun ks => mkThread ks Idle) calls) pdps (mkShared [] []) [].
End Run.
