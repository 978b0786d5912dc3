(** Property C62: evaluation by several threads of one process. *)
From Coq Require Import Lia.
From Verif Require Import Eval EvalState EvalThreads SpecEval SpecState SpecThreads Sample
  StateFacts ThreadFacts.

(** ** C62 *)

(** Whatever the threads, their evaluations and the schedule: if the attribute
    source's answers do not depend on earlier queries, a thread that has finished has
    exactly the outcomes of evaluating its policies one by one on its own. *)
Theorem C62_any_schedule : forall S threads sched i calls rs,
  history_independent S ->
  nth_error threads i = Some calls -> finished S threads sched i rs ->
  rs = map (fun pc => policy_eval (env_of S []) (snd pc) (fst pc)) calls.
Proof. exact finished_independent. Qed.

(** For every attribute source, also one whose answers change: each outcome in each
    finished thread is a decision or a collaborator's exception that is not an
    [Exception]. *)
Theorem C62_decisions : forall S threads sched i calls rs,
  nth_error threads i = Some calls -> finished S threads sched i rs ->
  length rs = length calls /\
  forall r, In r rs ->
    (exists d, r = Ok d) \/
    (exists e, r = Raise e /\ is_exception e = false /\ collaborator_raises_s S e).
Proof.
  intros S threads sched i calls rs Hc Hf.
  destruct (schedule_outcomes S threads sched) as (_ & K & _). specialize (K i _ Hf).
  inversion K as [r Hr| | |]; subst. destruct (Hr calls Hc) as (rs' & [= <-] & Hl & HF).
  split; [exact Hl|]. apply Forall_forall, HF.
Qed.

(** The source is asked only on behalf of an evaluation of one of the threads: about
    that evaluation's request, with a subject designator of its policy tree, and only
    if the request has a handler. *)
Theorem C62_queries : forall S threads sched r d,
  In (r, d) (sh_log (snd (run_schedule S sched (start S threads)))) ->
  exists i calls p, nth_error threads i = Some calls /\ In (p, CtxRequest r) calls /\
    In d (designators_policy p) /\ dg_kind d = DSubject /\ rq_ctxHandler r <> None.
Proof.
  intros S threads sched r d H.
  destruct (schedule_outcomes S threads sched) as (_ & _ & K). rewrite Forall_forall in K.
  destruct (K _ H) as (i & _ & calls & Hc & p & H1 & H2 & H3 & H4).
  exists i, calls, p. auto.
Qed.

(** Between any two steps the shared cache holds compiled forms under their own
    patterns only. *)
Theorem C62_cache : forall S threads sched pattern compiled,
  dict_get pattern (sh_cache (snd (run_schedule S sched (start S threads)))) = Some compiled ->
  compiled = pattern /\ fe_compile (sn_fenv S) pattern = None.
Proof.
  intros S threads sched pattern compiled H.
  destruct (schedule_outcomes S threads sched) as (K & _ & _). exact (K _ _ H).
Qed.

(** No thread waits for another: a thread that is scheduled again and again finishes,
    whatever the other threads do (also if they are never scheduled), and stays so. *)
Theorem C62_terminates : forall S threads sched i,
  i < length threads -> recurring sched i ->
  exists n rs, forall m, finished S threads (first_steps sched (n + m)) i rs.
Proof.
  intros S threads sched i Hi Hr.
  destruct (eventually_finished S threads sched i Hi Hr) as (n & rs & H). exists n, rs.
  intros m. unfold finished, first_steps in *. rewrite seq_app, map_app, run_app.
  apply done_stays, H.
Qed.

(** A single thread is the sequential evaluator with state. *)
Theorem C62_alone : forall S calls, exists n,
  finished S [calls] (repeat 0 n) 0 (fst (run_evaluations S calls (mkWorld [] [] []))).
Proof.
  intros S calls. destruct (alone_schedule S _ (evaluations_t S calls) (mkShared [] [])) as [n H].
  exists n. unfold finished, start. cbn [map]. rewrite H.
  change (mkShared [] []) with (sh (mkWorld [] [] [])). rewrite alone_evaluations. reflexivity.
Qed.

(** Two threads with the same pattern, and a third with a bad one: both see the cache
    without the pattern and both store it; then everything goes on in turn. *)
Definition th_calls : list (list (policybase * context)) :=
  [[(spol (Some (stgt [] [[m_local]] [])) FirstApplicable [srule EffPermit None None], sctx)];
   [(spol (Some (stgt [] [[m_local]] [])) FirstApplicable [srule EffDeny None None], sctx);
    (spol (Some t_staff) DenyOverrides [r_permit], sctx)];
   [(spol (Some (stgt [[m_admin]] [[m_badre]] [])) DenyOverrides [r_permit], CtxRequest sreq_pip)]].
Definition th_S : senv := mkSenv sF STD_CLASS_MAP (fun _ => spip) (fun _ _ => Ok []).
Definition th_sched : list nat := [0; 1; 2; 1; 0] ++ concat (repeat [2; 1; 0] 10).

Example C62_race :
  history_independent th_S /\
  match run_schedule th_S [0; 1] (start th_S th_calls) with
  | ([CacheSet p _ _; CacheSet q _ _; PipQuery _ _ _], w) => p = q /\ sh_cache w = []
  | _ => False
  end /\
  finished th_S th_calls th_sched 0 [Ok Permit] /\
  finished th_S th_calls th_sched 1 [Ok Deny; Ok Permit] /\
  finished th_S th_calls th_sched 2 [Ok Indeterminate] /\
  length (sh_log (snd (run_schedule th_S th_sched (start th_S th_calls)))) = 2.
Proof.
  split; [intros h r d; reflexivity|]. unfold finished.
  repeat split; vm_compute; reflexivity.
Qed.

(** A source that counts its queries: the schedule decides which thread gets which
    answers, so the hypothesis of the first theorem is needed. *)
Definition th_flip : senv :=
  mkSenv sF STD_CLASS_MAP
    (fun h r d => Ok (Some (if Nat.ltb (length h) 2 then [PAttr (sstr "admin")] else [])))
    (fun _ _ => Ok []).
Definition th_admin := spol (Some t_admin) DenyOverrides [srule EffPermit None None].
Example C62_history_matters :
  let threads := [[(th_admin, CtxRequest sreq_pip)]; [(th_admin, CtxRequest sreq_pip)]] in
  (finished th_flip threads [0; 0; 1; 1] 0 [Ok Permit] /\
   finished th_flip threads [0; 0; 1; 1] 1 [Ok NotApplicable]) /\
  (finished th_flip threads [1; 1; 0; 0] 0 [Ok NotApplicable] /\
   finished th_flip threads [1; 1; 0; 0] 1 [Ok Permit]).
Proof. unfold finished. repeat split; vm_compute; reflexivity. Qed.

Example C62_recurring : recurring (fun n => Nat.modulo n 3) 2.
Proof.
  intros n. exists (2 + n * 3). split; [lia|]. rewrite Nat.mod_add by lia. reflexivity.
Qed.

Print Assumptions C62_any_schedule.
Print Assumptions C62_decisions.
Print Assumptions C62_queries.
Print Assumptions C62_cache.
Print Assumptions C62_terminates.
Print Assumptions C62_alone.
