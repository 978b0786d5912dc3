(** C67: how often the attribute source is asked. *)
From Coq Require Import Lia.
From Verif Require Import Eval EvalState SpecEval SpecState SpecQueries Sample StateFacts QueryFacts PropertiesState.

(** At most once for each subject designator of the policy tree and each subject of
    the request, whatever the source answers and whatever happened before. *)
Theorem C67_bound : forall S c p w,
  length (w_log (snd (policy_eval_s S c p w))) <=
  length (w_log w) + subject_designators p * subjects_of c.
Proof. intros. apply costs_policy. Qed.

(** A sequence of evaluations. *)
Theorem C67_sequence : forall S calls w,
  length (w_log (snd (run_evaluations S calls w))) <=
  length (w_log w) +
  list_sum (map (fun pc => subject_designators (fst pc) * subjects_of (snd pc)) calls).
Proof.
  intros S calls. induction calls as [|[p c] calls IH]; intros w; cbn [run_evaluations map list_sum fold_right];
    [cbn; lia|].
  pose proof (C67_bound S c p w) as H. destruct (policy_eval_s S c p w) as [r w1].
  specialize (IH w1). destruct (run_evaluations S calls w1) as [rs w2]. unfold list_sum in *. cbn [fst snd] in *. lia.
Qed.

(** Never without a handler in the request. *)
Theorem C67_no_handler : forall S calls r p w0,
  w_cache w0 = [] -> rq_ctxHandler r = None ->
  let w := snd (run_evaluations S calls w0) in
  w_log (snd (policy_eval_s S (CtxRequest r) p w)) = w_log w.
Proof.
  intros S calls r p w0 H0 Hh w. destruct (C58_queries S calls (CtxRequest r) p w0 H0) as (new & Hn & HF).
  fold w in Hn. rewrite Hn. destruct new as [|[r' d] new]; [apply app_nil_r|].
  destruct (HF r' d (or_introl eq_refl)) as ([= <-] & _ & _ & K). contradiction.
Qed.

(** No smaller bound holds: for every number of designators and of subjects there are
    a policy and a request for which the source is asked that often. *)
Theorem C67_bound_attained : forall n m, exists S c p,
  subject_designators p = n /\ subjects_of c = m /\
  forall w, length (w_log (snd (policy_eval_s S c p w))) = length (w_log w) + n * m.
Proof.
  intros n m. destruct (n_policy_size n m) as [H1 H2].
  exists quiet, (CtxRequest (m_request m)), (n_policy n).
  split; [exact H1|]. split; [exact H2|]. intros w. apply n_policy_asks.
Qed.

(** Two subjects, three occurrences of subject designators. *)
Example C67_case :
  let p := spol (Some (stgt [[m_staff; m_admin]] [] [])) DenyOverrides [r_na] in
  let S := mkSenv sF STD_CLASS_MAP (fun _ => spip) (fun _ _ => Ok []) in
  subject_designators p * subjects_of (CtxRequest sreq_pip) = 6 /\
  length (w_log (snd (policy_eval_s S (CtxRequest sreq_pip) p (mkWorld [] [] [])))) = 6 /\
  length (w_log (snd (policy_eval_s S sctx p (mkWorld [] [] [])))) = 0.
Proof. vm_compute. auto. Qed.

Print Assumptions C67_bound.
Print Assumptions C67_sequence.
Print Assumptions C67_no_handler.
Print Assumptions C67_bound_attained.
