(** C41, C42, C55: responses, decision objects and context errors. *)
From Verif Require Import Eval Setters SpecSetters Response SpecResponse ResponseFacts Sample.

(** ** C42: a response has exactly one result carrying the policy's decision *)

(** For every policy tree and request: the response has one result, it reads the
    decision of the policy, its status is OK with an empty message, and it has no
    resource id and no obligations; an exception outside the Exception hierarchy
    passes through. *)
Theorem C42_response : forall E c p,
  match policy_eval E c p with
  | Ok d => exists r x, evaluateResponse E store0 c p = Ok r /\ r = [x] /\
              reads store0 r = Some d /\
              rs_status x = Some (plain_status "") /\
              rs_resourceId x = None /\ rs_obligations x = None
  | Raise e => is_exception e = false /\ evaluateResponse E store0 c p = Raise e
  end.
Proof.
  intros E c p. pose proof (response_spec E store0 c p (fun d => eq_refl)) as H.
  destruct (policy_eval E c p) as [d|e].
  - eexists _, _. rewrite H. repeat (split; [reflexivity|]). reflexivity.
  - split; [|exact H]. apply evaluateResponse_raise in H. eapply policy_o_raises, H.
Qed.

Example C42_permit :
  exists r, evaluateResponse sE store0 sctx (sset None DenyOverrides [spol None PermitOverrides [r_permit; r_na]]) = Ok r
            /\ reads store0 r = Some Permit.
Proof. eexists. split; vm_compute; reflexivity. Qed.

(** After any sequence of assignments to its policy a PDP returns the response of
    the last policy assigned, and raises AttributeError when there is none. *)
Theorem C42_pdp : forall E c xs,
  pdp_evaluate E store0 c (set_run pdp_set xs None)
  = match last_some (map as_policy xs) with
    | Some p => evaluateResponse E store0 c p
    | None => Raise EAttributeError
    end.
Proof. intros E c xs. rewrite pdp_last. unfold pdp_evaluate. reflexivity. Qed.

(** The constructor accepts a policy, None, and nothing else. *)
Theorem C42_pdp_new : forall o,
  pdp_new o = match o with
              | None => Ok None
              | Some (APolicy p) => Ok (Some p)
              | Some (ANotPolicy _) => Raise ETypeError
              end.
Proof. intros [[p|x]|]; reflexivity. Qed.

(** A PDP raises exactly when it has no policy, as long as nothing outside the
    Exception hierarchy is raised during evaluation. *)
Theorem C42_pdp_raises : forall E c o,
  (forall p e, o = Some p -> policy_eval E c p <> Raise e) ->
  (is_ok (pdp_evaluate E store0 c o) = false <-> o = None).
Proof.
  intros E c [p|] H; simpl; [|tauto].
  pose proof (response_spec E store0 c p (fun d => eq_refl)) as H2.
  destruct (policy_eval E c p) as [d|e] eqn:Hp; [|exfalso; exact (H p e eq_refl Hp)].
  rewrite H2. simpl. split; discriminate.
Qed.

Example C42_pdp_example :
  pdp_evaluate sE store0 sctx
    (set_run pdp_set [APolicy (spol None DenyOverrides [r_deny]); ANotPolicy (ONat (NStr "x"));
                      APolicy (spol None DenyOverrides [r_permit]); ANotPolicy (ONat (NInt 1))] None)
  = evaluateResponse sE store0 sctx (spol None DenyOverrides [r_permit]).
Proof. reflexivity. Qed.

(** ** C41: the shared decision objects *)

(** A program that never assigns to the value of a decision sees every shared
    object with its original value, and every evaluation it makes returns a
    response that reads the decision of the policy. *)
Theorem C41_without_assignment : forall ops,
  (forall o, In o ops -> assigns_value o = false) ->
  let s := w_store (w_run ops world0) in
  (forall d, s d = d) /\
  (forall E c p, match policy_eval E c p with
                 | Ok d => exists r, evaluateResponse E s c p = Ok r /\ reads s r = Some d
                 | Raise e => evaluateResponse E s c p = Raise e
                 end).
Proof.
  intros ops H s.
  assert (Hs : forall d, s d = d) by (intros d; unfold s; rewrite (run_store ops world0 H); reflexivity).
  split; [exact Hs|]. intros E c p. pose proof (response_spec E s c p Hs) as Hr.
  destruct (policy_eval E c p) as [d|e]; [|exact Hr].
  eexists. split; [exact Hr|]. simpl. rewrite Hs. reflexivity.
Qed.

(** The responses such a program holds keep their decisions, whatever it
    evaluates later, unless it puts another decision in them. *)
Theorem C41_responses_keep_decisions : forall ops ops' k r,
  let w := w_run ops world0 in
  nth_error (w_responses w) k = Some r ->
  (forall o, In o ops' -> assigns_value o = false /\ replaces k o = false) ->
  let w' := w_run (ops ++ ops') world0 in
  nth_error (w_responses w') k = Some r /\ reads (w_store w') r = reads (w_store w) r.
Proof.
  intros ops ops' k r w Hn H w'. unfold w', w. rewrite w_run_app. split.
  - apply run_keeps; assumption.
  - rewrite run_store; [reflexivity|]. intros o Ho. apply H, Ho.
Qed.

(** Every response of an evaluation holds one of the shared objects, and so does
    every response of a context error. *)
Theorem C41_evaluation_hands_out_shared_objects : forall E s c p r,
  evaluateResponse E s c p = Ok r -> exists d, holds r d /\ reads s r = Some (s d).
Proof.
  intros E s c p r H. destruct (evaluateResponse_ok _ _ _ _ _ H) as [d [_ ->]].
  exists d. assert (Hh : holds [mkResult (Some (DShared d)) (Some (plain_status "")) None None] d)
    by (eexists; split; reflexivity).
  split; [exact Hh|]. apply reads_holds, Hh.
Qed.

(** After any history, assigning the value [v] to the decision of a response that
    holds the shared object [d] is accepted, gives that shared object the value
    [v] and no other, so every response that holds the same object, obtained
    before or later, reads [v]. *)
Theorem C41_assignment_changes_shared_object : forall ops k r d x v,
  let w := w_run ops world0 in
  nth_error (w_responses w) k = Some r -> holds r d -> names x v ->
  let w' := w_run (ops ++ [WValue k x]) world0 in
  fst (w_step w (WValue k x)) = Ok tt /\
  w_store w' d = v /\
  (forall d', d' <> d -> w_store w' d' = w_store w d') /\
  w_responses w' = w_responses w /\
  (forall j r', nth_error (w_responses w') j = Some r' -> holds r' d ->
                reads (w_store w') r' = Some v) /\
  (forall ops' E c p r', (forall o, In o ops' -> assigns_value o = false) ->
     let s := w_store (w_run (ops ++ WValue k x :: ops') world0) in
     evaluateResponse E s c p = Ok r' -> holds r' d -> reads s r' = Some v).
Proof.
  intros ops k r d x v w Hn Hh Hx w'. unfold w'. rewrite w_run_snoc. fold w.
  rewrite (step_value w k r d x v Hn Hh Hx). simpl.
  split; [reflexivity|]. split; [apply store_set_same|]. split; [intros; apply store_set_other; assumption|].
  split; [reflexivity|]. split.
  - intros j r' _ H. rewrite (reads_holds _ _ _ H), store_set_same. reflexivity.
  - intros ops' E c p r' Ho _ H.
    rewrite (reads_holds _ _ _ H).
    change (ops ++ WValue k x :: ops') with (ops ++ ([WValue k x] ++ ops')).
    rewrite app_assoc, w_run_app, run_store by exact Ho.
    rewrite w_run_snoc. fold w. rewrite (step_value w k r d x v Hn Hh Hx). simpl.
    rewrite store_set_same. reflexivity.
Qed.

(** In particular: once a program has assigned [v] to the decision of a response
    for a policy that does not apply, every later evaluation of every policy
    whose target does not match reads [v]. *)
Theorem C41_later_evaluations_read_assigned_value : forall E c p t k x v E' c' p' t' ops,
  let w := w_run ops world0 in
  k = List.length (w_responses w) ->
  target_of p = Some t -> target_match E c t = Ok false ->
  target_of p' = Some t' -> target_match E' c' t' = Ok false ->
  names x v ->
  let s := w_store (w_run (ops ++ [WEvaluate E c p; WValue k x]) world0) in
  exists r, evaluateResponse E' s c' p' = Ok r /\ reads s r = Some v.
Proof.
  intros E c p t k x v E' c' p' t' ops w Hk Ht Hm Ht' Hm' Hx s.
  eexists. split; [apply (evaluate_unmatched E' s c' p' t' Ht' Hm')|].
  simpl. f_equal. unfold s.
  change [WEvaluate E c p; WValue k x] with ([WEvaluate E c p] ++ [WValue k x]).
  rewrite app_assoc, w_run_snoc, w_run_snoc. fold w. cbn [w_step].
  rewrite (evaluate_unmatched E (w_store w) c p t Ht Hm). cbn [snd w_responses w_store].
  rewrite nth_error_app2 by (rewrite Hk; apply le_n). rewrite Hk, Nat.sub_diag. cbn [nth_error rs_decision].
  rewrite (names_set _ _ _ Hx), of_str. simpl. reflexivity.
Qed.

(** The claim that the decision read after an evaluation does not depend on what
    the program did before is false: a policy set that denies reads Permit after the decision of
    a response for a policy that does not apply has been set to Permit. *)
Theorem C41_history_independence_refuted :
  exists ops E c p r,
    let s := w_store (w_run ops world0) in
    policy_eval E c p = Ok Deny /\
    evaluateResponse E s c p = Ok r /\ reads s r = Some Permit.
Proof.
  exists [WEvaluate sE sctx (spol (Some t_admin) DenyOverrides [r_permit]); WValue 0 (ONat (NStr "Permit"))],
    sE, sctx, (sset None PermitOverrides [spol None DenyOverrides [r_deny]; spol (Some t_admin) DenyOverrides [r_permit]]).
  eexists. vm_compute. repeat split; reflexivity.
Qed.

Example C41_hypotheses :
  let w := w_run [WEvaluate sE sctx (spol (Some t_admin) DenyOverrides [r_permit]);
                  WError [ONat (NStr "no such attribute")]] world0 in
  exists r, nth_error (w_responses w) 1 = Some r /\ holds r Indeterminate
            /\ target_match sE sctx t_admin = Ok false
            /\ names (ODecision "Permit") Permit.
Proof.
  eexists. split; [vm_compute; reflexivity|]. split; [eexists; split; reflexivity|].
  split; [reflexivity|right; reflexivity].
Qed.

(** ** C55: context errors *)

(** Whatever the message and whatever further arguments: one result, the shared
    Indeterminate object, status OK and the message as status message. *)
Theorem C55_context_error : forall m rest,
  exists r x, context_error store0 (ONat (NStr m) :: rest) = Ok r /\ r = [x] /\
    reads store0 r = Some Indeterminate /\ rs_status x = Some (plain_status m) /\
    rs_resourceId x = None /\ rs_obligations x = None.
Proof.
  intros m rest. rewrite context_error_str. eexists _, _. repeat (split; [reflexivity|]). reflexivity.
Qed.

(** Without arguments the message is empty. *)
Theorem C55_context_error_without_message :
  exists r x, context_error store0 [] = Ok r /\ r = [x] /\
    reads store0 r = Some Indeterminate /\ rs_status x = Some (plain_status "").
Proof. rewrite context_error_none. eexists _, _. repeat (split; [reflexivity|]). reflexivity. Qed.

(** A first argument that is not a string makes the construction itself raise
    TypeError: no context error can carry another kind of message. *)
Theorem C55_message_must_be_string : forall s x rest,
  context_error s (x :: rest) = Raise ETypeError <-> as_string x = None.
Proof.
  intros s x rest. split.
  - destruct (as_string x) as [m|] eqn:Hx; [|reflexivity].
    destruct x as [[]| | | | | | |]; try discriminate.
    injection Hx as <-. rewrite context_error_str. discriminate.
  - apply context_error_other.
Qed.

(** After any program: the error's decision is the shared Indeterminate object. *)
Theorem C55_after_any_history : forall ops arg r,
  let s := w_store (w_run ops world0) in
  context_error s arg = Ok r -> holds r Indeterminate.
Proof.
  intros ops arg r s. destruct arg as [|x rest].
  - rewrite context_error_none. intros H. injection H as <-. eexists. split; reflexivity.
  - destruct (as_string x) as [m|] eqn:Hx.
    + destruct x as [[]| | | | | | |]; try discriminate. rewrite context_error_str.
      intros H. injection H as <-. eexists. split; reflexivity.
    + rewrite context_error_other by exact Hx. discriminate.
Qed.

Example C55_example : exists r,
  context_error store0 [ONat (NStr "missing"); ONat (NInt 3)] = Ok r /\ reads store0 r = Some Indeterminate.
Proof. eexists. split; reflexivity. Qed.

Print Assumptions C42_response.
Print Assumptions C42_pdp.
Print Assumptions C42_pdp_new.
Print Assumptions C42_pdp_raises.
Print Assumptions C41_without_assignment.
Print Assumptions C41_responses_keep_decisions.
Print Assumptions C41_evaluation_hands_out_shared_objects.
Print Assumptions C41_assignment_changes_shared_object.
Print Assumptions C41_later_evaluations_read_assigned_value.
Print Assumptions C41_history_independence_refuted.
Print Assumptions C55_context_error.
Print Assumptions C55_context_error_without_message.
Print Assumptions C55_message_must_be_string.
Print Assumptions C55_after_any_history.
