(** Properties C26 and C58: regular expression cache, attribute sources with
    memory, repeated evaluation. *)
From Verif Require Import Eval EvalState SpecEval SpecState Sample StateFacts.

(** ** C26 *)

(** Any history of regexp-match calls, successful or not, starting with the empty
    cache, followed by any further sequence of calls: each call's outcome is the
    cache free one. *)
Theorem C26_cache_transparent : forall F history calls,
  fst (run_regexp F calls (snd (run_regexp F history []))) =
  map (fun ca => regexp_eval F (fst ca) (snd ca)) calls.
Proof.
  intros F history calls.
  destruct (run_regexp_ok F history [] (cache_ok_nil F)) as [_ Hk].
  destruct (run_regexp_ok F calls _ Hk) as [H _]. exact H.
Qed.

(** The cache free outcome: compile the first argument's text, match it at the
    start of the second's. *)
Theorem C26_fresh_outcome : forall F c a b p s,
  av_isinstance a c = true -> av_isinstance b c = true ->
  av_value a = NStr p -> av_value b = NStr s ->
  regexp_eval F c [PAttr a; PAttr b] =
  match fe_compile F p with
  | Some e => Raise e
  | None => Ok (PNat (NBool (fe_match F p s)))
  end.
Proof.
  intros F c a b p s Ha Hb Hp Hs. simpl. rewrite Ha, Hb, Hp, Hs. reflexivity.
Qed.

Example C26_history :
  fst (run_regexp sF
    [(StringAV, [PAttr (sstr "ab"); PAttr (sstr "abc")]);
     (StringAV, [PAttr (sstr "["); PAttr (sstr "abc")]);
     (StringAV, [PAttr (sstr "ab"); PAttr (sstr "xabc")]);
     (AnyURIAV, [PAttr (sstr "ab"); PAttr (sstr "abc")]);
     (StringAV, [PAttr (sstr "["); PAttr (sstr "abc")])] [])
  = [Ok (py_bool true); Raise (EOther 1); Ok (py_bool false); Raise ETypeError; Raise (EOther 1)] /\
  snd (run_regexp sF
    [(StringAV, [PAttr (sstr "ab"); PAttr (sstr "abc")]);
     (StringAV, [PAttr (sstr "["); PAttr (sstr "abc")])] []) = [("ab", "ab")].
Proof. split; vm_compute; reflexivity. Qed.

(** ** C58 *)

(** For every attribute source with memory and every prior history, evaluation
    either returns a decision or lets a non-Exception of a collaborator through. *)
Theorem C58_decision_or_escape : forall S calls c p w0,
  w_cache w0 = [] ->
  let w := snd (run_evaluations S calls w0) in
  (exists d, fst (policy_eval_s S c p w) = Ok d) \/
  (exists e, fst (policy_eval_s S c p w) = Raise e /\
             is_exception e = false /\ collaborator_raises_s S e).
Proof.
  intros S calls c p w0 H0 w.
  assert (Hw : cache_ok (sn_fenv S) (w_cache w)).
  { apply run_evaluations_cache_ok. rewrite H0. apply cache_ok_nil. }
  destruct (fst (policy_eval_s S c p w)) as [d|e] eqn:He; [left; eauto|right].
  exists e. split; [reflexivity|]. eapply policy_eval_s_result; eauto.
Qed.

(** The source is consulted only about the request being evaluated, only with
    subject designators of the policy tree, only if a handler is set. *)
Theorem C58_queries : forall S calls c p w0,
  w_cache w0 = [] ->
  let w := snd (run_evaluations S calls w0) in
  exists new, w_log (snd (policy_eval_s S c p w)) = w_log w ++ new /\
    forall r d, In (r, d) new ->
      c = CtxRequest r /\ In d (designators_policy p) /\ dg_kind d = DSubject /\
      rq_ctxHandler r <> None.
Proof.
  intros S calls c p w0 H0 w.
  assert (Hw : cache_ok (sn_fenv S) (w_cache w)).
  { apply run_evaluations_cache_ok. rewrite H0. apply cache_ok_nil. }
  destruct (good_policy S c p w Hw) as (_ & _ & new & Hn & HF).
  exists new. split; [exact Hn|]. intros r d Hin. rewrite Forall_forall in HF.
  destruct (HF _ Hin) as (r' & Hr & H1 & H2 & H3 & H4). simpl in *. subst r'. auto.
Qed.

(** If answers do not depend on the history, every evaluation in every sequence
    of evaluations gives the decision of the pure evaluator; hence repeating an
    evaluation repeats its decision. *)
Theorem C58_history_independent : forall S calls w0,
  history_independent S -> w_cache w0 = [] ->
  fst (run_evaluations S calls w0) =
  map (fun pc => policy_eval (env_of S []) (snd pc) (fst pc)) calls.
Proof.
  intros S calls w0 Hi H0. apply refines_run; [exact Hi|]. unfold wok. rewrite H0.
  apply cache_ok_nil.
Qed.

Theorem C58_repeatable : forall S before p c between w0 r1 rs,
  history_independent S -> w_cache w0 = [] ->
  fst (run_evaluations S (before ++ (p, c) :: between ++ [(p, c)]) w0) =
    rs ++ [r1] ->
  nth_error rs (length before) = Some r1.
Proof.
  intros S before p c between w0 r1 rs Hi H0 H.
  rewrite C58_history_independent in H by assumption.
  rewrite !map_app in H. simpl in H. rewrite map_app in H. simpl in H.
  rewrite app_comm_cons, app_assoc in H. apply app_inj_tail in H. destruct H as [<- <-].
  rewrite nth_error_app2 by (rewrite map_length; apply le_n).
  rewrite map_length, Nat.sub_diag. reflexivity.
Qed.

(** A source whose answers change does change decisions. *)
Definition sS_flip : senv :=
  mkSenv sF STD_CLASS_MAP
    (fun h r d => Ok (Some (if Nat.ltb (length h) 4 then [PAttr (sstr "admin")] else [])))
    (fun _ _ => Ok []).
Definition p_admin := spol (Some t_admin) DenyOverrides
  [mkRule (Some "r") (Some EffPermit) None None None].
Example C58_history_matters :
  fst (run_evaluations sS_flip
    [(p_admin, CtxRequest sreq_pip); (p_admin, CtxRequest sreq_pip); (p_admin, CtxRequest sreq_pip)]
    (mkWorld [] [] []))
  = [Ok Permit; Ok Permit; Ok NotApplicable] /\
  length (w_log (snd (run_evaluations sS_flip [(p_admin, CtxRequest sreq_pip)] (mkWorld [] [] []))))
    = 2.
Proof. split; vm_compute; reflexivity. Qed.

Example C58_hypotheses_met :
  let S := mkSenv sF STD_CLASS_MAP (fun _ => spip) (fun _ _ => Ok []) in
  history_independent S /\
  fst (run_evaluations S [(p_admin, CtxRequest sreq_pip); (p_admin, sctx)] (mkWorld [] [] []))
    = [Ok Permit; Ok NotApplicable].
Proof. split; [intros h r d; reflexivity|vm_compute; reflexivity]. Qed.

Print Assumptions C26_cache_transparent.
Print Assumptions C26_fresh_outcome.
Print Assumptions C58_decision_or_escape.
Print Assumptions C58_queries.
Print Assumptions C58_history_independent.
Print Assumptions C58_repeatable.
