(** C108: the part of a policy that is about given values of an attribute. *)
From Verif Require Import Eval SpecEval SpecStandard SpecTighten SpecSplit Sample EvalFacts3 StandardFacts MonotoneFacts TightenFacts SplitFacts.

(** ** C108 *)

(** For requests with no other values of the attribute, the part decides as the
    whole. *)
Theorem C108_part : forall E c d values p p',
  part d values p p' -> carries E c d values -> without_errors E c p ->
  policy_eval E c p = policy_eval E c p'.
Proof. intros E c d values p p' Hp Hd W. exact (part_eval E c d values Hd p p' Hp W). Qed.

(** So two policies that differ only in what they say about other values decide
    alike. *)
Theorem C108_alike : forall E c d values p q common,
  part d values p common -> part d values q common ->
  carries E c d values -> without_errors E c p -> without_errors E c q ->
  policy_eval E c p = policy_eval E c q.
Proof.
  intros E c d values p q s Hp Hq Hd Wp Wq.
  rewrite (C108_part E c d values p s Hp Hd Wp). symmetry. exact (C108_part E c d values q s Hq Hd Wq).
Qed.

(** A policy that is itself about other values says nothing. *)
Theorem C108_silent : forall E c d values p,
  elsewhere d values (target_of_policy p) -> carries E c d values -> without_errors E c p ->
  policy_eval E c p = Ok NotApplicable.
Proof. intros E c d values p He Hd W. exact (elsewhere_policy E c d values Hd p He W). Qed.

(** Which values those are can be read off the request, for the resource, the action
    and the environment always, and for the subject if there is no attribute source. *)
Theorem C108_request : forall E d r attrs vs values,
  (dg_kind d = DSubject -> rq_ctxHandler r = None) ->
  section_attributes (dg_kind d) r = Some attrs -> requested_values d attrs vs ->
  all_of_type E (dg_dataType d) vs -> vs <> [] \/ dg_mustBePresent d = false ->
  (forall v, In v vs -> exists s, In s values /\ av_value v = NStr s) ->
  carries E (CtxRequest r) d values.
Proof.
  intros E d r attrs vs values Hk Hs Hr Ht Hm Hv.
  exists (class_for E (dg_dataType d)), vs. split; [|exact Hv].
  exact (proj1 (eval_designator_exact E d r attrs vs Hk Hs Hr) Ht Hm).
Qed.

(** With errors a rule about other values may matter: its other matches are tried
    all the same. *)
Theorem C108_error_refuted : exists E c d values p p',
  part d values p p' /\ carries E c d values /\ policy_eval E c p <> policy_eval E c p'.
Proof.
  set (other := srule EffDeny (Some (stgt [] [[m_badre]] [[smatch (FnEqual StringAV) "write" (sdes DAction "action" false)]])) None).
  exists sE, sctx, (sdes DAction "action" false), ["read"], (spol None DenyOverrides [r_permit; other]), (spol None DenyOverrides [r_permit]).
  split; [|split].
  - apply part_policy. apply EChanged; [reflexivity|]. apply ERemoved; [|constructor].
    eexists. eexists. split; [reflexivity|]. split; [right; right; left; reflexivity|]. split; [discriminate|].
    intros a9 [<-|[]]. eexists. split; [left; reflexivity|].
    exists StringAV, (sstr "write"), "write". repeat split. intros [H|[]]. discriminate.
  - exists (Some StringAV), [sstr "read"]. split; [vm_compute; reflexivity|]. intros v [<-|[]]. exists "read". split; [left; reflexivity|reflexivity].
  - vm_compute. discriminate.
Qed.

(** A rule is not about other values if only some of its alternatives are. *)
Theorem C108_some_alternatives_refuted : exists E c d values l t r,
  carries E c d values /\ without_errors E c (spol None FirstApplicable (r :: l)) /\
  rl_target r = Some t /\
  (exists alternative m, In alternative (tg_actions t) /\ In m alternative /\ asks_other d values m) /\
  policy_eval E c (spol None FirstApplicable (r :: l)) <> policy_eval E c (spol None FirstApplicable l).
Proof.
  exists sE, sctx, (sdes DAction "action" false), ["read"], [],
    (stgt [] [] [[smatch (FnEqual StringAV) "write" (sdes DAction "action" false)]; [m_read]]),
    (srule EffPermit (Some (stgt [] [] [[smatch (FnEqual StringAV) "write" (sdes DAction "action" false)]; [m_read]])) None).
  split; [|split; [apply clean_check_ok; vm_compute; reflexivity|]].
  - exists (Some StringAV), [sstr "read"]. split; [vm_compute; reflexivity|]. intros v [<-|[]]. exists "read". split; [left; reflexivity|reflexivity].
  - split; [reflexivity|]. split; [|vm_compute; discriminate].
    eexists. eexists. split; [left; reflexivity|]. split; [left; reflexivity|].
    exists StringAV, (sstr "write"), "write". repeat split. intros [H|[]]. discriminate.
Qed.

Definition on_action (a : string) : target :=
  stgt [] [] [[smatch (FnEqual StringAV) a (sdes DAction "action" false)]].
Definition split_whole : policybase :=
  sset None DenyOverrides
    [spol None DenyOverrides [r_permit; srule EffDeny (Some (on_action "write")) None; r_na2];
     spol (Some (on_action "delete")) FirstApplicable [r_deny]].
Definition split_part : policybase :=
  sset None DenyOverrides [spol None DenyOverrides [r_permit; r_na2]].
(** A rule and a policy about other actions left out of a set. *)
Example C108_case :
  part (sdes DAction "action" false) ["read"] split_whole split_part /\
  carries sE sctx (sdes DAction "action" false) ["read"] /\
  without_errors sE sctx split_whole /\ policy_eval sE sctx split_whole = Ok Permit.
Proof.
  assert (O : forall a, a <> "read" -> elsewhere (sdes DAction "action" false) ["read"] (Some (on_action a))).
  { intros a Ha. eexists. eexists. split; [reflexivity|]. split; [right; right; left; reflexivity|]. split; [discriminate|].
    intros a9 [<-|[]]. eexists. split; [left; reflexivity|].
    exists StringAV, (sstr a), a. repeat split. intros [H|[]]. congruence. }
  split; [|split; [|split; [apply clean_check_ok|]; vm_compute; reflexivity]].
  - apply part_set. apply EChanged; [|apply ERemoved; [apply O; discriminate|constructor]].
    apply part_policy. apply EChanged; [reflexivity|]. apply ERemoved; [apply O; discriminate|].
    apply EChanged; [reflexivity|constructor].
  - exists (Some StringAV), [sstr "read"]. split; [vm_compute; reflexivity|]. intros v [<-|[]]. exists "read". split; [left; reflexivity|reflexivity].
Qed.

Print Assumptions C108_part.
Print Assumptions C108_alike.
Print Assumptions C108_silent.
Print Assumptions C108_request.
Print Assumptions C108_error_refuted.
Print Assumptions C108_some_alternatives_refuted.
