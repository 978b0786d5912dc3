(** Properties C01-C13 and C51: combining algorithms, rules, targets, matches. *)
From Coq Require Import Permutation.
From Verif Require Import Eval SpecEval Sample EvalFacts EvalFacts2 EvalFacts3 EvalFacts4.

(** ** C01 *)
Theorem C01_deny_overrides_rules : forall E c m t rules,
  target_accepts E c t ->
  deny_overrides_rules_spec
    (map (fun r => (rl_effect r, rule_eval E c r)) rules)
    (policy_eval E c (PPolicy m t (Some DenyOverrides) rules)).
Proof. exact rules_deny_overrides_spec. Qed.

(** The specification determines the decision. *)
Theorem C01_spec_deterministic : forall os r1 r2,
  deny_overrides_rules_spec os r1 -> deny_overrides_rules_spec os r2 -> r1 = r2.
Proof. exact deny_overrides_rules_functional. Qed.

(** The same as a table, for rules that have an effect. *)
Theorem C01_deny_overrides_rules_table : forall E c m t rules,
  target_accepts E c t ->
  (forall r, In r rules -> rl_effect r <> None /\ is_ok (rule_eval E c r) = true) ->
  let dec := policy_eval E c (PPolicy m t (Some DenyOverrides) rules) in
  let some_rule d := exists r, In r rules /\ rule_eval E c r = Ok d in
  let deny_in_doubt := exists r, In r rules /\ rl_effect r = Some EffDeny /\
                                 rule_eval E c r = Ok Indeterminate in
  (dec = Ok Deny <-> some_rule Deny) /\
  (dec = Ok Permit <-> some_rule Permit /\ ~ some_rule Deny /\ ~ deny_in_doubt) /\
  (dec = Ok Indeterminate <-> ~ some_rule Deny /\
     (deny_in_doubt \/ some_rule Indeterminate /\ ~ some_rule Permit)) /\
  (dec = Ok NotApplicable <-> forall r, In r rules -> rule_eval E c r = Ok NotApplicable).
Proof. exact deny_rules_table. Qed.

Example C01_hypotheses_met :
  target_accepts sE sctx (Some t_staff) /\
  (forall r, In r [r_permit; r_na; r_perr; r_derr; r_deny] ->
     rl_effect r <> None /\ is_ok (rule_eval sE sctx r) = true) /\
  policy_eval sE sctx (spol (Some t_staff) DenyOverrides [r_permit; r_na; r_perr; r_derr; r_deny])
    = Ok Deny /\
  policy_eval sE sctx (spol (Some t_staff) DenyOverrides [r_permit; r_na; r_perr; r_derr])
    = Ok Indeterminate /\
  policy_eval sE sctx (spol (Some t_staff) DenyOverrides [r_perr; r_na; r_permit])
    = Ok Permit /\
  policy_eval sE sctx (spol (Some t_staff) DenyOverrides [r_perr; r_na]) = Ok Indeterminate /\
  policy_eval sE sctx (spol (Some t_staff) DenyOverrides [r_na; r_na2]) = Ok NotApplicable.
Proof.
  split; [intros t H; injection H as <-; vm_compute; reflexivity|].
  split; [|repeat split; vm_compute; reflexivity].
  intros r [<-|[<-|[<-|[<-|[<-|[]]]]]]; split; try discriminate; vm_compute; reflexivity.
Qed.

(** ** C02 *)
Theorem C02_permit_overrides_rules : forall E c m t rules,
  target_accepts E c t ->
  permit_overrides_rules_spec
    (map (fun r => (rl_effect r, rule_eval E c r)) rules)
    (policy_eval E c (PPolicy m t (Some PermitOverrides) rules)).
Proof. exact rules_permit_overrides_spec. Qed.

Theorem C02_spec_deterministic : forall os r1 r2,
  permit_overrides_rules_spec os r1 -> permit_overrides_rules_spec os r2 -> r1 = r2.
Proof. exact permit_overrides_rules_functional. Qed.

Theorem C02_permit_overrides_rules_table : forall E c m t rules,
  target_accepts E c t ->
  (forall r, In r rules -> rl_effect r <> None /\ is_ok (rule_eval E c r) = true) ->
  let dec := policy_eval E c (PPolicy m t (Some PermitOverrides) rules) in
  let some_rule d := exists r, In r rules /\ rule_eval E c r = Ok d in
  let permit_in_doubt := exists r, In r rules /\ rl_effect r = Some EffPermit /\
                                 rule_eval E c r = Ok Indeterminate in
  (dec = Ok Permit <-> some_rule Permit) /\
  (dec = Ok Deny <-> some_rule Deny /\ ~ some_rule Permit /\ ~ permit_in_doubt) /\
  (dec = Ok Indeterminate <-> ~ some_rule Permit /\
     (permit_in_doubt \/ some_rule Indeterminate /\ ~ some_rule Deny)) /\
  (dec = Ok NotApplicable <-> forall r, In r rules -> rule_eval E c r = Ok NotApplicable).
Proof. exact permit_rules_table. Qed.

Example C02_hypotheses_met :
  policy_eval sE sctx (spol (Some t_staff) PermitOverrides [r_deny; r_na; r_perr; r_permit])
    = Ok Permit /\
  policy_eval sE sctx (spol (Some t_staff) PermitOverrides [r_deny; r_na; r_perr])
    = Ok Indeterminate /\
  policy_eval sE sctx (spol (Some t_staff) PermitOverrides [r_deny; r_na; r_derr]) = Ok Deny /\
  policy_eval sE sctx (spol (Some t_staff) PermitOverrides [r_na; r_derr]) = Ok Indeterminate /\
  policy_eval sE sctx (spol (Some t_staff) PermitOverrides [r_na]) = Ok NotApplicable /\
  (forall r, In r [r_deny; r_na; r_perr; r_permit; r_derr] ->
     rl_effect r <> None /\ is_ok (rule_eval sE sctx r) = true).
Proof.
  repeat match goal with |- _ /\ _ => split; [vm_compute; reflexivity|] end.
  intros r [<-|[<-|[<-|[<-|[<-|[]]]]]]; split; try discriminate; vm_compute; reflexivity.
Qed.

(** ** C03 *)
Theorem C03_first_applicable_rules : forall E c m t rules,
  target_accepts E c t ->
  first_applicable_spec (map (rule_eval E c) rules)
    (policy_eval E c (PPolicy m t (Some FirstApplicable) rules)).
Proof. exact rules_first_applicable_spec. Qed.

Theorem C03_spec_deterministic : forall os r1 r2,
  first_applicable_spec os r1 -> first_applicable_spec os r2 -> r1 = r2.
Proof. exact first_applicable_functional. Qed.

Theorem C03_later_rules_irrelevant : forall E c m t before r after after',
  (forall r', In r' before -> rule_eval E c r' = Ok NotApplicable) ->
  rule_eval E c r <> Ok NotApplicable ->
  policy_eval E c (PPolicy m t (Some FirstApplicable) (before ++ r :: after)) =
  policy_eval E c (PPolicy m t (Some FirstApplicable) (before ++ r :: after')).
Proof. exact first_applicable_rules_suffix. Qed.

Example C03_hypotheses_met :
  (forall r', In r' [r_na; r_na2] -> rule_eval sE sctx r' = Ok NotApplicable) /\
  rule_eval sE sctx r_permit <> Ok NotApplicable /\
  policy_eval sE sctx (spol (Some t_staff) FirstApplicable [r_na; r_na2; r_permit; r_deny])
    = Ok Permit /\
  policy_eval sE sctx (spol (Some t_staff) FirstApplicable [r_na; r_perr; r_permit])
    = Ok Indeterminate.
Proof.
  split; [intros r [<-|[<-|[]]]; vm_compute; reflexivity|].
  split; [vm_compute; discriminate|]. split; vm_compute; reflexivity.
Qed.

(** ** C04 *)
Theorem C04_deny_overrides_policies : forall E c m t ps,
  target_accepts E c t ->
  deny_overrides_policies_spec (map (policy_eval E c) ps)
    (policy_eval E c (PPolicySet m t (Some DenyOverrides) ps)).
Proof. exact policies_deny_overrides_spec. Qed.

Theorem C04_never_indeterminate : forall E c m t ps,
  target_accepts E c t ->
  policy_eval E c (PPolicySet m t (Some DenyOverrides) ps) <> Ok Indeterminate.
Proof. exact deny_overrides_policies_never_indeterminate. Qed.

Theorem C04_spec_deterministic : forall os r1 r2,
  deny_overrides_policies_spec os r1 -> deny_overrides_policies_spec os r2 -> r1 = r2.
Proof. exact deny_overrides_policies_functional. Qed.

Theorem C04_deny_overrides_policies_table : forall E c m t ps,
  target_accepts E c t ->
  (forall p, In p ps -> is_ok (policy_eval E c p) = true) ->
  let dec := policy_eval E c (PPolicySet m t (Some DenyOverrides) ps) in
  let some_child d := exists p, In p ps /\ policy_eval E c p = Ok d in
  (dec = Ok Deny <-> some_child Deny \/ some_child Indeterminate) /\
  (dec = Ok Permit <-> some_child Permit /\ ~ some_child Deny /\ ~ some_child Indeterminate) /\
  (dec <> Ok Indeterminate) /\
  (dec = Ok NotApplicable <-> forall p, In p ps -> policy_eval E c p = Ok NotApplicable).
Proof. exact deny_policies_table. Qed.

Definition p_permit := spol (Some t_staff) DenyOverrides [r_permit; r_na].
Definition p_deny := spol (Some t_staff) DenyOverrides [r_permit; r_deny].
Definition p_ind := spol (Some t_staff) FirstApplicable [r_na; r_derr].
Definition p_na := spol (Some t_admin) DenyOverrides [r_deny].

Example C04_hypotheses_met :
  target_accepts sE sctx (Some t_staff) /\
  (forall p, In p [p_permit; p_deny; p_ind; p_na] -> is_ok (policy_eval sE sctx p) = true) /\
  map (policy_eval sE sctx) [p_permit; p_deny; p_ind; p_na] =
    [Ok Permit; Ok Deny; Ok Indeterminate; Ok NotApplicable] /\
  policy_eval sE sctx (sset (Some t_staff) DenyOverrides [p_na; p_permit; p_ind]) = Ok Deny /\
  policy_eval sE sctx (sset (Some t_staff) DenyOverrides [p_na; p_permit]) = Ok Permit.
Proof.
  split; [intros t H; injection H as <-; vm_compute; reflexivity|].
  split; [intros p [<-|[<-|[<-|[<-|[]]]]]; vm_compute; reflexivity|].
  repeat split; vm_compute; reflexivity.
Qed.

(** ** C05 *)
Theorem C05_permit_overrides_policies : forall E c m t ps,
  target_accepts E c t ->
  permit_overrides_policies_spec (map (policy_eval E c) ps)
    (policy_eval E c (PPolicySet m t (Some PermitOverrides) ps)).
Proof. exact policies_permit_overrides_spec. Qed.

Theorem C05_spec_deterministic : forall os r1 r2,
  permit_overrides_policies_spec os r1 -> permit_overrides_policies_spec os r2 -> r1 = r2.
Proof. exact permit_overrides_policies_functional. Qed.

Theorem C05_permit_overrides_policies_table : forall E c m t ps,
  target_accepts E c t ->
  (forall p, In p ps -> is_ok (policy_eval E c p) = true) ->
  let dec := policy_eval E c (PPolicySet m t (Some PermitOverrides) ps) in
  let some_child d := exists p, In p ps /\ policy_eval E c p = Ok d in
  (dec = Ok Permit <-> some_child Permit) /\
  (dec = Ok Deny <-> some_child Deny /\ ~ some_child Permit) /\
  (dec = Ok Indeterminate <->
     some_child Indeterminate /\ ~ some_child Permit /\ ~ some_child Deny) /\
  (dec = Ok NotApplicable <-> forall p, In p ps -> policy_eval E c p = Ok NotApplicable).
Proof. exact permit_policies_table. Qed.

Example C05_hypotheses_met :
  policy_eval sE sctx (sset (Some t_staff) PermitOverrides [p_na; p_deny; p_ind; p_permit])
    = Ok Permit /\
  policy_eval sE sctx (sset (Some t_staff) PermitOverrides [p_na; p_ind; p_deny]) = Ok Deny /\
  policy_eval sE sctx (sset None PermitOverrides [p_na; p_ind; p_na]) = Ok Indeterminate /\
  policy_eval sE sctx (sset None PermitOverrides [p_na; p_na]) = Ok NotApplicable.
Proof. repeat split; vm_compute; reflexivity. Qed.

(** ** C06 *)
Theorem C06_first_applicable_policies : forall E c m t ps,
  target_accepts E c t ->
  first_applicable_spec (map (policy_eval E c) ps)
    (policy_eval E c (PPolicySet m t (Some FirstApplicable) ps)).
Proof. exact policies_first_applicable_spec. Qed.

Theorem C06_later_policies_irrelevant : forall E c m t before p after after',
  (forall p', In p' before -> policy_eval E c p' = Ok NotApplicable) ->
  policy_eval E c p <> Ok NotApplicable ->
  policy_eval E c (PPolicySet m t (Some FirstApplicable) (before ++ p :: after)) =
  policy_eval E c (PPolicySet m t (Some FirstApplicable) (before ++ p :: after')).
Proof. exact first_applicable_policies_suffix. Qed.

Example C06_hypotheses_met :
  (forall p', In p' [p_na; p_na] -> policy_eval sE sctx p' = Ok NotApplicable) /\
  policy_eval sE sctx p_ind <> Ok NotApplicable /\
  policy_eval sE sctx (sset (Some t_staff) FirstApplicable [p_na; p_na; p_ind; p_permit])
    = Ok Indeterminate.
Proof.
  split; [intros p [<-|[<-|[]]]; vm_compute; reflexivity|].
  split; [vm_compute; discriminate|vm_compute; reflexivity].
Qed.

(** ** C07 *)
Theorem C07_rules_order_irrelevant : forall E c m t alg rules rules',
  alg <> FirstApplicable ->
  (forall r, In r rules -> rl_effect r <> None /\ is_ok (rule_eval E c r) = true) ->
  Permutation rules rules' ->
  policy_eval E c (PPolicy m t (Some alg) rules) =
  policy_eval E c (PPolicy m t (Some alg) rules').
Proof. exact rules_order_independent. Qed.

Theorem C07_policies_order_irrelevant : forall E c m t alg ps ps',
  alg <> FirstApplicable ->
  (forall p, In p ps -> is_ok (policy_eval E c p) = true) ->
  Permutation ps ps' ->
  policy_eval E c (PPolicySet m t (Some alg) ps) =
  policy_eval E c (PPolicySet m t (Some alg) ps').
Proof. exact policies_order_independent. Qed.

(** First-applicable depends on the order. *)
Theorem C07_first_applicable_order_refuted : exists E c m t rules rules',
  Permutation rules rules' /\
  (forall r, In r rules -> rl_effect r <> None /\ is_ok (rule_eval E c r) = true) /\
  policy_eval E c (PPolicy m t (Some FirstApplicable) rules) <>
  policy_eval E c (PPolicy m t (Some FirstApplicable) rules').
Proof.
  exists sE, sctx, smeta, None, [r_permit; r_deny], [r_deny; r_permit].
  split; [apply perm_swap|]. split; [|vm_compute; discriminate].
  intros r [<-|[<-|[]]]; split; try discriminate; vm_compute; reflexivity.
Qed.

(** Without the hypothesis on effects the override algorithms depend on the
    order: a rule that never got an effect and is Indeterminate stops the
    algorithm. *)
Theorem C07_rule_without_effect_refuted : exists E c m rules rules',
  Permutation rules rules' /\
  policy_eval E c (PPolicy m None (Some DenyOverrides) rules) <>
  policy_eval E c (PPolicy m None (Some DenyOverrides) rules').
Proof.
  exists sE, sctx, smeta, [r_deny; r_noeff], [r_noeff; r_deny].
  split; [apply perm_swap|vm_compute; discriminate].
Qed.

Example C07_hypotheses_met :
  (forall r, In r [r_permit; r_na; r_perr; r_derr; r_deny] ->
     rl_effect r <> None /\ is_ok (rule_eval sE sctx r) = true) /\
  Permutation [r_permit; r_na; r_perr] [r_perr; r_permit; r_na].
Proof.
  split.
  - intros r [<-|[<-|[<-|[<-|[<-|[]]]]]]; split; try discriminate; vm_compute; reflexivity.
  - change (Permutation ([r_permit; r_na] ++ [r_perr]) ([r_perr] ++ [r_permit; r_na])).
    apply Permutation_app_comm.
Qed.

(** ** C08 *)
Theorem C08_permit_has_reason : forall E c p,
  policy_eval E c p = Ok Permit -> permit_reason E c p.
Proof. exact permit_has_reason. Qed.

Theorem C08_deny_has_reason : forall E c p,
  policy_eval E c p = Ok Deny -> deny_reason E c p.
Proof. exact deny_has_reason. Qed.

Theorem C08_policy_decision_from_rule : forall E c m t alg rules d,
  policy_eval E c (PPolicy m t alg rules) = Ok d ->
  d <> Indeterminate -> d <> NotApplicable ->
  target_accepts E c t /\ exists r, In r rules /\ rule_eval E c r = Ok d.
Proof. exact policy_rule_reason. Qed.

Theorem C08_policyset_decision_from_child : forall E c m t alg ps d,
  policy_eval E c (PPolicySet m t alg ps) = Ok d ->
  d <> Indeterminate -> d <> NotApplicable ->
  target_accepts E c t /\
  exists p, In p ps /\ (policy_eval E c p = Ok d \/
    (d = Deny /\ alg = Some DenyOverrides /\ policy_eval E c p = Ok Indeterminate)).
Proof. exact policyset_child_reason. Qed.

Example C08_hypotheses_met :
  policy_eval sE sctx
    (sset (Some t_staff) PermitOverrides [p_deny; sset None FirstApplicable [p_na; p_permit]])
    = Ok Permit /\
  policy_eval sE sctx
    (sset (Some t_staff) FirstApplicable [p_na; sset None DenyOverrides [p_ind]]) = Ok Deny.
Proof. split; vm_compute; reflexivity. Qed.

(** ** C09 *)
Theorem C09_rule_decides_effect : forall E c r,
  (rule_eval E c r = Ok Permit <-> rule_applies E c EffPermit r) /\
  (rule_eval E c r = Ok Deny <-> rule_applies E c EffDeny r).
Proof. intros E c r. split; [apply rule_eval_permit_iff|apply rule_eval_deny_iff]. Qed.

Theorem C09_rule_not_applicable : forall E c r,
  rule_eval E c r = Ok NotApplicable <-> rule_excluded E c r.
Proof. exact rule_eval_not_applicable_iff. Qed.

Theorem C09_rule_indeterminate : forall E c r,
  rule_eval E c r = Ok Indeterminate <->
  exists e, is_exception e = true /\ rule_fails E c r e.
Proof. exact rule_eval_indeterminate_iff. Qed.

Theorem C09_rule_raises : forall E c r e,
  rule_eval E c r = Raise e <-> is_exception e = false /\ rule_fails E c r e.
Proof. exact rule_eval_raise_iff. Qed.

Example C09_all_cases :
  map (rule_eval sE sctx) [r_permit; r_deny; r_na; r_na2; r_perr; r_noeff; r_exit] =
  [Ok Permit; Ok Deny; Ok NotApplicable; Ok NotApplicable; Ok Indeterminate;
   Ok Indeterminate; Raise (EBase 1)].
Proof. vm_compute; reflexivity. Qed.

(** ** C10 *)
Theorem C10_only_base_exceptions_escape : forall E c p e,
  policy_eval E c p = Raise e -> is_exception e = false /\ collaborator_raises E e.
Proof. exact policy_eval_escape. Qed.

Theorem C10_faults_contained : forall E c p,
  (forall e, collaborator_raises E e -> is_exception e = true) ->
  exists d, policy_eval E c p = Ok d.
Proof.
  intros E c p H. destruct (policy_eval E c p) as [d|e] eqn:Hp; [eauto|].
  apply policy_eval_escape in Hp. destruct Hp as [H1 H2]. apply H in H2. congruence.
Qed.

(** The sample environment with the functions and the attribute source that
    raise SystemExit replaced: failures remain, all of them Exceptions. *)
Definition sE_exc : env :=
  mkEnv (mkFenv (fe_compile sF) (fe_match sF) (fun _ _ => Raise (EOther 2)))
    STD_CLASS_MAP (fun _ _ => Raise (EOther 3)) (fun _ _ => Raise EValueError).
Example C10_hypotheses_met :
  (forall e, collaborator_raises sE_exc e -> is_exception e = true) /\
  policy_eval sE_exc (CtxRequest sreq_pip) (sset (Some t_staff) PermitOverrides [p_permit])
    = Ok Indeterminate /\
  policy_eval sE_exc CtxOther (sset None PermitOverrides [p_permit]) = Ok Indeterminate /\
  policy_eval sE_exc sctx (PPolicy smeta None None [r_permit]) = Ok Indeterminate /\
  policy_eval sE sctx (spol None PermitOverrides [r_exit]) = Raise (EBase 1).
Proof.
  split; [|repeat split; vm_compute; reflexivity].
  intros e [(r & d & H)|[(r & p & H)|[(n & a & H)|(p & H)]]].
  - injection H as <-; reflexivity.
  - injection H as <-; reflexivity.
  - injection H as <-; reflexivity.
  - simpl in H. destruct (String.eqb p "["); [injection H as <-; reflexivity|discriminate].
Qed.

(** ** C11 *)
Theorem C11_target_and_or_and : forall E c t b,
  target_match E c t = Ok b ->
  (b = true <->
   section_satisfied E c (tg_subjects t) /\ section_satisfied E c (tg_resources t) /\
   section_satisfied E c (tg_actions t) /\ section_satisfied E c (tg_environments t)).
Proof. exact target_match_ok. Qed.

Theorem C11_target_total : forall E c t,
  (forall m, In m (target_matches t) -> is_ok (eval_match E c m) = true) ->
  exists b, target_match E c t = Ok b.
Proof. exact target_match_total. Qed.

Example C11_hypotheses_met :
  (forall m, In m (target_matches t_staff) -> is_ok (eval_match sE sctx m) = true) /\
  target_match sE sctx t_staff = Ok true /\
  target_match sE sctx (stgt [[m_staff; m_admin]; [m_admin]] [] [[m_read]]) = Ok false /\
  target_match sE sctx (stgt [[m_staff]] [[m_local]; [m_admin]] [[]]) = Ok true.
Proof.
  split; [|repeat split; vm_compute; reflexivity].
  intros m [<-|[<-|[<-|[<-|[]]]]]; vm_compute; reflexivity.
Qed.

(** ** C12 *)
Theorem C12_target_error_not_hidden : forall E c t e,
  target_match E c t = Raise e <->
  exists before m after, target_matches t = before ++ m :: after /\
    eval_match E c m = Raise e /\
    forall m', In m' before -> is_ok (eval_match E c m') = true.
Proof. exact target_match_raise. Qed.

Example C12_hypotheses_met :
  target_match sE sctx (stgt [[m_staff]; [m_admin; m_missing]] [[m_badre]] [])
    = Raise EMissingAttributeError /\
  target_match sE sctx (stgt [[m_admin]] [[m_local]; [m_badre]] [[m_missing]])
    = Raise (EOther 1).
Proof. split; vm_compute; reflexivity. Qed.

(** ** C13 *)
Theorem C13_match_any : forall E c m et vs b,
  retrieves E c m (Ok (PBag et vs)) ->
  eval_match E c m = Ok b <->
  (forall v, In v vs -> exists x, applied_to E m v (Ok x)) /\
  (b = true <-> exists v x, In v vs /\ applied_to E m v (Ok x) /\ truthy x = true).
Proof. exact eval_match_ok. Qed.

Theorem C13_match_application_error : forall E c m et vs e,
  retrieves E c m (Ok (PBag et vs)) ->
  eval_match E c m = Raise e <->
  exists before v after, vs = before ++ v :: after /\ applied_to E m v (Raise e) /\
    forall v', In v' before -> exists x, applied_to E m v' (Ok x).
Proof. exact eval_match_raise. Qed.

Theorem C13_match_retrieval_error : forall E c m e,
  retrieves E c m (Raise e) -> eval_match E c m = Raise e.
Proof. exact eval_match_retrieve_raise. Qed.

(** Retrieval always is a bag or an error, so the three theorems cover all cases. *)
Theorem C13_retrieves_bag : forall E c m v,
  retrieves E c m (Ok v) -> exists et vs, v = PBag et vs.
Proof. exact retrieves_bag. Qed.

Example C13_hypotheses_met :
  retrieves sE sctx m_staff
    (Ok (PBag (Some StringAV) [sstr "staff"; sstr "guest"; sstr "operator"])) /\
  eval_match sE sctx m_staff = Ok true /\ eval_match sE sctx m_admin = Ok false /\
  eval_match sE sctx m_badre = Raise (EOther 1) /\
  (* the policy's value is the first argument *)
  eval_match sE sctx m_local = Ok true /\
  eval_match sE sctx
    (smatch (FnRegexp StringAV) "http://localhost/data/more" (sdes DResource "url" true))
    = Ok false.
Proof. repeat split; vm_compute; reflexivity. Qed.

(** ** C51 *)
Theorem C51_condition_attribute_value : forall E c id eff t x desc a,
  target_accepts E c t -> eval_expr E c x = Ok (PAttr a) ->
  rule_eval E c (mkRule id (Some eff) t (Some (Some x)) desc) = Ok (decision_of_effect eff).
Proof.
  intros E c id eff t x desc a Ht Hx.
  rewrite (condition_value_rule _ _ _ _ _ _ _ _ Ht Hx). reflexivity.
Qed.

Theorem C51_condition_bag : forall E c id eff t x desc et vs,
  target_accepts E c t -> eval_expr E c x = Ok (PBag et vs) ->
  (vs <> [] -> rule_eval E c (mkRule id (Some eff) t (Some (Some x)) desc)
               = Ok (decision_of_effect eff)) /\
  (vs = [] -> rule_eval E c (mkRule id (Some eff) t (Some (Some x)) desc)
              = Ok NotApplicable).
Proof.
  intros E c id eff t x desc et vs Ht Hx.
  rewrite (condition_value_rule _ _ _ _ _ _ _ _ Ht Hx). destruct vs; split; simpl; congruence.
Qed.

Theorem C51_condition_boolean : forall E c id eff t x desc b,
  target_accepts E c t -> eval_expr E c x = Ok (PNat (NBool b)) ->
  rule_eval E c (mkRule id (Some eff) t (Some (Some x)) desc) =
  Ok (if b then decision_of_effect eff else NotApplicable).
Proof.
  intros E c id eff t x desc b Ht Hx.
  rewrite (condition_value_rule _ _ _ _ _ _ _ _ Ht Hx). reflexivity.
Qed.

(** Any other result of a condition: the effect applies unless the result is one of the
    objects that Python takes for false. *)
Theorem C51_condition_other : forall E c id eff t x desc v,
  target_accepts E c t -> eval_expr E c x = Ok v ->
  (false_in_python v -> rule_eval E c (mkRule id (Some eff) t (Some (Some x)) desc) = Ok NotApplicable) /\
  (~ false_in_python v -> rule_eval E c (mkRule id (Some eff) t (Some (Some x)) desc) = Ok (decision_of_effect eff)).
Proof.
  intros E c id eff t x desc v Ht Hx. rewrite (condition_value_rule _ _ _ _ _ _ _ _ Ht Hx).
  pose proof (truthy_false v) as T. destruct (truthy v); split; intros H; try reflexivity.
  - apply T in H. discriminate.
  - destruct H. apply T. reflexivity.
Qed.

Example C51_false_condition_applies :
  rule_eval sE sctx
    (srule EffPermit (Some t_staff)
       (Some (XValue (mkAV BooleanAV (xs "boolean") (NBool false))))) = Ok Permit /\
  rule_eval sE sctx
    (srule EffPermit (Some t_staff) (Some (XDesignator (sdes DSubject "nothing" false))))
    = Ok NotApplicable /\
  rule_eval sE sctx (srule EffDeny (Some t_staff) (Some x_false)) = Ok NotApplicable.
Proof. repeat split; vm_compute; reflexivity. Qed.

Print Assumptions C01_deny_overrides_rules.
Print Assumptions C01_spec_deterministic.
Print Assumptions C01_deny_overrides_rules_table.
Print Assumptions C02_permit_overrides_rules.
Print Assumptions C02_spec_deterministic.
Print Assumptions C02_permit_overrides_rules_table.
Print Assumptions C03_first_applicable_rules.
Print Assumptions C03_spec_deterministic.
Print Assumptions C03_later_rules_irrelevant.
Print Assumptions C04_deny_overrides_policies.
Print Assumptions C04_never_indeterminate.
Print Assumptions C04_spec_deterministic.
Print Assumptions C04_deny_overrides_policies_table.
Print Assumptions C05_permit_overrides_policies.
Print Assumptions C05_spec_deterministic.
Print Assumptions C05_permit_overrides_policies_table.
Print Assumptions C06_first_applicable_policies.
Print Assumptions C06_later_policies_irrelevant.
Print Assumptions C07_rules_order_irrelevant.
Print Assumptions C07_policies_order_irrelevant.
Print Assumptions C07_first_applicable_order_refuted.
Print Assumptions C07_rule_without_effect_refuted.
Print Assumptions C08_permit_has_reason.
Print Assumptions C08_deny_has_reason.
Print Assumptions C08_policy_decision_from_rule.
Print Assumptions C08_policyset_decision_from_child.
Print Assumptions C09_rule_decides_effect.
Print Assumptions C09_rule_not_applicable.
Print Assumptions C09_rule_indeterminate.
Print Assumptions C09_rule_raises.
Print Assumptions C10_only_base_exceptions_escape.
Print Assumptions C10_faults_contained.
Print Assumptions C11_target_and_or_and.
Print Assumptions C11_target_total.
Print Assumptions C12_target_error_not_hidden.
Print Assumptions C13_match_any.
Print Assumptions C13_match_application_error.
Print Assumptions C13_match_retrieval_error.
Print Assumptions C13_retrieves_bag.
Print Assumptions C51_condition_attribute_value.
Print Assumptions C51_condition_bag.
Print Assumptions C51_condition_boolean.
Print Assumptions C51_condition_other.
