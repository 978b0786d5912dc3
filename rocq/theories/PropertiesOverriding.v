(** C112: the overriding algorithms by order. *)
From Verif Require Import Eval SpecEval SpecPieces EvalFacts PiecesFacts PiecesFacts2 Sample PropertiesEval.

(** What the policy with the rules of one effect first decides under first-applicable,
    if it comes to a decision, the algorithm that favours this effect decides. *)
Theorem C112_deny : forall E c m m' t rules d, (forall r, In r rules -> answers E c r) -> d <> Indeterminate ->
  policy_eval E c (PPolicy m t (Some FirstApplicable) (of_effect EffDeny rules ++ of_effect EffPermit rules)) = Ok d ->
  policy_eval E c (PPolicy m' t (Some DenyOverrides) rules) = Ok d.
Proof.
  intros E c m m' t rules d HA N. destruct (accepts_or E c t) as [HT|HT]; [apply deny_first; assumption|].
  cbn [policy_eval]. match goal with |- catch_exception (with_target E c t ?x) = _ -> catch_exception (with_target E c t ?y) = _ =>
    rewrite (HT x y) end. auto.
Qed.
Theorem C112_permit : forall E c m m' t rules d, (forall r, In r rules -> answers E c r) -> d <> Indeterminate ->
  policy_eval E c (PPolicy m t (Some FirstApplicable) (of_effect EffPermit rules ++ of_effect EffDeny rules)) = Ok d ->
  policy_eval E c (PPolicy m' t (Some PermitOverrides) rules) = Ok d.
Proof.
  intros E c m m' t rules d HA N. destruct (accepts_or E c t) as [HT|HT]; [apply permit_first; assumption|].
  cbn [policy_eval]. match goal with |- catch_exception (with_target E c t ?x) = _ -> catch_exception (with_target E c t ?y) = _ =>
    rewrite (HT x y) end. auto.
Qed.

(** Both leave the same requests undecided. *)
Theorem C112_not_applicable : forall E c m m' t rules, (forall r, In r rules -> answers E c r) ->
  (policy_eval E c (PPolicy m t (Some FirstApplicable) (of_effect EffDeny rules ++ of_effect EffPermit rules)) = Ok NotApplicable <->
   policy_eval E c (PPolicy m' t (Some DenyOverrides) rules) = Ok NotApplicable) /\
  (policy_eval E c (PPolicy m t (Some FirstApplicable) (of_effect EffPermit rules ++ of_effect EffDeny rules)) = Ok NotApplicable <->
   policy_eval E c (PPolicy m' t (Some PermitOverrides) rules) = Ok NotApplicable).
Proof.
  intros E c m m' t rules HA. destruct (accepts_or E c t) as [HT|HT].
  - pose proof (rules_all E c rules HA) as HR. split; split; intros H.
    + apply (C112_deny E c m m' t rules NotApplicable HA ltac:(discriminate) H).
    + apply (first_none E c rules HA m t HT EffDeny EffPermit); [discriminate|].
      apply (C01_deny_overrides_rules_table E c m' t rules HT HR), H.
    + apply (C112_permit E c m m' t rules NotApplicable HA ltac:(discriminate) H).
    + apply (first_none E c rules HA m t HT EffPermit EffDeny); [discriminate|].
      apply (C02_permit_overrides_rules_table E c m' t rules HT HR), H.
  - cbn [policy_eval]. split;
      match goal with |- catch_exception (with_target E c t ?x) = _ <-> catch_exception (with_target E c t ?y) = _ =>
        rewrite (HT x y) end; reflexivity.
Qed.

(** Without errors the two are the same policy. *)
Theorem C112_same : forall E c m m' t rules,
  (forall r, In r rules -> answers E c r /\ rule_eval E c r <> Ok Indeterminate) ->
  policy_eval E c (PPolicy m' t (Some DenyOverrides) rules) =
    policy_eval E c (PPolicy m t (Some FirstApplicable) (of_effect EffDeny rules ++ of_effect EffPermit rules)) /\
  policy_eval E c (PPolicy m' t (Some PermitOverrides) rules) =
    policy_eval E c (PPolicy m t (Some FirstApplicable) (of_effect EffPermit rules ++ of_effect EffDeny rules)).
Proof.
  intros E c m m' t rules HN. destruct (accepts_or E c t) as [HT|HT].
  - assert (HA : forall r, In r rules -> answers E c r) by (intros r Hr; exact (proj1 (HN r Hr))).
    assert (HI : forall r, In r rules -> rule_eval E c r <> Ok Indeterminate) by (intros r Hr; exact (proj2 (HN r Hr))).
    split.
    + destruct (first_decides E c rules HA m t HT EffDeny EffPermit ltac:(discriminate) HI) as (d & N & Hd). rewrite Hd.
      apply (C112_deny E c m m' t rules d HA N Hd).
    + destruct (first_decides E c rules HA m t HT EffPermit EffDeny ltac:(discriminate) HI) as (d & N & Hd). rewrite Hd.
      apply (C112_permit E c m m' t rules d HA N Hd).
  - cbn [policy_eval]. split; apply HT.
Qed.

(** Policies in a set likewise: those that deny or do not apply first, or those that
    permit or do not apply. *)
Theorem C112_set_deny : forall E c m m' t ps den per,
  (forall p, In p ps <-> In p den \/ In p per) ->
  (forall p, In p den -> policy_eval E c p = Ok Deny \/ policy_eval E c p = Ok NotApplicable) ->
  (forall p, In p per -> policy_eval E c p = Ok Permit \/ policy_eval E c p = Ok NotApplicable) ->
  policy_eval E c (PPolicySet m' t (Some DenyOverrides) ps) =
  policy_eval E c (PPolicySet m t (Some FirstApplicable) (den ++ per)).
Proof.
  intros E c m m' t ps den per HI HD HP. destruct (accepts_or E c t) as [HT|HT]; [|cbn [policy_eval]; apply HT].
  rewrite (set_first E c m t (den ++ per) HT).
  2:{ intros p Hp. apply in_app_or in Hp. destruct Hp as [Hp|Hp]; [destruct (HD p Hp) as [-> | ->]|destruct (HP p Hp) as [-> | ->]]; reflexivity. }
  assert (HK : forall p, In p ps -> is_ok (policy_eval E c p) = true).
  { intros p Hp. apply HI in Hp. destruct Hp as [Hp|Hp]; [destruct (HD p Hp) as [-> | ->]|destruct (HP p Hp) as [-> | ->]]; reflexivity. }
  destruct (C04_deny_overrides_policies_table E c m' t ps HT HK) as (S1 & S2 & _ & S4).
  rewrite policies_fa_app.
  destruct (policies_two E c den Deny HD) as [[-> K]|[-> (p & K1 & K2)]]; cbn [bind].
  - destruct (policies_two E c per Permit HP) as [[-> K']|[-> (p & K1 & K2)]].
    + apply S4. intros p Hp. apply HI in Hp. destruct Hp; auto.
    + apply S2. split; [exists p; split; [apply HI; right; exact K1|exact K2]|].
      split; intros (q & Hq & Qq); apply HI in Hq; destruct Hq as [Hq|Hq];
        try (rewrite (K q Hq) in Qq; discriminate); destruct (HP q Hq) as [X|X]; rewrite X in Qq; discriminate.
  - apply S1. left. exists p. split; [apply HI; left; exact K1|exact K2].
Qed.
Theorem C112_set_permit : forall E c m m' t ps den per,
  (forall p, In p ps <-> In p den \/ In p per) ->
  (forall p, In p den -> policy_eval E c p = Ok Deny \/ policy_eval E c p = Ok NotApplicable) ->
  (forall p, In p per -> policy_eval E c p = Ok Permit \/ policy_eval E c p = Ok NotApplicable) ->
  policy_eval E c (PPolicySet m' t (Some PermitOverrides) ps) =
  policy_eval E c (PPolicySet m t (Some FirstApplicable) (per ++ den)).
Proof.
  intros E c m m' t ps den per HI HD HP. destruct (accepts_or E c t) as [HT|HT]; [|cbn [policy_eval]; apply HT].
  rewrite (set_first E c m t (per ++ den) HT).
  2:{ intros p Hp. apply in_app_or in Hp. destruct Hp as [Hp|Hp]; [destruct (HP p Hp) as [-> | ->]|destruct (HD p Hp) as [-> | ->]]; reflexivity. }
  assert (HK : forall p, In p ps -> is_ok (policy_eval E c p) = true).
  { intros p Hp. apply HI in Hp. destruct Hp as [Hp|Hp]; [destruct (HD p Hp) as [-> | ->]|destruct (HP p Hp) as [-> | ->]]; reflexivity. }
  destruct (C05_permit_overrides_policies_table E c m' t ps HT HK) as (S1 & S2 & _ & S4).
  rewrite policies_fa_app.
  destruct (policies_two E c per Permit HP) as [[-> K]|[-> (p & K1 & K2)]]; cbn [bind].
  - destruct (policies_two E c den Deny HD) as [[-> K']|[-> (p & K1 & K2)]].
    + apply S4. intros p Hp. apply HI in Hp. destruct Hp; auto.
    + apply S2. split; [exists p; split; [apply HI; left; exact K1|exact K2]|].
      intros (q & Hq & Qq); apply HI in Hq; destruct Hq as [Hq|Hq];
        try (rewrite (K q Hq) in Qq; discriminate); destruct (HD q Hq) as [X|X]; rewrite X in Qq; discriminate.
  - apply S1. exists p. split; [apply HI; right; exact K1|exact K2].
Qed.

(** *** Examples *)
Definition ov_err := srule EffPermit (Some (stgt [] [] [[m_missing]])) None.
Definition ov_yes := srule EffPermit None None.
Definition ov_no := srule EffDeny None None.

(** With an error the overriding policy may decide where the other does not. *)
Theorem C112_error_refuted : exists E c m t rules, (forall r, In r rules -> answers E c r) /\
  policy_eval E c (PPolicy m t (Some DenyOverrides) rules) = Ok Permit /\
  policy_eval E c (PPolicy m t (Some FirstApplicable) (of_effect EffDeny rules ++ of_effect EffPermit rules)) = Ok Indeterminate.
Proof.
  exists sE, sctx, smeta, None, [ov_err; ov_yes].
  split; [intros r [<-|[<-|[]]]; (split; [discriminate|eexists; vm_compute; reflexivity])|].
  split; vm_compute; reflexivity.
Qed.
(** The order matters: with the permits first, deny-overrides is not met. *)
Theorem C112_order_refuted : exists E c m t rules,
  (forall r, In r rules -> answers E c r /\ rule_eval E c r <> Ok Indeterminate) /\
  policy_eval E c (PPolicy m t (Some DenyOverrides) rules) = Ok Deny /\
  policy_eval E c (PPolicy m t (Some FirstApplicable) (of_effect EffPermit rules ++ of_effect EffDeny rules)) = Ok Permit.
Proof.
  exists sE, sctx, smeta, None, [ov_yes; ov_no].
  split; [intros r [<-|[<-|[]]]; (split; [split; [discriminate|eexists; vm_compute; reflexivity]|vm_compute; discriminate])|].
  split; vm_compute; reflexivity.
Qed.

(** Rules of both effects that meet the hypotheses. *)
Example C112_met : (forall r, In r [ov_yes; ov_no] -> answers sE sctx r /\ rule_eval sE sctx r <> Ok Indeterminate) /\
  policy_eval sE sctx (PPolicy smeta None (Some FirstApplicable) (of_effect EffDeny [ov_yes; ov_no] ++ of_effect EffPermit [ov_yes; ov_no])) = Ok Deny.
Proof.
  split; [|vm_compute; reflexivity].
  intros r [<-|[<-|[]]]; (split; [split; [discriminate|eexists; vm_compute; reflexivity]|vm_compute; discriminate]).
Qed.
(** A set of a policy that denies and two that permit. *)
Definition ov_den := PPolicy smeta None (Some FirstApplicable) [ov_no].
Definition ov_per := PPolicy smeta None (Some FirstApplicable) [ov_yes].
Example C112_set_met :
  (forall p, In p [ov_per; ov_den; ov_per] <-> In p [ov_den] \/ In p [ov_per]) /\
  policy_eval sE sctx ov_den = Ok Deny /\ policy_eval sE sctx ov_per = Ok Permit /\
  policy_eval sE sctx (PPolicySet smeta None (Some DenyOverrides) [ov_per; ov_den; ov_per]) = Ok Deny /\
  policy_eval sE sctx (PPolicySet smeta None (Some PermitOverrides) [ov_per; ov_den; ov_per]) = Ok Permit.
Proof. split; [intros p; cbn; tauto|]. repeat split; vm_compute; reflexivity. Qed.

Print Assumptions C112_deny.
Print Assumptions C112_permit.
Print Assumptions C112_not_applicable.
Print Assumptions C112_same.
Print Assumptions C112_error_refuted.
Print Assumptions C112_order_refuted.
Print Assumptions C112_set_deny.
Print Assumptions C112_set_permit.
