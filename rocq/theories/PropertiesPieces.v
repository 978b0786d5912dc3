(** C111: several policies in place of one. *)
From Verif Require Import Eval SpecEval SpecPieces EvalFacts PiecesFacts Sample PropertiesEval.

(** Under first-applicable a policy may be cut into consecutive parts, whatever its
    rules do. *)
Theorem C111_first : forall E c m m' t gs qs, pieces FirstApplicable gs qs ->
  policy_eval E c (PPolicySet m t (Some FirstApplicable) qs) =
  policy_eval E c (PPolicy m' t (Some FirstApplicable) (concat gs)).
Proof.
  intros E c m m' t gs qs H. cbn [policy_eval combine_rules combine_policies]. rewrite (pieces_fa E c gs qs H). reflexivity.
Qed.

(** Under the overriding algorithms its rules may be dealt out to policies in any way,
    also to several of them, if none meets an error. *)
Theorem C111_same : forall E c alg m m' t rules gs qs, alg <> FirstApplicable ->
  pieces alg gs qs -> covers gs rules ->
  (forall r, In r rules -> answers E c r /\ rule_eval E c r <> Ok Indeterminate) ->
  policy_eval E c (PPolicySet m t (Some alg) qs) = policy_eval E c (PPolicy m' t (Some alg) rules).
Proof.
  intros E c alg m m' t rules gs qs Ha HP HC HN. destruct (accepts_or E c t) as [HT|HT].
  - apply (same_pieces E c gs rules HC (fun r H => proj1 (HN r H)) alg qs m m' t Ha HP HT (fun r H => proj2 (HN r H))).
  - cbn [policy_eval]. apply HT.
Qed.

(** With errors: the same requests are left undecided, the policies permit nothing the
    one does not permit, and deny what it denies; under permit-overrides they permit
    the same. *)
Theorem C111_not_applicable : forall E c alg m m' t rules gs qs, alg <> FirstApplicable ->
  pieces alg gs qs -> covers gs rules -> (forall r, In r rules -> answers E c r) ->
  (policy_eval E c (PPolicySet m t (Some alg) qs) = Ok NotApplicable <->
   policy_eval E c (PPolicy m' t (Some alg) rules) = Ok NotApplicable).
Proof.
  intros E c alg m m' t rules gs qs Ha HP HC HA. destruct (accepts_or E c t) as [HT|HT].
  - destruct alg; [| |congruence].
    + exact (deny_na E c gs rules HC HA qs HP m m' t HT).
    + exact (permit_na E c gs rules HC HA qs HP m m' t HT).
  - cbn [policy_eval]. match goal with |- catch_exception (with_target E c t ?x) = _ <-> catch_exception (with_target E c t ?y) = _ =>
      rewrite (HT x y) end. reflexivity.
Qed.
Theorem C111_permit : forall E c alg m m' t rules gs qs, alg <> FirstApplicable ->
  pieces alg gs qs -> covers gs rules -> (forall r, In r rules -> answers E c r) ->
  policy_eval E c (PPolicySet m t (Some alg) qs) = Ok Permit ->
  policy_eval E c (PPolicy m' t (Some alg) rules) = Ok Permit.
Proof.
  intros E c alg m m' t rules gs qs Ha HP HC HA. destruct (accepts_or E c t) as [HT|HT].
  - destruct alg; [| |congruence].
    + exact (deny_permit E c gs rules HC HA qs HP m m' t HT).
    + exact (proj1 (permit_permit E c gs rules HC HA qs HP m m' t HT)).
  - cbn [policy_eval]. match goal with |- catch_exception (with_target E c t ?x) = _ -> catch_exception (with_target E c t ?y) = _ =>
      rewrite (HT x y) end. auto.
Qed.
Theorem C111_deny : forall E c alg m m' t rules gs qs, alg <> FirstApplicable ->
  pieces alg gs qs -> covers gs rules -> (forall r, In r rules -> answers E c r) ->
  policy_eval E c (PPolicy m' t (Some alg) rules) = Ok Deny ->
  policy_eval E c (PPolicySet m t (Some alg) qs) = Ok Deny.
Proof.
  intros E c alg m m' t rules gs qs Ha HP HC HA. destruct (accepts_or E c t) as [HT|HT].
  - destruct alg; [| |congruence].
    + exact (deny_deny E c gs rules HC HA qs HP m m' t HT).
    + exact (permit_deny E c gs rules HC HA qs HP m m' t HT).
  - cbn [policy_eval]. match goal with |- catch_exception (with_target E c t ?x) = _ -> catch_exception (with_target E c t ?y) = _ =>
      rewrite (HT x y) end. auto.
Qed.
Theorem C111_permit_overrides : forall E c m m' t rules gs qs,
  pieces PermitOverrides gs qs -> covers gs rules -> (forall r, In r rules -> answers E c r) ->
  (policy_eval E c (PPolicySet m t (Some PermitOverrides) qs) = Ok Permit <->
   policy_eval E c (PPolicy m' t (Some PermitOverrides) rules) = Ok Permit).
Proof.
  intros E c m m' t rules gs qs HP HC HA. destruct (accepts_or E c t) as [HT|HT].
  - exact (permit_permit E c gs rules HC HA qs HP m m' t HT).
  - cbn [policy_eval]. match goal with |- catch_exception (with_target E c t ?x) = _ <-> catch_exception (with_target E c t ?y) = _ =>
      rewrite (HT x y) end. reflexivity.
Qed.

(** In particular the grants may be put in one policy and the refusals in another. *)
Theorem C111_apart : forall E c alg m m' m1 m2 t rules, alg <> FirstApplicable ->
  (forall r, In r rules -> answers E c r /\ rule_eval E c r <> Ok Indeterminate) ->
  policy_eval E c (PPolicySet m t (Some alg)
    [PPolicy m1 None (Some alg) (of_effect EffPermit rules); PPolicy m2 None (Some alg) (of_effect EffDeny rules)]) =
  policy_eval E c (PPolicy m' t (Some alg) rules).
Proof.
  intros E c alg m m' m1 m2 t rules Ha HN.
  apply (C111_same E c alg m m' t rules [of_effect EffPermit rules; of_effect EffDeny rules]); [exact Ha| | |exact HN].
  - constructor; [eauto|]. constructor; [eauto|constructor].
  - intros r. unfold of_effect. split.
    + intros Hr. destruct (HN r Hr) as [[H _] _]. destruct (rl_effect r) as [[|]|] eqn:Er; [| |congruence].
      * eexists. split; [left; reflexivity|]. apply filter_In. rewrite Er. auto.
      * eexists. split; [right; left; reflexivity|]. apply filter_In. rewrite Er. auto.
    + intros (g & [<-|[<-|[]]] & Hr); apply filter_In in Hr; exact (proj1 Hr).
Qed.

(** *** Examples *)
Definition pc_err := srule EffPermit (Some (stgt [] [] [[m_missing]])) None.
Definition pc_yes := srule EffPermit None None.
Definition pc_no := srule EffDeny None None.
Definition pc_piece (alg : comb_alg) (g : list rule) : policybase := PPolicy smeta None (Some alg) g.

(** With an error the policies may deny what the one permits. *)
Theorem C111_permit_refuted : exists E c m t rules gs qs, pieces DenyOverrides gs qs /\ covers gs rules /\
  (forall r, In r rules -> answers E c r) /\
  policy_eval E c (PPolicy m t (Some DenyOverrides) rules) = Ok Permit /\
  policy_eval E c (PPolicySet m t (Some DenyOverrides) qs) = Ok Deny.
Proof.
  exists sE, sctx, smeta, None, [pc_err; pc_yes], [[pc_err]; [pc_yes]], (map (pc_piece DenyOverrides) [[pc_err]; [pc_yes]]).
  split; [repeat (constructor; [eexists; reflexivity|]); constructor|]. split.
  { intros r. apply (in_concat [[pc_err]; [pc_yes]] r). }
  split; [intros r [<-|[<-|[]]]; (split; [discriminate|eexists; vm_compute; reflexivity])|].
  split; vm_compute; reflexivity.
Qed.
(** And deny what the one leaves Indeterminate, under permit-overrides too. *)
Theorem C111_deny_refuted : exists E c m t rules gs qs, pieces PermitOverrides gs qs /\ covers gs rules /\
  (forall r, In r rules -> answers E c r) /\
  policy_eval E c (PPolicy m t (Some PermitOverrides) rules) = Ok Indeterminate /\
  policy_eval E c (PPolicySet m t (Some PermitOverrides) qs) = Ok Deny.
Proof.
  exists sE, sctx, smeta, None, [pc_err; pc_no], [[pc_err]; [pc_no]], (map (pc_piece PermitOverrides) [[pc_err]; [pc_no]]).
  split; [repeat (constructor; [eexists; reflexivity|]); constructor|]. split.
  { intros r. apply (in_concat [[pc_err]; [pc_no]] r). }
  split; [intros r [<-|[<-|[]]]; (split; [discriminate|eexists; vm_compute; reflexivity])|].
  split; vm_compute; reflexivity.
Qed.

(** The hypotheses of [C111_same] are met by rules of both effects, one of them in two
    of the policies. *)
Example C111_met :
  pieces DenyOverrides [[pc_yes]; [pc_no; pc_yes]] (map (pc_piece DenyOverrides) [[pc_yes]; [pc_no; pc_yes]]) /\
  covers [[pc_yes]; [pc_no; pc_yes]] [pc_yes; pc_no] /\
  (forall r, In r [pc_yes; pc_no] -> answers sE sctx r /\ rule_eval sE sctx r <> Ok Indeterminate) /\
  policy_eval sE sctx (PPolicySet smeta None (Some DenyOverrides) (map (pc_piece DenyOverrides) [[pc_yes]; [pc_no; pc_yes]])) = Ok Deny /\
  policy_eval sE sctx (PPolicySet smeta None (Some PermitOverrides) (map (pc_piece PermitOverrides) [[pc_yes]; [pc_no; pc_yes]])) = Ok Permit.
Proof.
  split; [repeat (constructor; [eexists; reflexivity|]); constructor|]. split.
  { intros r. rewrite <- in_concat. cbn. tauto. }
  split; [intros r [<-|[<-|[]]]; (split; [split; [discriminate|eexists; vm_compute; reflexivity]|vm_compute; discriminate])|].
  split; vm_compute; reflexivity.
Qed.

Print Assumptions C111_first.
Print Assumptions C111_same.
Print Assumptions C111_not_applicable.
Print Assumptions C111_permit.
Print Assumptions C111_deny.
Print Assumptions C111_permit_overrides.
Print Assumptions C111_apart.
Print Assumptions C111_permit_refuted.
Print Assumptions C111_deny_refuted.
