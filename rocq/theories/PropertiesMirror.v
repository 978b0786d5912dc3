(** C106: exchanging grants and refusals, and choosing a combining algorithm. *)
From Verif Require Import Eval SpecEval SpecMirror Sample MirrorFacts.

(** ** Exchanging grants and refusals *)

(** A policy with all effects and its algorithm exchanged gives the other decision,
    also where errors arise. *)
Theorem C106_policy : forall E c m t alg rules,
  policy_eval E c (mirror (PPolicy m t alg rules)) = other_outcome (policy_eval E c (PPolicy m t alg rules)).
Proof. exact mirror_policy. Qed.

(** So does a policy set of any depth, if the policies in it come to decisions. *)
Theorem C106_set : forall E c p, settled E c p ->
  policy_eval E c (mirror p) = other_outcome (policy_eval E c p).
Proof. exact mirror_settled. Qed.

(** Exchanging twice gives the policy back. *)
Theorem C106_twice : forall p, mirror (mirror p) = p.
Proof. exact mirror_twice. Qed.

(** With an error in a policy of a set the two algorithms are not each other's mirror
    images: deny-overrides denies, permit-overrides does not permit. *)
Theorem C106_set_refuted : exists E c p,
  policy_eval E c p = Ok Deny /\ policy_eval E c (mirror p) = Ok Indeterminate.
Proof.
  exists sE, sctx, (PPolicySet smeta None (Some DenyOverrides)
    [spol (Some (stgt [] [] [[m_missing]])) DenyOverrides [srule EffPermit None None]]).
  split; vm_compute; reflexivity.
Qed.

(** ** Choosing an algorithm *)

(** What deny-overrides or first-applicable grants, permit-overrides grants; what
    permit-overrides or first-applicable refuses, deny-overrides refuses. *)
Theorem C106_permit_overrides : forall E c m t alg rules,
  policy_eval E c (PPolicy m t (Some alg) rules) = Ok Permit ->
  policy_eval E c (PPolicy m t (Some PermitOverrides) rules) = Ok Permit.
Proof.
  intros E c m t alg rules H. cbn [policy_eval] in *. apply decided_ok in H; [|auto]. destruct H as [H K].
  apply K. destruct alg; cbn [combine_rules] in *; [apply do_po, H|exact H|apply fa_po, H].
Qed.
Theorem C106_deny_overrides : forall E c m t alg rules,
  policy_eval E c (PPolicy m t (Some alg) rules) = Ok Deny ->
  policy_eval E c (PPolicy m t (Some DenyOverrides) rules) = Ok Deny.
Proof.
  intros E c m t alg rules H. cbn [policy_eval] in *. apply decided_ok in H; [|auto]. destruct H as [H K].
  apply K. destruct alg; cbn [combine_rules] in *; [exact H|apply po_do, H|apply fa_do, H].
Qed.

(** Without errors first-applicable lies between them. *)
Theorem C106_between : forall E c m t rules,
  (forall r, In r rules -> rule_eval E c r <> Ok Indeterminate) ->
  (policy_eval E c (PPolicy m t (Some DenyOverrides) rules) = Ok Permit ->
   policy_eval E c (PPolicy m t (Some FirstApplicable) rules) = Ok Permit) /\
  (policy_eval E c (PPolicy m t (Some PermitOverrides) rules) = Ok Deny ->
   policy_eval E c (PPolicy m t (Some FirstApplicable) rules) = Ok Deny).
Proof.
  intros E c m t rules N. split; intros H; cbn [policy_eval] in *; apply decided_ok in H; auto;
    destruct H as [H K]; apply K; cbn [combine_rules] in *.
  - apply do_fa in H; [|exact N]. destruct H as [H|[H _]]; [exact H|discriminate].
  - apply po_fa in H; [|exact N]. destruct H as [H|[H _]]; [exact H|discriminate].
Qed.

(** With errors it does not. *)
Theorem C106_between_refuted : exists E c m t rules,
  policy_eval E c (PPolicy m t (Some DenyOverrides) rules) = Ok Permit /\
  policy_eval E c (PPolicy m t (Some FirstApplicable) rules) = Ok Indeterminate.
Proof.
  exists sE, sctx, smeta, None, [srule EffPermit (Some (stgt [] [] [[m_missing]])) None; srule EffPermit None None].
  split; vm_compute; reflexivity.
Qed.

(** Policies in a set: the same, and here also with errors. *)
Theorem C106_set_permit : forall E c m t ps,
  (policy_eval E c (PPolicySet m t (Some DenyOverrides) ps) = Ok Permit ->
   policy_eval E c (PPolicySet m t (Some FirstApplicable) ps) = Ok Permit) /\
  (policy_eval E c (PPolicySet m t (Some FirstApplicable) ps) = Ok Permit ->
   policy_eval E c (PPolicySet m t (Some PermitOverrides) ps) = Ok Permit).
Proof.
  intros E c m t ps. split; intros H; cbn [policy_eval] in *; apply decided_ok in H; auto;
    destruct H as [H K]; apply K; cbn [combine_policies] in *.
  - apply pdo_pfa in H. destruct H as [H|[H _]]; [exact H|discriminate].
  - apply pfa_ppo, H.
Qed.
Theorem C106_set_deny : forall E c m t alg ps,
  policy_eval E c (PPolicySet m t (Some alg) ps) = Ok Deny ->
  policy_eval E c (PPolicySet m t (Some DenyOverrides) ps) = Ok Deny.
Proof.
  intros E c m t alg ps H. cbn [policy_eval] in *. apply decided_ok in H; [|auto]. destruct H as [H K].
  apply K. destruct alg; cbn [combine_policies] in *; [exact H| |apply pfa_pdo, H].
  apply ppo_pdo in H. destruct H as [H|H]; [apply H|discriminate].
Qed.

(** Where the rules that apply have one effect, or the policies that apply one
    decision, the algorithm does not matter. *)
Theorem C106_no_conflict : forall E c m t a1 a2 rules d, d = Permit \/ d = Deny ->
  (forall r, In r rules -> rule_eval E c r = Ok d \/ rule_eval E c r = Ok NotApplicable) ->
  policy_eval E c (PPolicy m t (Some a1) rules) = policy_eval E c (PPolicy m t (Some a2) rules).
Proof.
  intros E c m t a1 a2 rules d Hd H.
  assert (G : forall a, combine_rules a (rule_eval E c) rules = rules_first_applicable (rule_eval E c) rules).
  { intros [| |]; cbn [combine_rules]; [apply (uniform_do _ d Hd _ H)|apply (uniform_po _ d Hd _ H)|reflexivity]. }
  cbn [policy_eval]. rewrite !G. reflexivity.
Qed.
Theorem C106_set_no_conflict : forall E c m t a1 a2 ps d, d = Permit \/ d = Deny ->
  (forall p, In p ps -> policy_eval E c p = Ok d \/ policy_eval E c p = Ok NotApplicable) ->
  policy_eval E c (PPolicySet m t (Some a1) ps) = policy_eval E c (PPolicySet m t (Some a2) ps).
Proof.
  intros E c m t a1 a2 ps d Hd H.
  assert (G : forall a, combine_policies a (policy_eval E c) ps = policies_first_applicable (policy_eval E c) ps).
  { intros [| |]; cbn [combine_policies]; [apply (uniform_pdo _ d Hd _ H)|apply (uniform_ppo _ d Hd _ H)|reflexivity]. }
  cbn [policy_eval]. rewrite !G. reflexivity.
Qed.

(** ** Cases *)
Definition two_rules : list rule := [srule EffPermit (Some (stgt [] [] [[m_read]])) None; srule EffDeny None None].
Definition two_policies : policybase :=
  PPolicySet smeta None (Some FirstApplicable)
    [spol (Some (stgt [] [] [[m_missing]])) DenyOverrides two_rules; spol None PermitOverrides two_rules].

Example C106_mirrored :
  policy_eval sE sctx (spol None DenyOverrides two_rules) = Ok Deny /\
  policy_eval sE sctx (mirror (spol None DenyOverrides two_rules)) = Ok Permit /\
  policy_eval sE sctx (spol None FirstApplicable two_rules) = Ok Permit /\
  policy_eval sE sctx (mirror (spol None FirstApplicable two_rules)) = Ok Deny.
Proof. vm_compute. auto. Qed.
Example C106_settled : settled sE sctx two_policies /\
  settled sE sctx (PPolicySet smeta None (Some PermitOverrides)
    [spol None PermitOverrides two_rules; spol None DenyOverrides two_rules]).
Proof.
  split.
  - apply settled_first. repeat constructor.
  - apply settled_set; repeat constructor; vm_compute; discriminate.
Qed.
Example C106_algorithms_differ :
  policy_eval sE sctx (spol None PermitOverrides two_rules) = Ok Permit /\
  policy_eval sE sctx (spol None DenyOverrides (rev two_rules)) = Ok Deny.
Proof. vm_compute. auto. Qed.
Example C106_no_conflict_case : forall r,
  In r [srule EffPermit (Some (stgt [] [] [[m_read]])) None; srule EffPermit None None] ->
  rule_eval sE sctx r = Ok Permit \/ rule_eval sE sctx r = Ok NotApplicable.
Proof. intros r [<-|[<-|[]]]; left; vm_compute; reflexivity. Qed.

Print Assumptions C106_policy.
Print Assumptions C106_set.
Print Assumptions C106_twice.
Print Assumptions C106_set_refuted.
Print Assumptions C106_permit_overrides.
Print Assumptions C106_deny_overrides.
Print Assumptions C106_between.
Print Assumptions C106_between_refuted.
Print Assumptions C106_set_permit.
Print Assumptions C106_set_deny.
Print Assumptions C106_no_conflict.
Print Assumptions C106_set_no_conflict.
