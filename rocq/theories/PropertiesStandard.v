(** C94: agreement of decisions with the evaluation rules of XACML 2.0. *)
From Verif Require Import Eval SpecStandard Sample StandardFacts.

(** ** C94 *)

(** A policy that decides anything but Indeterminate decides what the standard
    prescribes. *)
Theorem C94_policy : forall E c m t alg rules d,
  boolean_valued E c (PPolicy m t alg rules) ->
  policy_eval E c (PPolicy m t alg rules) = Ok d -> d <> Indeterminate ->
  standard E c (PPolicy m t alg rules) = d.
Proof.
  intros E c m t alg rules d Hb H Hd.
  destruct (boolean_policy E c m t alg rules Hb) as (Ht & Hr).
  exact (policy_agrees E c m t alg rules d Ht Hr H Hd).
Qed.

(** Policies and policy sets of any depth grant only what the standard grants. *)
Theorem C94_grants : forall E c p, boolean_valued E c p ->
  policy_eval E c p = Ok Permit -> standard E c p = Permit.
Proof. intros E c p Hb H. now apply (half_holds E c p _ Hb H). Qed.

Theorem C94_not_applicable : forall E c p, boolean_valued E c p ->
  policy_eval E c p = Ok NotApplicable -> standard E c p = NotApplicable.
Proof. intros E c p Hb H. now apply (half_holds E c p _ Hb H). Qed.

(** Where no policy within is left Indeterminate, all decisions agree. *)
Theorem C94_decided : forall E c p d, boolean_valued E c p ->
  (forall q, In q (policies_within p) -> policy_eval E c q <> Ok Indeterminate) ->
  policy_eval E c p = Ok d -> standard E c p = d.
Proof. exact decided_exact. Qed.

(** Without errors both give the same decision, and a definite one. *)
Theorem C94_exact : forall E c p, without_errors E c p ->
  policy_eval E c p = Ok (standard E c p) /\ standard E c p <> Indeterminate.
Proof. exact clean_exact. Qed.

(** Policies whose match functions and conditions are predicates give booleans. *)
Theorem C94_predicates : forall E c p,
  (forall m, match_within m p -> exists f, mt_fn m = Some f /\ predicate f = true) ->
  (forall x, condition_within x p ->
     exists i f args, x = XApply i (Some f) args /\ predicate f = true) ->
  boolean_valued E c p.
Proof. exact predicates_boolean. Qed.

(** ** Where they differ *)

(** An alternative of the target in error, although another one holds. *)
Definition half_wrong : rule :=
  srule EffPermit (Some (stgt [[m_missing]; [m_staff]] [] [])) None.
(** A part in error, although another one excludes the request anyway. *)
Definition wrong_anyway : rule :=
  srule EffPermit (Some (stgt [[m_missing; m_admin]] [] [])) None.
(** boolean-one-and-only of the bag of the boolean false *)
Definition says_false : expr :=
  XApply None (Some (FnOneAndOnly BooleanAV))
    [XApply None (Some (FnBag BooleanAV))
       [XValue (mkAV BooleanAV (xs "boolean") (NBool false))]].

Definition p_half := spol None PermitOverrides [half_wrong].
Definition p_anyway := spol None PermitOverrides [wrong_anyway].

Lemma case_predicates : forall t, t = half_wrong \/ t = wrong_anyway ->
  boolean_valued sE sctx (spol None PermitOverrides [t]).
Proof.
  intros t Ht. apply C94_predicates.
  - intros m [(t' & [] & _)|(r & t' & [<-|[]] & Hr & Hm)].
    destruct Ht as [-> | ->]; injection Hr as <-;
      repeat (destruct Hm as [<-|Hm]; [exists (FnEqual StringAV); split; reflexivity|]);
      destruct Hm.
  - intros x (r & [<-|[]] & Hx). destruct Ht as [-> | ->]; discriminate.
Qed.

Lemma case_predicates_set : forall t, t = half_wrong \/ t = wrong_anyway ->
  boolean_valued sE sctx (sset None DenyOverrides [spol None PermitOverrides [t]]).
Proof.
  intros t Ht. destruct (case_predicates t Ht) as (Hc & Hm). split.
  - intros x v (r & Hr & Hx). apply Hc. exists r. split; auto.
  - intros m et vs v w [(t' & [] & _)|(r & t' & Hr & Hrest)]. apply Hm.
    right. exists r, t'. split; auto.
Qed.

(** Indeterminate is not always the standard's decision: the standard grants. *)
Theorem C94_indeterminate_refuted : exists E c p, boolean_valued E c p /\
  policy_eval E c p = Ok Indeterminate /\ standard E c p = Permit.
Proof.
  exists sE, sctx, p_half. split; [apply case_predicates; auto|].
  split; vm_compute; reflexivity.
Qed.

(** Nor is Deny, for policy sets: the standard grants, or finds the policies not
    applicable. *)
Theorem C94_deny_refuted :
  (exists E c p, boolean_valued E c p /\
     policy_eval E c p = Ok Deny /\ standard E c p = Permit) /\
  (exists E c p, boolean_valued E c p /\
     policy_eval E c p = Ok Deny /\ standard E c p = NotApplicable).
Proof.
  split.
  - exists sE, sctx, (sset None DenyOverrides [p_half]).
    split; [apply case_predicates_set; auto|]. split; vm_compute; reflexivity.
  - exists sE, sctx, (sset None DenyOverrides [p_anyway]).
    split; [apply case_predicates_set; auto|]. split; vm_compute; reflexivity.
Qed.

(** A condition that evaluates to an attribute value holding false grants,
    where the standard does not: the booleans of C94_grants are needed. *)
Theorem C94_grants_refuted : exists E c p,
  policy_eval E c p = Ok Permit /\ standard E c p = NotApplicable.
Proof.
  exists sE, sctx, (spol None DenyOverrides [srule EffPermit None (Some says_false)]).
  split; vm_compute; reflexivity.
Qed.

(** ** Cases *)

Definition p_case : policybase :=
  sset (Some t_staff) DenyOverrides
    [spol None FirstApplicable [r_na; r_permit]; spol (Some t_admin) PermitOverrides [r_deny];
     spol None DenyOverrides [r_perr; r_permit; r_na2]].

Example C94_case :
  boolean_valued sE sctx p_case /\
  policy_eval sE sctx p_case = Ok Permit /\ standard sE sctx p_case = Permit /\
  boolean_valued sE sctx (sset None FirstApplicable [p_case; p_half]) /\
  (forall q, In q (policies_within p_case) -> policy_eval sE sctx q <> Ok Indeterminate) /\
  rule_eval sE sctx r_perr = Ok Indeterminate /\ std_rule sE sctx r_perr = Indeterminate.
Proof.
  assert (P : forall p,
    Forall (fun m => exists f, mt_fn m = Some f /\ predicate f = true)
      (flat_map matches_of (own_targets p) ++
       flat_map (fun r => match rl_target r with Some t => matches_of t | None => [] end)
         (rules_within p)) ->
    Forall (fun r => match rl_condition r with
                     | Some (Some x) => exists i f args, x = XApply i (Some f) args /\ predicate f = true
                     | _ => True end) (rules_within p) ->
    boolean_valued sE sctx p).
  { intros p Hm Hc. rewrite Forall_forall in Hm, Hc. apply C94_predicates.
    - intros m Hw. apply Hm. apply in_or_app.
      destruct Hw as [(t & Ht & Hi)|(r & t & Hr & Ht & Hi)].
      + left. apply in_flat_map. eauto.
      + right. apply in_flat_map. exists r. rewrite Ht. auto.
    - intros x (r & Hr & Hx). specialize (Hc r Hr). rewrite Hx in Hc. exact Hc. }
  split; [apply P|split; [vm_compute; reflexivity|split; [vm_compute; reflexivity|
    split; [apply P|split; [|split; vm_compute; reflexivity]]]]].
  - repeat (apply Forall_cons; [eexists; split; reflexivity|]). apply Forall_nil.
  - repeat (apply Forall_cons; [first [exact I|do 3 eexists; split; reflexivity]|]). apply Forall_nil.
  - repeat (apply Forall_cons; [eexists; split; reflexivity|]). apply Forall_nil.
  - repeat (apply Forall_cons; [first [exact I|do 3 eexists; split; reflexivity]|]). apply Forall_nil.
  - intros q Hq. repeat (destruct Hq as [<-|Hq]; [vm_compute; discriminate|]). destruct Hq.
Qed.

(** Without errors, with decisions of three kinds. *)
Definition p_clean (alg : comb_alg) : policybase :=
  sset (Some t_staff) alg
    [spol (Some t_admin) DenyOverrides [r_permit]; spol None PermitOverrides [r_na2; r_permit];
     spol None DenyOverrides [r_permit; r_deny]].

Example C94_exact_case : forall alg,
  without_errors sE sctx (p_clean alg) /\
  standard sE sctx (p_clean alg) =
    match alg with DenyOverrides => Deny | _ => Permit end.
Proof.
  intros alg. split; [|destruct alg; vm_compute; reflexivity].
  split; [|split; [|split]].
  - assert (M : forall m, match_within m (p_clean alg) -> In m [m_staff; m_admin; m_local; m_read]).
    { intros m [(t & Ht & Hi)|(r & t & Hr & Ht & Hi)].
      - cbn in Ht. destruct Ht as [<-|[<-|[]]]; cbn in Hi |- *; tauto.
      - cbn in Hr. destruct Hr as [<-|[<-|[<-|[<-|[<-|[]]]]]]; injection Ht as <-;
          cbn in Hi |- *; tauto. }
    intros m Hm. apply M in Hm. clear M.
    assert (B : forall m,
      match retrieved sE sctx m with
      | Ok (PBag _ vs) => forallb (fun v => match application sE m v with
                                            | Ok (PNat (NBool _)) => true | _ => false end) vs
      | _ => false end = true ->
      exists et vs, retrieved sE sctx m = Ok (PBag et vs) /\
        forall v, In v vs -> exists b, application sE m v = Ok (PNat (NBool b))).
    { clear. intros m H. destruct (retrieved sE sctx m) as [[| |et vs|]|]; try discriminate.
      exists et, vs. split; auto. intros v Hv. rewrite forallb_forall in H. specialize (H v Hv).
      destruct (application sE m v) as [[[]| | |]|]; try discriminate. eauto. }
    apply B. repeat (destruct Hm as [<-|Hm]; [vm_compute; reflexivity|]). destruct Hm.
  - intros x (r & Hr & Hx). cbn in Hr.
    destruct Hr as [<-|[<-|[<-|[<-|[<-|[]]]]]]; injection Hx as <-; eexists; vm_compute; reflexivity.
  - intros r Hr. cbn in Hr.
    destruct Hr as [<-|[<-|[<-|[<-|[<-|[]]]]]]; split; discriminate.
  - cbn. intuition discriminate.
Qed.

Print Assumptions C94_policy.
Print Assumptions C94_grants.
Print Assumptions C94_not_applicable.
Print Assumptions C94_decided.
Print Assumptions C94_exact.
Print Assumptions C94_predicates.
Print Assumptions C94_indeterminate_refuted.
Print Assumptions C94_deny_refuted.
Print Assumptions C94_grants_refuted.
