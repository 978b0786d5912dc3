(** C107: rules that always apply, and rules that cannot matter. *)
From Verif Require Import Eval SpecEval SpecStandard SpecMonotone SpecTighten SpecDefault Sample AlgebraFacts StandardFacts MonotoneFacts TightenFacts
  RewriteFacts DefaultFacts.

(** ** C107 *)

(** Under first-applicable nothing that stands after a rule that always applies has
    any effect, whatever errors it would meet. *)
Theorem C107_after : forall E c m t l1 r e l2,
  catch_all r e ->
  policy_eval E c (PPolicy m t (Some FirstApplicable) (l1 ++ r :: l2)) =
  policy_eval E c (PPolicy m t (Some FirstApplicable) (l1 ++ [r])).
Proof.
  intros E c m t l1 r e l2 H. apply policy_same_rules. intros a [= <-]. cbn [combine_rules].
  apply (first_stop _ _ _ _ (named e)); [exact (catch_all_eval E c r e H)|destruct e; discriminate].
Qed.

(** As the last rule it is the default: it decides exactly where the others would
    have left the request without a decision. *)
Theorem C107_default : forall E c m l r e,
  catch_all r e ->
  policy_eval E c (PPolicy m None (Some FirstApplicable) (l ++ [r])) =
  match policy_eval E c (PPolicy m None (Some FirstApplicable) l) with
  | Ok NotApplicable => Ok (named e)
  | other => other
  end.
Proof.
  intros E c m l r e H. cbn [policy_eval with_target bind negb combine_rules].
  rewrite (first_default _ l r (named e)); [|exact (catch_all_eval E c r e H)|destruct e; discriminate].
  destruct (rules_first_applicable (rule_eval E c) l) as [[]|x]; cbn [catch_exception]; try reflexivity.
  destruct (is_exception x); reflexivity.
Qed.

(** Under the algorithm that favours its effect, the rule decides alone, even
    though other rules meet errors. *)
Theorem C107_prevails : forall E c m a l1 r e l2,
  favours a e -> catch_all r e -> (forall x, In x l1 -> returns E c x) ->
  policy_eval E c (PPolicy m None (Some a) (l1 ++ r :: l2)) = Ok (named e).
Proof.
  intros E c m a l1 r e l2 [(-> & ->)|(-> & ->)] H F; cbn [policy_eval with_target bind negb combine_rules named].
  - rewrite deny_catch; [reflexivity|exact (catch_all_eval E c r _ H)|exact F].
  - rewrite permit_catch; [reflexivity|exact (catch_all_eval E c r _ H)|exact F].
Qed.

(** Permit as a default under deny-overrides: Deny where some rule denies, Permit
    where none denies and none could have, else Indeterminate. *)
Theorem C107_permit_unless : forall E c m l r,
  In r l -> catch_all r EffPermit -> (forall x, In x l -> returns E c x) ->
  let o := policy_eval E c (PPolicy m None (Some DenyOverrides) l) in
  (o = Ok Deny <-> exists x, In x l /\ rule_eval E c x = Ok Deny) /\
  (o = Ok Permit <-> forall x, In x l -> rule_eval E c x <> Ok Deny /\
     ~ (rl_effect x = Some EffDeny /\ rule_eval E c x = Ok Indeterminate)) /\
  (o = Ok Deny \/ o = Ok Permit \/ o = Ok Indeterminate).
Proof.
  intros E c m l r Hi H F.
  destruct (deny_default E c l false false false F) as (K1 & K2 & K3).
  { right. exists r. split; [exact Hi|exact (catch_all_eval E c r _ H)]. }
  cbn zeta. cbn [policy_eval with_target bind negb combine_rules].
  replace (catch_exception _) with (rules_deny_overrides (rule_eval E c) false false false l)
    by (destruct K3 as [-> |[-> | ->]]; reflexivity).
  split; [exact K1|]. split; [|exact K3]. rewrite K2. split; [intros (_ & K); exact K|auto].
Qed.

(** Deny as a default under permit-overrides. *)
Theorem C107_deny_unless : forall E c m l r,
  In r l -> catch_all r EffDeny -> (forall x, In x l -> returns E c x) ->
  let o := policy_eval E c (PPolicy m None (Some PermitOverrides) l) in
  (o = Ok Permit <-> exists x, In x l /\ rule_eval E c x = Ok Permit) /\
  (o = Ok Deny <-> forall x, In x l -> rule_eval E c x <> Ok Permit /\
     ~ (rl_effect x = Some EffPermit /\ rule_eval E c x = Ok Indeterminate)) /\
  (o = Ok Permit \/ o = Ok Deny \/ o = Ok Indeterminate).
Proof.
  intros E c m l r Hi H F.
  destruct (permit_default E c l false false false F) as (K1 & K2 & K3).
  { right. exists r. split; [exact Hi|exact (catch_all_eval E c r _ H)]. }
  cbn zeta. cbn [policy_eval with_target bind negb combine_rules].
  replace (catch_exception _) with (rules_permit_overrides (rule_eval E c) false false false l)
    by (destruct K3 as [-> |[-> | ->]]; reflexivity).
  split; [exact K1|]. split; [|exact K3]. rewrite K2. split; [intros (_ & K); exact K|auto].
Qed.

(** A rule that an earlier rule of the same effect covers may be dropped, under
    every algorithm, where no errors arise. *)
Theorem C107_covered : forall E c m t a l1 r l2 r' l3,
  without_errors E c (PPolicy m t a (l1 ++ r :: l2 ++ r' :: l3)) ->
  covers r r' -> rl_effect r' = rl_effect r ->
  policy_eval E c (PPolicy m t a (l1 ++ r :: l2 ++ r' :: l3)) =
  policy_eval E c (PPolicy m t a (l1 ++ r :: l2 ++ l3)).
Proof.
  intros E c m t a l1 r l2 r' l3 W C He. apply policy_same_rules. intros al _.
  assert (G : forall x, In x (l1 ++ r :: l2 ++ r' :: l3) -> good_rule E c x)
    by (intros x Hx; exact (clean_rule _ _ _ _ _ _ x W Hx)).
  assert (G1 : good_rule E c r) by (apply G; rewrite in_app_iff; right; left; reflexivity).
  assert (G2 : good_rule E c r')
    by (apply G; rewrite in_app_iff; right; right; rewrite in_app_iff; right; left; reflexivity).
  assert (exists e, rl_effect r = Some e) as (e & Ee).
  { destruct G1 as (_ & _ & N). destruct (rl_effect r) as [e|]; [eauto|congruence]. }
  replace (l1 ++ r :: l2 ++ r' :: l3) with ((l1 ++ r :: l2) ++ r' :: l3) by (rewrite <- app_assoc; reflexivity).
  replace (l1 ++ r :: l2 ++ l3) with ((l1 ++ r :: l2) ++ l3) by (rewrite <- app_assoc; reflexivity).
  destruct (covers_eval E c r r' e C G1 G2 Ee) as [N|V]; [exact (rules_skip _ al _ _ _ N)|].
  destruct (good_eval E c r' e G2 (eq_trans He Ee)) as [N|(V' & _)]; [exact (rules_skip _ al _ _ _ N)|].
  assert (A : rule_eval E c r' = rule_eval E c r) by (rewrite V, V'; destruct e; reflexivity).
  rewrite (rules_replace (rule_eval E c) al _ r' r) by (split; [exact He|exact A]).
  rewrite <- !app_assoc. exact (rules_dup (rule_eval E c) al l1 r l2 l3).
Qed.

(** Under deny-overrides and permit-overrides the rule that covers it may also
    stand later. *)
Theorem C107_covered_later : forall E c m t a l1 r l2 r' l3,
  a <> FirstApplicable ->
  without_errors E c (PPolicy m t (Some a) (l1 ++ r' :: l2 ++ r :: l3)) ->
  covers r r' -> rl_effect r' = rl_effect r ->
  policy_eval E c (PPolicy m t (Some a) (l1 ++ r' :: l2 ++ r :: l3)) =
  policy_eval E c (PPolicy m t (Some a) (l1 ++ l2 ++ r :: l3)).
Proof.
  intros E c m t a l1 r l2 r' l3 Na W C He. apply policy_same_rules. intros al [= <-].
  assert (G : forall x, In x (l1 ++ r' :: l2 ++ r :: l3) -> good_rule E c x)
    by (intros x Hx; exact (clean_rule _ _ _ _ _ _ x W Hx)).
  assert (G1 : good_rule E c r)
    by (apply G; rewrite in_app_iff; right; right; rewrite in_app_iff; right; left; reflexivity).
  assert (G2 : good_rule E c r') by (apply G; rewrite in_app_iff; right; left; reflexivity).
  assert (exists e, rl_effect r = Some e) as (e & Ee).
  { destruct G1 as (_ & _ & N). destruct (rl_effect r) as [e|]; [eauto|congruence]. }
  destruct (covers_eval E c r r' e C G1 G2 Ee) as [N|V]; [exact (rules_skip _ a _ _ _ N)|].
  destruct (good_eval E c r' e G2 (eq_trans He Ee)) as [N|(V' & _)]; [exact (rules_skip _ a _ _ _ N)|].
  apply (drop_overrides _ a l1 (l2 ++ r :: l3) r r' (named e) (decision_of_effect e) Na); [|rewrite !in_app_iff; cbn; auto|exact V|exact V'|].
  - intros x Hx. apply good_plain, G, Hx.
  - left. destruct e; reflexivity.
Qed.

(** A rule of either effect may be dropped if a rule covers it whose effect
    prevails. *)
Theorem C107_overridden : forall E c m t a e l r' l' r,
  favours a e -> In r (l ++ l') -> rl_effect r = Some e -> covers r r' ->
  without_errors E c (PPolicy m t (Some a) (l ++ r' :: l')) ->
  policy_eval E c (PPolicy m t (Some a) (l ++ r' :: l')) =
  policy_eval E c (PPolicy m t (Some a) (l ++ l')).
Proof.
  intros E c m t a e l r' l' r Fa Hi Ee C W. apply policy_same_rules. intros al [= <-].
  assert (G : forall x, In x (l ++ r' :: l') -> good_rule E c x)
    by (intros x Hx; exact (clean_rule _ _ _ _ _ _ x W Hx)).
  assert (G1 : good_rule E c r) by (apply G; rewrite in_app_iff in *; cbn; tauto).
  assert (G2 : good_rule E c r') by (apply G; rewrite in_app_iff; right; left; reflexivity).
  destruct (covers_eval E c r r' e C G1 G2 Ee) as [N|V]; [exact (rules_skip _ a _ _ _ N)|].
  assert (exists d', rule_eval E c r' = Ok d') as (d' & V')
    by (destruct (good_plain E c r' G2) as [K|[K|K]]; eauto).
  apply (drop_overrides _ a l l' r r' (named e) d'); [|intros x Hx; apply good_plain, G, Hx|exact Hi|exact V|exact V'|].
  - destruct Fa as [(-> & _)|(-> & _)]; discriminate.
  - right. destruct Fa as [(-> & ->)|(-> & ->)]; auto.
Qed.

(** Under first-applicable so may a rule of either effect that an earlier one
    covers. *)
Theorem C107_shadowed : forall E c m t l1 r l2 r' l3,
  covers r r' ->
  without_errors E c (PPolicy m t (Some FirstApplicable) (l1 ++ r :: l2 ++ r' :: l3)) ->
  policy_eval E c (PPolicy m t (Some FirstApplicable) (l1 ++ r :: l2 ++ r' :: l3)) =
  policy_eval E c (PPolicy m t (Some FirstApplicable) (l1 ++ r :: l2 ++ l3)).
Proof.
  intros E c m t l1 r l2 r' l3 C W. apply policy_same_rules. intros al [= <-].
  assert (G : forall x, In x (l1 ++ r :: l2 ++ r' :: l3) -> good_rule E c x)
    by (intros x Hx; exact (clean_rule _ _ _ _ _ _ x W Hx)).
  assert (G1 : good_rule E c r) by (apply G; rewrite in_app_iff; right; left; reflexivity).
  assert (G2 : good_rule E c r')
    by (apply G; rewrite in_app_iff; right; right; rewrite in_app_iff; right; left; reflexivity).
  assert (exists e, rl_effect r = Some e) as (e & Ee).
  { destruct G1 as (_ & _ & N). destruct (rl_effect r) as [e|]; [eauto|congruence]. }
  destruct (covers_eval E c r r' e C G1 G2 Ee) as [N|V].
  - replace (l1 ++ r :: l2 ++ r' :: l3) with ((l1 ++ r :: l2) ++ r' :: l3) by (rewrite <- app_assoc; reflexivity).
    replace (l1 ++ r :: l2 ++ l3) with ((l1 ++ r :: l2) ++ l3) by (rewrite <- app_assoc; reflexivity).
    exact (rules_skip _ FirstApplicable _ _ _ N).
  - cbn [combine_rules].
    rewrite (first_stop _ l1 r (l2 ++ r' :: l3) (named e) V), (first_stop _ l1 r (l2 ++ l3) (named e) V);
      [reflexivity| |]; destruct e; discriminate.
Qed.

(** A set that takes the first policy that applies never looks beyond a policy that
    ends with a rule that always applies. *)
Theorem C107_set_after : forall E c ms t m l r e ps qs,
  catch_all r e ->
  let p := PPolicy m None (Some FirstApplicable) (l ++ [r]) in
  policy_eval E c (PPolicySet ms t (Some FirstApplicable) (ps ++ p :: qs)) =
  policy_eval E c (PPolicySet ms t (Some FirstApplicable) (ps ++ [p])).
Proof.
  intros E c ms t m l r e ps qs H p.
  assert (N : policy_eval E c p <> Ok NotApplicable).
  { unfold p. rewrite (C107_default E c m l r e H).
    destruct (policy_eval E c (PPolicy m None (Some FirstApplicable) l)) as [[]|]; try discriminate. destruct e; discriminate. }
  apply set_same_children. intros a [= <-]. cbn [combine_policies]. clearbody p.
  induction ps as [|q ps IH]; cbn [app policies_first_applicable]; fold (policies_first_applicable (policy_eval E c)).
  - destruct (policy_eval E c p) as [[]|]; cbn [bind]; try reflexivity. congruence.
  - rewrite IH. reflexivity.
Qed.

(** With errors a covered rule may matter: it may meet one where the rule that covers
    it does not apply. *)
Theorem C107_covered_refuted : exists E c m l r r',
  covers r r' /\ rl_effect r' = rl_effect r /\
  policy_eval E c (PPolicy m None (Some DenyOverrides) (l ++ [r; r'])) <>
  policy_eval E c (PPolicy m None (Some DenyOverrides) (l ++ [r])).
Proof.
  exists sE, sctx, smeta, [], (srule EffDeny (Some (stgt [] [[m_local]] [[smatch (FnEqual StringAV) "write" (sdes DAction "action" false)]])) None),
    (srule EffDeny (Some (stgt [[m_badre]] [[m_local]] [[smatch (FnEqual StringAV) "write" (sdes DAction "action" false)]])) None).
  split; [|split; [reflexivity|vm_compute; discriminate]].
  split; [|left; reflexivity]. cbn [rl_target srule narrower_target tg_subjects tg_resources tg_actions tg_environments stgt].
  split; [left; reflexivity|]. split; [right|split; [right|left; reflexivity]];
    (split; [discriminate|]; intros a9 [<-|[]]; eexists; split; [left; reflexivity|apply incl_refl]).
Qed.

(** Under first-applicable a rule may matter that a later one covers. *)
Theorem C107_covered_later_refuted : exists E c m l1 r l2 r',
  covers r r' /\ rl_effect r' = rl_effect r /\
  without_errors E c (PPolicy m None (Some FirstApplicable) (l1 ++ r' :: l2 ++ [r])) /\
  policy_eval E c (PPolicy m None (Some FirstApplicable) (l1 ++ r' :: l2 ++ [r])) <>
  policy_eval E c (PPolicy m None (Some FirstApplicable) (l1 ++ l2 ++ [r])).
Proof.
  exists sE, sctx, smeta, [], (srule EffPermit None None), [srule EffDeny None None], r_permit.
  split; [split; [exact I|left; reflexivity]|]. split; [reflexivity|].
  split; [apply clean_check_ok; vm_compute; reflexivity|vm_compute; discriminate].
Qed.

Definition deny_rest : rule := srule EffDeny None None.
Definition permit_rest : rule := srule EffPermit None None.
(** A default after rules that do and do not apply; a rule after it that would have
    failed; an error that a prevailing rule hides and one that a default does not. *)
Example C107_case :
  catch_all deny_rest EffDeny /\ catch_all permit_rest EffPermit /\
  policy_eval sE sctx (spol None FirstApplicable [r_na2]) = Ok NotApplicable /\
  policy_eval sE sctx (spol None FirstApplicable [r_na2; permit_rest; r_perr]) = Ok Permit /\
  policy_eval sE sctx (spol None FirstApplicable [r_permit; deny_rest]) = Ok Permit /\
  policy_eval sE sctx (spol None FirstApplicable [r_perr; deny_rest]) = Ok Indeterminate /\
  policy_eval sE sctx (spol None DenyOverrides [r_perr; r_derr; deny_rest; r_exit]) = Ok Deny /\
  policy_eval sE sctx (spol None DenyOverrides [r_perr; permit_rest]) = Ok Permit /\
  policy_eval sE sctx (spol None DenyOverrides [permit_rest; r_derr]) = Ok Indeterminate /\
  policy_eval sE sctx (spol None DenyOverrides [permit_rest; r_deny]) = Ok Deny /\
  policy_eval sE sctx (spol None PermitOverrides [deny_rest; r_derr]) = Ok Deny /\
  policy_eval sE sctx (spol None PermitOverrides [deny_rest; r_perr]) = Ok Indeterminate.
Proof. repeat split; vm_compute; reflexivity. Qed.
Example C107_returns_case : forall x, In x [r_perr; r_derr; permit_rest; r_deny] -> returns sE sctx x.
Proof.
  intros x [<-|[<-|[<-|[<-|[]]]]]; (split; [discriminate|eexists; vm_compute; reflexivity]).
Qed.
(** A rule that one with a wider target covers, among rules that meet no errors. *)
Example C107_covered_case :
  covers (srule EffDeny (Some t_staff) None) r_deny /\ covers deny_rest r_permit /\
  without_errors sE sctx (spol None DenyOverrides [permit_rest; srule EffDeny (Some t_staff) None; r_na; r_deny; r_permit]) /\
  policy_eval sE sctx (spol None DenyOverrides [permit_rest; srule EffDeny (Some t_staff) None; r_na; r_deny; r_permit]) = Ok Deny /\
  policy_eval sE sctx (spol None DenyOverrides [permit_rest; srule EffDeny (Some t_staff) None; r_na]) = Ok Deny.
Proof.
  split.
  - split; [|left; reflexivity]. cbn [rl_target srule r_deny narrower_target t_staff stgt tg_subjects tg_resources tg_actions tg_environments].
    repeat split; try (left; reflexivity);
      (right; split; [discriminate|]; intros a9 Ha; exists a9; split; [exact Ha|apply incl_refl]).
  - split; [split; [exact I|left; reflexivity]|].
    split; [apply clean_check_ok; vm_compute; reflexivity|split; vm_compute; reflexivity].
Qed.

Print Assumptions C107_after.
Print Assumptions C107_default.
Print Assumptions C107_prevails.
Print Assumptions C107_permit_unless.
Print Assumptions C107_deny_unless.
Print Assumptions C107_covered.
Print Assumptions C107_covered_later.
Print Assumptions C107_overridden.
Print Assumptions C107_shadowed.
Print Assumptions C107_set_after.
Print Assumptions C107_covered_refuted.
Print Assumptions C107_covered_later_refuted.
