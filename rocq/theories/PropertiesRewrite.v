(** C104: other ways of writing a policy decide alike. *)
From Verif Require Import Eval SpecEval SpecStandard SpecRewrite Sample AlgebraFacts StandardFacts MonotoneFacts TightenFacts RewriteFacts.

(** ** C104 *)

(** The alternatives of a section may be spread over two rules. *)
Theorem C104_alternatives : forall E c m t alg l1 r l2 k tg s1 s2,
  without_errors E c (PPolicy m t (Some alg) (l1 ++ r :: l2)) ->
  rl_target r = Some tg -> part_of k tg = s1 ++ s2 -> s1 <> [] -> s2 <> [] ->
  policy_eval E c (PPolicy m t (Some alg) (l1 ++ r :: l2)) =
  policy_eval E c (PPolicy m t (Some alg)
    (l1 ++ retarget (Some (with_part k s1 tg)) r :: retarget (Some (with_part k s2 tg)) r :: l2)).
Proof.
  intros E c m t alg l1 r l2 k tg s1 s2 Hw Ht Hk N1 N2. symmetry. apply policy_rules.
  destruct (rule_split E c r k tg s1 s2 (clean_rule _ _ _ _ _ _ _ Hw (in_elt r l1 l2)) Ht Hk N1 N2) as (F & X).
  exact (rules_merge _ alg l1 r _ l2 F X).
Qed.

(** Rules that differ in their conditions only may be written as one whose
    condition is their disjunction. *)
Theorem C104_conditions : forall E c m t alg l1 r xs l2, xs <> [] ->
  without_errors E c (PPolicy m t (Some alg) (l1 ++ map (fun x => recondition (Some (Some x)) r) xs ++ l2)) ->
  policy_eval E c (PPolicy m t (Some alg) (l1 ++ map (fun x => recondition (Some (Some x)) r) xs ++ l2)) =
  policy_eval E c (PPolicy m t (Some alg) (l1 ++ recondition (Some (Some (x_or xs))) r :: l2)).
Proof.
  intros E c m t alg l1 r xs l2 N Hw. apply policy_rules.
  assert (I : forall x, In x xs -> In (recondition (Some (Some x)) r)
    (l1 ++ map (fun x => recondition (Some (Some x)) r) xs ++ l2)).
  { intros x Hx. apply in_or_app. right. apply in_or_app. left. apply in_map_iff. eauto. }
  destruct (rule_or E c r xs) as (F & X).
  - destruct xs as [|x xs]; [congruence|].
    destruct (clean_rule _ _ _ _ _ _ _ Hw (I x (or_introl eq_refl))) as (T & _). exact T.
  - intros x Hx. destruct Hw as (_ & Hc & _). apply Hc. exists (recondition (Some (Some x)) r).
    split; [exact (I x Hx)|reflexivity].
  - exact (rules_merge _ alg l1 _ _ l2 F X).
Qed.

(** Or, and and not of booleans are what they are called. *)
Theorem C104_or : forall E c xs bs,
  Forall2 (fun x b => eval_expr E c x = Ok (PNat (NBool b))) xs bs ->
  exists b, eval_expr E c (x_or xs) = Ok (PNat (NBool b)) /\ (b = true <-> In true bs).
Proof.
  intros E c xs bs H. eexists. split; [exact (x_or_eval E c xs bs H)|].
  rewrite existsb_exists. split; [intros (b & Hb & ->); exact Hb|eauto].
Qed.
Theorem C104_nested_and : forall E c xs ys zs,
  (forall x, In x (xs ++ ys ++ zs) -> exists b, eval_expr E c x = Ok (PNat (NBool b))) ->
  eval_expr E c (x_and (xs ++ x_and ys :: zs)) = eval_expr E c (x_and (xs ++ ys ++ zs)).
Proof. exact nested_and. Qed.
Theorem C104_double_not : forall E c x b, eval_expr E c x = Ok (PNat (NBool b)) ->
  eval_expr E c (x_not (x_not x)) = eval_expr E c x.
Proof.
  intros E c x b H. rewrite (x_not_eval _ _ _ _ (x_not_eval _ _ _ _ H)), H. now destruct b.
Qed.

(** The target of a policy may be given to its rules instead.  Errors make no
    difference where the rules had no target. *)
Theorem C104_target_down : forall E c m t alg rules, rules <> [] ->
  (forall r, In r rules -> rl_target r = None /\ rl_effect r <> None) ->
  policy_eval E c (PPolicy m (Some t) (Some alg) rules) =
  policy_eval E c (PPolicy m None (Some alg) (map (retarget (Some t)) rules)).
Proof. exact target_down. Qed.
Theorem C104_target_joined : forall E c m t alg rules,
  without_errors E c (PPolicy m (Some t) (Some alg) rules) ->
  policy_eval E c (PPolicy m (Some t) (Some alg) rules) =
  policy_eval E c (PPolicy m None (Some alg) (map (also_for t) rules)).
Proof. exact target_joined. Qed.
Theorem C104_both_targets : forall E c t1 t2 b1 b2,
  target_match E c t1 = Ok b1 -> target_match E c t2 = Ok b2 ->
  target_match E c (both_targets t1 t2) = Ok (b1 && b2).
Proof. exact target_both. Qed.

(** That an attribute equals a value may be asked in the target or in the
    condition, also where errors arise. *)
Theorem C104_equal : forall E c m t alg l1 r l2 k v d s,
  av_isinstance v k = true -> class_for E (dg_dataType d) = Some k ->
  policy_eval E c (PPolicy m t (Some alg)
    (l1 ++ recondition None (retarget (Some (with_part s [[equal_match k v d]] (mkTarget [] [] [] []))) r) :: l2)) =
  policy_eval E c (PPolicy m t (Some alg)
    (l1 ++ recondition (Some (Some (equal_expr k v d))) (retarget None r) :: l2)).
Proof.
  intros E c m t alg l1 r l2 k v d s Hv Hk. apply policy_rules, rules_replace.
  split; [reflexivity|]. apply rule_equal; assumption.
Qed.

(** *** Examples *)
(** With an error in one alternative the two rules are not as good as one. *)
Theorem C104_alternatives_error_refuted : exists E c r k tg s1 s2,
  rl_target r = Some tg /\ part_of k tg = s1 ++ s2 /\ s1 <> [] /\ s2 <> [] /\
  policy_eval E c (spol None FirstApplicable [r]) = Ok Indeterminate /\
  policy_eval E c (spol None FirstApplicable
    [retarget (Some (with_part k s1 tg)) r; retarget (Some (with_part k s2 tg)) r]) = Ok Permit.
Proof.
  exists sE, sctx, (srule EffPermit (Some (stgt [] [] [[m_read]; [m_missing]])) None), Actions,
    (stgt [] [] [[m_read]; [m_missing]]), [[m_read]], [[m_missing]].
  repeat (split; [reflexivity || discriminate|]). split; vm_compute; reflexivity.
Qed.
(** Nor is the policy without rules the same with its target moved. *)
Theorem C104_target_down_no_rules_refuted : exists E c m t alg,
  policy_eval E c (PPolicy m (Some t) (Some alg) []) <>
  policy_eval E c (PPolicy m None (Some alg) (map (retarget (Some t)) [])).
Proof. exists sE, sctx, smeta, t_error, DenyOverrides. vm_compute. discriminate. Qed.

Example C104_alternatives_case :
  let r := srule EffPermit (Some t_staff) (Some x_read) in
  without_errors sE sctx (spol None DenyOverrides ([r_na] ++ r :: [r_na2])) /\
  part_of Subjects t_staff = [[m_staff]] ++ [[m_admin]] /\
  policy_eval sE sctx (spol None DenyOverrides ([r_na] ++ r :: [r_na2])) = Ok Permit /\
  rule_eval sE sctx (retarget (Some (with_part Subjects [[m_staff]] t_staff)) r) = Ok Permit /\
  rule_eval sE sctx (retarget (Some (with_part Subjects [[m_admin]] t_staff)) r) = Ok NotApplicable.
Proof.
  split; [apply clean_check_ok; vm_compute; reflexivity|]. split; [reflexivity|].
  repeat split; vm_compute; reflexivity.
Qed.
Example C104_conditions_case :
  let p := spol None PermitOverrides
    ([r_na] ++ map (fun x => recondition (Some (Some x)) r_deny) [x_false; x_read; x_false] ++ [r_na2]) in
  without_errors sE sctx p /\ policy_eval sE sctx p = Ok Deny /\
  eval_expr sE sctx (x_or [x_false; x_read; x_false]) = Ok (PNat (NBool true)) /\
  eval_expr sE sctx (x_or [x_false; x_false]) = Ok (PNat (NBool false)).
Proof.
  split; [apply clean_check_ok; vm_compute; reflexivity|]. repeat split; vm_compute; reflexivity.
Qed.
Example C104_target_case :
  without_errors sE sctx (spol (Some t_staff) FirstApplicable [r_na; r_permit]) /\
  policy_eval sE sctx (spol (Some t_staff) FirstApplicable [r_na; r_permit]) = Ok Permit /\
  tg_subjects (both_targets t_staff t_staff) =
    [[m_staff; m_staff]; [m_staff; m_admin]; [m_admin; m_staff]; [m_admin; m_admin]] /\
  policy_eval sE sctx (spol (Some t_error) PermitOverrides [srule EffPermit None None]) = Ok Indeterminate /\
  policy_eval sE sctx (spol None PermitOverrides [srule EffPermit (Some t_error) None]) = Ok Indeterminate.
Proof.
  split; [apply clean_check_ok; vm_compute; reflexivity|]. repeat split; vm_compute; reflexivity.
Qed.
Example C104_equal_case :
  av_isinstance (sstr "staff") StringAV = true /\
  class_for sE (dg_dataType (sdes DSubject "role" false)) = Some StringAV /\
  eval_match sE sctx (equal_match StringAV (sstr "staff") (sdes DSubject "role" false)) = Ok true /\
  eval_expr sE sctx (equal_expr StringAV (sstr "staff") (sdes DSubject "role" false)) = Ok (PNat (NBool true)).
Proof. repeat split; vm_compute; reflexivity. Qed.

Print Assumptions C104_alternatives.
Print Assumptions C104_conditions.
Print Assumptions C104_or.
Print Assumptions C104_nested_and.
Print Assumptions C104_double_not.
Print Assumptions C104_target_down.
Print Assumptions C104_target_joined.
Print Assumptions C104_both_targets.
Print Assumptions C104_equal.
Print Assumptions C104_alternatives_error_refuted.
Print Assumptions C104_target_down_no_rules_refuted.
