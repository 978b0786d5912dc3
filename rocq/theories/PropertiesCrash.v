(** C69: an evaluation that is interrupted at any point grants nothing, and leaves
    nothing behind. *)
From Verif Require Import Eval EvalState EvalCrash SpecEval SpecState SpecFault Sample StateFacts FaultFacts CrashFacts PropertiesFault.

(** Whatever is interrupted, now or in earlier evaluations, and whatever faults the
    collaborators have: a decision Permit is also the decision without. *)
Theorem C69_permit : forall S E calls w0 os w1 c p w2 d,
  faulty_version S E -> w_cache w0 = [] -> run_interrupted S calls w0 os w1 ->
  policy_eval E c p = Ok d ->
  policy_eval_c S c p w1 (Ok Permit) w2 -> d = Permit.
Proof.
  intros S E calls w0 os w1 c p w2 d HS H0 Hr Hd Hp.
  destruct (policy_safe_c S E HS c p _ _ _ (run_interrupted_ok S E HS _ _ _ _ H0 Hr) Hp) as [_ [[e K]|K]]; [discriminate|].
  exact (proj1 (K d ltac:(rewrite Hd; reflexivity)) eq_refl).
Qed.

(** Likewise NotApplicable. *)
Theorem C69_not_applicable : forall S E calls w0 os w1 c p w2 d,
  faulty_version S E -> w_cache w0 = [] -> run_interrupted S calls w0 os w1 ->
  policy_eval E c p = Ok d ->
  policy_eval_c S c p w1 (Ok NotApplicable) w2 -> d = NotApplicable.
Proof.
  intros S E calls w0 os w1 c p w2 d HS H0 Hr Hd Hp.
  destruct (policy_safe_c S E HS c p _ _ _ (run_interrupted_ok S E HS _ _ _ _ H0 Hr) Hp) as [_ [[e K]|K]]; [discriminate|].
  exact (proj2 (K d ltac:(rewrite Hd; reflexivity)) eq_refl).
Qed.

(** A policy, and a tree whose policy sets are first-applicable, decides as without
    interruptions or Indeterminate. *)
Theorem C69_same_or_indeterminate : forall S E calls w0 os w1 c p w2 d d',
  faulty_version S E -> w_cache w0 = [] -> run_interrupted S calls w0 os w1 ->
  no_overriding_sets p -> policy_eval E c p = Ok d ->
  policy_eval_c S c p w1 (Ok d') w2 -> d' = d \/ d' = Indeterminate.
Proof.
  intros S E calls w0 os w1 c p w2 d d' HS H0 Hr Hn Hd Hp.
  destruct (no_sets_weaker_c S E HS c p Hn _ _ _ (run_interrupted_ok S E HS _ _ _ _ H0 Hr) Hp) as [_ [[e K]|K]];
    [discriminate|].
  exact (K d d' ltac:(rewrite Hd; reflexivity) eq_refl).
Qed.

(** Interrupted evaluations leave no trace: later decisions are those of a process
    that was never interrupted. *)
Theorem C69_later : forall S calls w0 os w1 c p,
  history_independent S -> w_cache w0 = [] -> run_interrupted S calls w0 os w1 ->
  fst (policy_eval_s S c p w1) = policy_eval (env_of S []) c p.
Proof.
  intros S calls w0 os w1 c p HS H0 Hr.
  assert (Hf : faulty_version S (env_of S []))
    by (repeat split; intros; try (left; reflexivity); try (left; apply HS)).
  symmetry. exact (proj1 (proj2 (refines_policy S HS c p w1 (run_interrupted_ok S _ Hf _ _ _ _ H0 Hr)))).
Qed.

(** An evaluation that is not interrupted is one of the cases. *)
Theorem C69_uninterrupted : forall S c p w,
  policy_eval_c S c p w (fst (policy_eval_s S c p w)) (snd (policy_eval_s S c p w)).
Proof. intros S c p w. apply inc_policy. Qed.

(** ** Cases *)

(** RecursionError in the middle of the evaluation, KeyboardInterrupt, and
    RecursionError again in the handler. *)
Example C69_case :
  policy_eval sE f_context f_policy = Ok Permit /\
  (exists w, policy_eval_c sS_down f_context f_policy (mkWorld [] [] []) (Ok Indeterminate) w) /\
  (exists w, policy_eval_c sS_down f_context f_policy (mkWorld [] [] []) (Raise (EBase 1)) w) /\
  (exists w, policy_eval_c sS_down f_context f_policy (mkWorld [] [] []) (Raise ERecursionError) w).
Proof.
  assert (K : forall e, exists w, with_target_c sS_down f_context None
    (combine_rules_c DenyOverrides (rule_eval_c sS_down f_context) [f_permit]) (mkWorld [] [] []) (Raise e) w).
  { intros e. exists (mkWorld [] [] []). right. exists e. split; [|reflexivity].
    right. exists e. auto. }
  split; [vm_compute; reflexivity|]. split; [|split].
  - destruct (K ERecursionError) as [w H]. exists w. right. exists ERecursionError. split; [exact H|]. left. reflexivity.
  - destruct (K (EBase 1)) as [w H]. exists w. right. exists (EBase 1). split; [exact H|reflexivity].
  - destruct (K ERecursionError) as [w H]. exists w. right. exists ERecursionError. split; [exact H|].
    right. exists ERecursionError. reflexivity.
Qed.

(** Interruptions can turn Permit into Deny in a policy set. *)
Theorem C69_deny_refuted : exists S E c p w, faulty_version S E /\
  policy_eval E c p = Ok Permit /\ policy_eval_c S c p (mkWorld [] [] []) (Ok Deny) w.
Proof.
  exists (mkSenv sF STD_CLASS_MAP (fun _ => en_pip sE) (en_xpath sE)), sE, f_context,
    (sset None DenyOverrides [f_policy]), (mkWorld [] [] []).
  split; [repeat split; intros; left; reflexivity|]. split; [vm_compute; reflexivity|].
  left. exists Deny. split; [|reflexivity]. left. exists true, (mkWorld [] [] []). split; [left; auto|].
  left. exists Indeterminate, (mkWorld [] [] []). split; [|left; auto].
  right. exists ERecursionError. split; [|left; reflexivity].
  right. exists ERecursionError. split; [|reflexivity]. right. exists ERecursionError. auto.
Qed.

Print Assumptions C69_permit.
Print Assumptions C69_not_applicable.
Print Assumptions C69_same_or_indeterminate.
Print Assumptions C69_later.
Print Assumptions C69_uninterrupted.
Print Assumptions C69_deny_refuted.
