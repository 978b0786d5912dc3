(** C70: the log level does not decide. *)
From Verif Require Import Eval EvalState EvalCrash EvalDebug SpecEval SpecState SpecFault SpecRelate SpecDebug Sample StateFacts FaultFacts CrashFacts DebugFacts.

(** With debug logging every evaluation has the same outcome and the same effects if
    the match functions of the tree return values that can be compared with True. *)
Theorem C70_same : forall S O c p w,
  (forall m f, tree_match p m -> mt_fn m = Some f -> comparable_results S O f) ->
  policy_eval_d S O c p w = policy_eval_s S c p w.
Proof. intros S O c p w H. apply eqv_policy. intros m Hm f Hf. exact (H m f Hm Hf). Qed.

(** In particular if they are the ones that return truth values. *)
Theorem C70_truth_functions : forall S O c p w,
  (forall m f, tree_match p m -> mt_fn m = Some f -> truth_function f) ->
  policy_eval_d S O c p w = policy_eval_s S c p w.
Proof. intros S O c p w H. apply C70_same. intros m f Hm Hf. apply truth_comparable. eauto. Qed.

(** For all trees: Permit with debug logging is also the decision without, *)
Theorem C70_permit : forall S O c p w d,
  history_independent S -> cache_ok (sn_fenv S) (w_cache w) ->
  fst (policy_eval_s S c p w) = Ok d ->
  fst (policy_eval_d S O c p w) = Ok Permit -> d = Permit.
Proof.
  intros S O c p w d HS Hw Hd Hp.
  assert (Hf : faulty_version S (env_of S []))
    by (repeat split; intros; try (left; reflexivity); try (left; apply HS)).
  pose proof (inc_policy_d S O c p w) as H. rewrite Hp in H.
  destruct (policy_safe_c S _ Hf c p _ _ _ Hw H) as [_ [[e K]|K]]; [discriminate|].
  rewrite <- (proj1 (proj2 (refines_policy S HS c p w Hw))) in Hd.
  exact (proj1 (K d ltac:(rewrite Hd; reflexivity)) eq_refl).
Qed.

(** NotApplicable likewise, *)
Theorem C70_not_applicable : forall S O c p w d,
  history_independent S -> cache_ok (sn_fenv S) (w_cache w) ->
  fst (policy_eval_s S c p w) = Ok d ->
  fst (policy_eval_d S O c p w) = Ok NotApplicable -> d = NotApplicable.
Proof.
  intros S O c p w d HS Hw Hd Hp.
  assert (Hf : faulty_version S (env_of S []))
    by (repeat split; intros; try (left; reflexivity); try (left; apply HS)).
  pose proof (inc_policy_d S O c p w) as H. rewrite Hp in H.
  destruct (policy_safe_c S _ Hf c p _ _ _ Hw H) as [_ [[e K]|K]]; [discriminate|].
  rewrite <- (proj1 (proj2 (refines_policy S HS c p w Hw))) in Hd.
  exact (proj2 (K d ltac:(rewrite Hd; reflexivity)) eq_refl).
Qed.

(** and policies, and trees whose sets are first-applicable, decide as without or
    Indeterminate. *)
Theorem C70_same_or_indeterminate : forall S O c p w d d',
  history_independent S -> cache_ok (sn_fenv S) (w_cache w) -> no_overriding_sets p ->
  fst (policy_eval_s S c p w) = Ok d ->
  fst (policy_eval_d S O c p w) = Ok d' -> d' = d \/ d' = Indeterminate.
Proof.
  intros S O c p w d d' HS Hw Hn Hd Hp.
  assert (Hf : faulty_version S (env_of S []))
    by (repeat split; intros; try (left; reflexivity); try (left; apply HS)).
  pose proof (inc_policy_d S O c p w) as H. rewrite Hp in H.
  destruct (no_sets_weaker_c S _ Hf c p Hn _ _ _ Hw H) as [_ [[e K]|K]]; [discriminate|].
  rewrite <- (proj1 (proj2 (refines_policy S HS c p w Hw))) in Hd.
  exact (K d d' ltac:(rewrite Hd; reflexivity) eq_refl).
Qed.

(** ** Cases *)

Definition dS : senv := mkSenv sF STD_CLASS_MAP (fun _ => spip) (fun _ _ => Ok []).
Definition d_rule (f : fn) : rule :=
  mkRule (Some "r") (Some EffPermit)
    (Some (stgt [[smatch f "alice" (sdes DSubject "role" false)]] [] [])) None None.
Definition d_policy (f : fn) : policybase := spol None DenyOverrides [d_rule f].

(** A policy whose match functions return truth values. *)
Lemma d_policy_matches : forall f m g, tree_match (d_policy f) m -> mt_fn m = Some g -> g = f.
Proof.
  intros f m g (t & [pm alg rules Hs|pm alg ch Hs|pm pt alg rules r Hs Hr Ht] & Hm) Hg.
  - inversion Hs.
  - inversion Hs.
  - inversion Hs; subst. destruct Hr as [<-|[]]. injection Ht as <-. destruct Hm as [<-|[]]. injection Hg as <-. reflexivity.
Qed.
Example C70_case : forall O w,
  policy_eval_d dS O (CtxRequest sreq_pip) (d_policy (FnEqual StringAV)) w =
  policy_eval_s dS (CtxRequest sreq_pip) (d_policy (FnEqual StringAV)) w.
Proof.
  intros O w. apply C70_truth_functions. intros m f Hm Hf. rewrite (d_policy_matches _ _ _ Hm Hf). exact I.
Qed.

(** Not for all functions: with string-concatenate as match function the policy
    permits, but is Indeterminate as soon as debug logging is switched on. *)
Theorem C70_any_function_refuted : exists S O c p w,
  history_independent S /\ cache_ok (sn_fenv S) (w_cache w) /\
  fst (policy_eval_s S c p w) = Ok Permit /\ fst (policy_eval_d S O c p w) = Ok Indeterminate.
Proof.
  exists dS, (fun _ => None), (CtxRequest sreq_pip), (d_policy (FnConcat StringAV)), (mkWorld [] [] []).
  split; [intros h r d; reflexivity|]. split; [apply cache_ok_nil|]. split; vm_compute; reflexivity.
Qed.

Print Assumptions C70_same.
Print Assumptions C70_truth_functions.
Print Assumptions C70_permit.
Print Assumptions C70_not_applicable.
Print Assumptions C70_same_or_indeterminate.
Print Assumptions C70_any_function_refuted.
