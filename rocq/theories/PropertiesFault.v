(** C66: faults of collaborators never grant access. *)
From Verif Require Import Eval EvalState SpecEval SpecState SpecFault Sample StateFacts FaultFacts.

(** Whatever faults occur, now or in earlier evaluations: a decision Permit is also
    the decision without faults. *)
Theorem C66_permit : forall S E calls c p w0 d,
  faulty_version S E -> w_cache w0 = [] ->
  policy_eval E c p = Ok d ->
  fst (policy_eval_s S c p (snd (run_evaluations S calls w0))) = Ok Permit -> d = Permit.
Proof.
  intros S E calls c p w0 d HS H0 Hd Hp.
  assert (Hw : wok S (snd (run_evaluations S calls w0)))
    by (apply run_evaluations_cache_ok; rewrite H0; apply cache_ok_nil).
  destruct (policy_safe S E HS c p _ Hw) as (_ & K & _). rewrite Hd, Hp in K.
  exact (proj1 (K d eq_refl) eq_refl).
Qed.

(** Likewise NotApplicable. *)
Theorem C66_not_applicable : forall S E calls c p w0 d,
  faulty_version S E -> w_cache w0 = [] ->
  policy_eval E c p = Ok d ->
  fst (policy_eval_s S c p (snd (run_evaluations S calls w0))) = Ok NotApplicable -> d = NotApplicable.
Proof.
  intros S E calls c p w0 d HS H0 Hd Hp.
  assert (Hw : wok S (snd (run_evaluations S calls w0)))
    by (apply run_evaluations_cache_ok; rewrite H0; apply cache_ok_nil).
  destruct (policy_safe S E HS c p _ Hw) as (_ & K & _). rewrite Hd, Hp in K.
  exact (proj2 (K d eq_refl) eq_refl).
Qed.

(** A policy, and a tree whose policy sets are first-applicable, decides as without
    faults or Indeterminate. *)
Theorem C66_same_or_indeterminate : forall S E calls c p w0 d d',
  faulty_version S E -> w_cache w0 = [] -> no_overriding_sets p ->
  policy_eval E c p = Ok d ->
  fst (policy_eval_s S c p (snd (run_evaluations S calls w0))) = Ok d' ->
  d' = d \/ d' = Indeterminate.
Proof.
  intros S E calls c p w0 d d' HS H0 Hn Hd Hp.
  assert (Hw : wok S (snd (run_evaluations S calls w0)))
    by (apply run_evaluations_cache_ok; rewrite H0; apply cache_ok_nil).
  destruct (no_sets_weaker S E HS c p Hn _ Hw) as (_ & K & _). rewrite Hd, Hp in K.
  exact (K d d' eq_refl eq_refl).
Qed.

(** No fault escapes: with collaborators that otherwise raise no worse than
    Exceptions there is a decision. *)
Theorem C66_decides : forall S E calls c p w0,
  faulty_version S E -> w_cache w0 = [] ->
  (forall e, collaborator_raises E e -> is_exception e = true) ->
  exists d, fst (policy_eval_s S c p (snd (run_evaluations S calls w0))) = Ok d.
Proof.
  intros S E calls c p w0 HS H0 HE.
  assert (Hw : wok S (snd (run_evaluations S calls w0)))
    by (apply run_evaluations_cache_ok; rewrite H0; apply cache_ok_nil).
  destruct (fst (policy_eval_s S c p (snd (run_evaluations S calls w0)))) as [d|e] eqn:He; [eauto|exfalso].
  destruct (policy_eval_s_result S c p _ e Hw He) as [Hx Hc].
  enough (is_exception e = true) by congruence.
  destruct HS as (_ & Hpip & Hxp & Hcu & Hco & _).
  destruct Hc as [(h & r & d & K)|[(r & q & K)|[(n & args & K)|(q & K)]]].
  - destruct (Hpip h r d) as [K'|(e' & He' & K')]; [|congruence]. apply HE. left. exists r, d. congruence.
  - destruct (Hxp r q) as [K'|(e' & He' & K')]; [|congruence]. apply HE. right. left. exists r, q. congruence.
  - destruct (Hcu n args) as [K'|(e' & He' & K')]; [|congruence].
    apply HE. right. right. left. exists n, args. congruence.
  - destruct (Hco q) as [K'|(e' & He' & K')]; [|congruence].
    apply HE. right. right. right. exists q. congruence.
Qed.

(** ** Cases *)

(** An attribute source that answers like the sample one but is down for the first
    two queries. *)
Definition sS_down : senv :=
  mkSenv sF STD_CLASS_MAP
    (fun h r d => if Nat.ltb (length h) 2 then Raise (EOther 8) else spip r d)
    (fun _ _ => Ok [NStr "a"; NStr "b"]).
Lemma sS_down_faulty : faulty_version sS_down sE.
Proof.
  split; [reflexivity|]. split.
  - intros h r d. cbn. destruct (length h) as [|[|n]]; cbn;
      [right; exists (EOther 8); auto|right; exists (EOther 8); auto|left; reflexivity].
  - repeat split; intros; left; reflexivity.
Qed.

Definition f_permit : rule := mkRule (Some "r") (Some EffPermit) (Some t_admin) None None.
Definition f_policy : policybase := spol None DenyOverrides [f_permit].
Definition f_context : context := CtxRequest sreq_pip.

(** The decision without faults, and while the source is down. *)
Example C66_case :
  policy_eval sE f_context f_policy = Ok Permit /\
  fst (run_evaluations sS_down
    [(f_policy, f_context); (f_policy, f_context); (f_policy, f_context)] (mkWorld [] [] [])) =
  [Ok Indeterminate; Ok Indeterminate; Ok Permit].
Proof. split; vm_compute; reflexivity. Qed.

(** In a policy set a fault can turn a Permit, or NotApplicable, into Deny. *)
Theorem C66_deny_refuted : exists S E c p p', faulty_version S E /\
  policy_eval E c p = Ok Permit /\ fst (policy_eval_s S c p (mkWorld [] [] [])) = Ok Deny /\
  policy_eval E c p' = Ok NotApplicable /\ fst (policy_eval_s S c p' (mkWorld [] [] [])) = Ok Deny.
Proof.
  exists sS_down, sE, f_context, (sset None DenyOverrides [f_policy]),
    (sset None DenyOverrides [spol (Some (stgt [[smatch (FnEqual StringAV) "nobody" (sdes DSubject "role" false)]] [] []))
       DenyOverrides [f_permit]]).
  split; [exact sS_down_faulty|]. repeat split; vm_compute; reflexivity.
Qed.

(** An attribute source that gives an empty answer instead of raising can turn Deny
    into Permit: hiding faults is not safe. *)
Theorem C66_hidden_fault_refuted : exists S E c p,
  (forall h r d, sn_pip S h r d = en_pip E r d \/ sn_pip S h r d = Ok (Some [])) /\
  sn_fenv S = en_fenv E /\ sn_classes S = en_classes E /\ sn_xpath S = en_xpath E /\
  policy_eval E c p = Ok Deny /\ fst (policy_eval_s S c p (mkWorld [] [] [])) = Ok Permit.
Proof.
  exists (mkSenv sF STD_CLASS_MAP (fun _ _ _ => Ok (Some [])) (en_xpath sE)), sE, f_context,
    (spol None DenyOverrides [mkRule (Some "d") (Some EffDeny) (Some t_admin) None None;
                              mkRule (Some "p") (Some EffPermit) None None None]).
  split; [intros; right; reflexivity|]. repeat split; vm_compute; reflexivity.
Qed.

Print Assumptions C66_permit.
Print Assumptions C66_not_applicable.
Print Assumptions C66_same_or_indeterminate.
Print Assumptions C66_decides.
Print Assumptions C66_deny_refuted.
Print Assumptions C66_hidden_fault_refuted.
