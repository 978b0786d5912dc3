(** Proofs about attribute retrieval, expressions and containment of faults. *)
From Verif Require Import Eval SpecEval EvalFacts EvalFacts2.
From Coq Require Import Lia Permutation.

(** ** Containment *)

Definition safe (E : env) {A} (x : res A) : Prop :=
  forall e, x = Raise e -> is_exception e = true \/ collaborator_raises E e.

Lemma safe_ok : forall E A (a : A), safe E (Ok a).
Proof. intros E A a e H; discriminate. Qed.

Lemma safe_exc : forall E A e, is_exception e = true -> safe E (@Raise A e).
Proof. intros E A e H e' H'. injection H' as <-. left; exact H. Qed.

Lemma safe_bind : forall E A B (x : res A) (f : A -> res B),
  safe E x -> (forall a, x = Ok a -> safe E (f a)) -> safe E (bind x f).
Proof.
  intros E A B x f Hx Hf e He. apply bind_raise in He.
  destruct He as [He|(a & Ha & He)]; [apply Hx; exact He|].
  eapply Hf; eauto.
Qed.

Lemma safe_mapM : forall E A B (f : A -> res B) l,
  (forall x, In x l -> safe E (f x)) -> safe E (mapM f l).
Proof.
  intros E A B f l H e He. apply mapM_raise in He.
  destruct He as (pre & x & post & ys & -> & Hx & _).
  apply (H x); [apply in_app_iff; right; left; reflexivity|exact Hx].
Qed.

Create HintDb safedb.
#[global] Hint Resolve safe_ok : safedb.
#[global] Hint Extern 1 (safe _ (Raise _)) => apply safe_exc; reflexivity : safedb.

Ltac safe_cases :=
  repeat match goal with
  | |- safe _ (bind _ _) => apply safe_bind; [|intros]
  | |- safe _ (match ?x with _ => _ end) => destruct x
  | |- safe _ (if ?x then _ else _) => destruct x
  end; auto with safedb.

Lemma native_isinstance_safe : forall E v t, safe E (native_isinstance v t).
Proof. intros E v []; simpl; auto with safedb. Qed.

Lemma av_set_value_safe : forall E v x, safe E (av_set_value v x).
Proof.
  intros. unfold av_set_value. apply safe_bind; [apply native_isinstance_safe|].
  intros [] _; auto with safedb.
Qed.

Lemma av_new_safe : forall E c x, safe E (av_new c x).
Proof. intros E c x. unfold av_new. destruct x; auto using av_set_value_safe with safedb. Qed.

Lemma av_eq_safe : forall E a b, safe E (av_eq a b).
Proof. intros. unfold av_eq, av_dunder_eq. safe_cases. Qed.

Lemma bag_extend_safe : forall E et bag items, safe E (bag_extend et bag items).
Proof.
  intros. unfold bag_extend. apply safe_bind.
  - apply safe_mapM. intros x _. unfold bag_check. safe_cases.
  - intros; auto with safedb.
Qed.

Lemma fn_eval_safe : forall E f args, safe E (fn_eval (en_fenv E) f args).
Proof.
  intros E f args. destruct f; simpl.
  - unfold and_eval. destruct args; auto with safedb.
    apply safe_bind; [|intros; auto with safedb].
    generalize (p :: args). intros l. induction l as [|x l IH]; simpl; auto with safedb.
    destruct (as_bool x); auto with safedb. apply safe_bind; auto with safedb.
  - unfold not_eval. safe_cases.
  - unfold round_eval. destruct args as [|[[]| | |] [|]]; auto with safedb;
      try (destruct f; auto with safedb); apply safe_exc; reflexivity.
  - unfold equal_eval. safe_cases.
  - unfold match_eval. safe_cases. apply av_eq_safe.
  - unfold bag_eval. apply safe_bind; [|intros; auto with safedb].
    generalize (@nil attrval). induction args as [|x l IH]; intros b; simpl; auto with safedb.
    destruct x; auto with safedb. destruct (av_isinstance a c); auto with safedb.
  - unfold one_and_only_eval. safe_cases.
  - unfold at_least_one_eval. safe_cases.
  - unfold regexp_eval. safe_cases. unfold regexp_values.
    destruct (av_value a); auto with safedb.
    destruct (fe_compile (en_fenv E) s) as [ex|] eqn:Hc.
    + intros e He. injection He as <-. right. right. right. right. eauto.
    + safe_cases.
  - unfold concat_eval. destruct args as [|x [|y rest]]; auto with safedb.
    destruct x; auto with safedb. destruct (av_isinstance a c); auto with safedb.
    apply safe_bind; [|intros; apply safe_bind; [|intros; apply safe_bind;
      [apply av_new_safe|intros; auto with safedb]]].
    + generalize (y :: rest). intros l. induction l as [|z l IH]; simpl; auto with safedb.
      destruct z; auto with safedb. destruct (av_isinstance a0 StringAV); auto with safedb.
      apply safe_bind; auto with safedb.
    + generalize (av_value a :: map av_value a0). intros l.
      induction l as [|z l IH]; simpl; auto with safedb.
      destruct z; auto with safedb. apply safe_bind; auto with safedb.
  - intros e He. right. right. right. left. eauto.
Qed.

Lemma collect_attrs_safe : forall E d et attrs bag, safe E (collect_attrs d et bag attrs).
Proof.
  induction attrs as [|a attrs IH]; intros bag; simpl; auto with safedb.
  destruct (attr_match d a); auto. apply safe_bind; [apply bag_extend_safe|auto].
Qed.

Lemma bag_contains_safe : forall E bag x, safe E (bag_contains bag x).
Proof.
  induction bag as [|i bag IH]; intros x; simpl; auto with safedb.
  destruct x; auto with safedb. apply safe_bind; [apply av_eq_safe|].
  intros [] _; auto with safedb.
Qed.

Lemma filter_new_safe : forall E bag vs, safe E (filter_new bag vs).
Proof.
  induction vs as [|v vs IH]; simpl; auto with safedb.
  apply safe_bind; [apply bag_contains_safe|]. intros b _.
  apply safe_bind; [exact IH|]. intros; auto with safedb.
Qed.

Lemma add_pip_values_safe : forall E et bag ans, safe E (add_pip_values et bag ans).
Proof.
  intros E et bag [vs|]; simpl; auto with safedb.
  apply safe_bind; [|intros; apply bag_extend_safe].
  destruct bag; auto using filter_new_safe with safedb.
Qed.

Lemma collect_subjects_safe : forall E r d et subs bag,
  safe E (collect_subjects E r d et bag subs).
Proof.
  induction subs as [|s subs IH]; intros bag; simpl; auto with safedb.
  apply safe_bind; [apply collect_attrs_safe|]. intros b1 _.
  apply safe_bind; [|auto].
  destruct (rq_ctxHandler r); auto with safedb.
  apply safe_bind; [|intros; apply add_pip_values_safe].
  intros e He. right. left. eauto.
Qed.

Lemma collect_resources_safe : forall E d et rs bag,
  safe E (collect_resources d et bag rs).
Proof.
  induction rs as [|s rs IH]; intros bag; simpl; auto with safedb.
  apply safe_bind; [apply collect_attrs_safe|]. auto.
Qed.

Lemma check_present_safe : forall E must et bag, safe E (check_present must et bag).
Proof. intros E [] et []; simpl; auto with safedb. Qed.

Lemma eval_designator_safe : forall E d c, safe E (eval_designator E d c).
Proof.
  intros E d [r|]; simpl; auto with safedb.
  apply safe_bind; [|intros; apply check_present_safe].
  destruct (dg_kind d).
  - apply collect_subjects_safe.
  - apply collect_resources_safe.
  - destruct (rq_action r); auto using collect_attrs_safe with safedb.
  - destruct (rq_environment r); auto using collect_attrs_safe with safedb.
Qed.

Lemma selector_loop_safe : forall E cls dt texts bag, safe E (selector_loop cls dt bag texts).
Proof.
  induction texts as [|t texts IH]; intros bag; cbn [selector_loop]; auto with safedb.
  apply safe_bind; [apply av_new_safe|intros].
  apply safe_bind; [apply av_set_value_safe|intros].
  apply safe_bind; [apply bag_extend_safe|auto].
Qed.

Lemma eval_selector_safe : forall E s c, safe E (eval_selector E s c).
Proof.
  intros E s [r|]; unfold eval_selector; auto with safedb.
  destruct (rq_selector r); auto with safedb.
  destruct (sl_dataType s); auto with safedb.
  destruct (class_for E (Some s0)); auto with safedb.
  apply safe_bind.
  - intros e He. right. right. left. eauto.
  - intros texts _. apply safe_bind; [apply selector_loop_safe|].
    intros; apply check_present_safe.
Qed.

Lemma eval_expr_safe : forall E c x, safe E (eval_expr E c x).
Proof.
  intros E c x. induction x as [fid f args IH|v|d|s] using expr_ind'.
  - simpl. apply safe_bind.
    + apply safe_mapM. rewrite Forall_forall in IH. exact IH.
    + intros vs _. destruct f; auto using fn_eval_safe with safedb.
  - apply safe_ok.
  - apply eval_designator_safe.
  - apply eval_selector_safe.
Qed.

Lemma eval_match_safe : forall E c m, safe E (eval_match E c m).
Proof.
  intros E c m. unfold eval_match. apply safe_bind.
  - destruct (mt_designator m); [apply eval_designator_safe|].
    destruct (mt_selector m); [apply eval_selector_safe|auto with safedb].
  - intros bag _. apply safe_bind; [|intros; auto with safedb].
    apply safe_mapM. intros v _. unfold match_fn_apply.
    destruct (mt_fn m); auto using fn_eval_safe with safedb.
Qed.

Lemma target_match_safe : forall E c t, safe E (target_match E c t).
Proof.
  intros E c t e He. apply target_match_raise in He.
  destruct He as (pre & m & post & _ & Hm & _). eapply eval_match_safe; eauto.
Qed.

Lemma rule_body_safe : forall E c r, safe E (rule_body E c r).
Proof.
  intros E c r. unfold rule_body. apply safe_bind.
  - destruct (rl_target r); auto using target_match_safe with safedb.
  - intros [] _; simpl; auto with safedb. apply safe_bind.
    + destruct (rl_condition r) as [[x|]|]; simpl; auto using eval_expr_safe with safedb.
    + intros st _. destruct (truthy st); auto with safedb.
      destruct (rl_effect r); auto with safedb.
Qed.

Lemma rule_eval_escape : forall E c r e,
  rule_eval E c r = Raise e -> is_exception e = false /\ collaborator_raises E e.
Proof.
  intros E c r e H. apply catch_exception_raise in H. destruct H as [H He].
  split; [exact He|]. destruct (rule_body_safe _ _ _ _ H); [congruence|assumption].
Qed.

Lemma combine_rules_raise : forall alg ev rules e,
  combine_rules alg ev rules = Raise e ->
  is_exception e = true \/ exists r, In r rules /\ ev r = Raise e.
Proof.
  intros alg ev rules e H. destruct alg; simpl in H.
  - revert H. generalize false at 1, false at 1, false at 1.
    induction rules as [|r rules IH]; intros a b c H; simpl in H.
    + destruct b, c, a; discriminate.
    + assert (IH' : forall a b c, rules_deny_overrides ev a b c rules = Raise e ->
                is_exception e = true \/ exists r0, In r0 (r :: rules) /\ ev r0 = Raise e).
      { intros a' b' c' H'. destruct (IH _ _ _ H') as [|(r' & Hr & He)]; auto.
        right; exists r'; split; [right|]; assumption. }
      destruct (ev r) as [d|e'] eqn:Hr; simpl in H.
      * destruct d; try discriminate; eauto.
        destruct (rl_effect r) as [[|]|]; eauto. injection H as <-; auto.
      * injection H as ->. right. exists r. split; [left; reflexivity|exact Hr].
  - revert H. generalize false at 1, false at 1, false at 1.
    induction rules as [|r rules IH]; intros a b c H; simpl in H.
    + destruct b, c, a; discriminate.
    + assert (IH' : forall a b c, rules_permit_overrides ev a b c rules = Raise e ->
                is_exception e = true \/ exists r0, In r0 (r :: rules) /\ ev r0 = Raise e).
      { intros a' b' c' H'. destruct (IH _ _ _ H') as [|(r' & Hr & He)]; auto.
        right; exists r'; split; [right|]; assumption. }
      destruct (ev r) as [d|e'] eqn:Hr; simpl in H.
      * destruct d; try discriminate; eauto.
        destruct (rl_effect r) as [[|]|]; eauto. injection H as <-; auto.
      * injection H as ->. right. exists r. split; [left; reflexivity|exact Hr].
  - induction rules as [|r rules IH]; simpl in H; [discriminate|].
    destruct (ev r) as [d|e'] eqn:Hr; simpl in H.
    + destruct d; try discriminate. destruct (IH H) as [|(r' & Hr' & He)]; auto.
      right; exists r'; split; [right|]; assumption.
    + injection H as ->. right. exists r. split; [left; reflexivity|exact Hr].
Qed.

Lemma combine_policies_raise : forall alg ev ps e,
  combine_policies alg ev ps = Raise e -> exists p, In p ps /\ ev p = Raise e.
Proof.
  intros alg ev ps e H. destruct alg; simpl in H.
  - revert H. generalize false. induction ps as [|p ps IH]; intros b H; simpl in H.
    + destruct b; discriminate.
    + destruct (ev p) as [d|e'] eqn:Hp; simpl in H.
      * destruct d; try discriminate; destruct (IH _ H) as (q & Hq & He);
          exists q; (split; [right|]; assumption).
      * injection H as ->. exists p. split; [left; reflexivity|exact Hp].
  - revert H. generalize false at 1, false at 1. induction ps as [|p ps IH]; intros a b H; simpl in H.
    + destruct b, a; discriminate.
    + destruct (ev p) as [d|e'] eqn:Hp; simpl in H.
      * destruct d; try discriminate; destruct (IH _ _ H) as (q & Hq & He);
          exists q; (split; [right|]; assumption).
      * injection H as ->. exists p. split; [left; reflexivity|exact Hp].
  - induction ps as [|p ps IH]; simpl in H; [discriminate|].
    destruct (ev p) as [d|e'] eqn:Hp; simpl in H.
    + destruct d; try discriminate. destruct (IH H) as (q & Hq & He).
      exists q; (split; [right|]; assumption).
    + injection H as ->. exists p. split; [left; reflexivity|exact Hp].
Qed.

Lemma with_target_safe : forall E c t k, safe E k -> safe E (with_target E c t k).
Proof.
  intros E c t k Hk. unfold with_target. apply safe_bind.
  - destruct t; auto using target_match_safe with safedb.
  - intros [] _; simpl; auto with safedb.
Qed.

Lemma policy_eval_escape : forall E c p e,
  policy_eval E c p = Raise e -> is_exception e = false /\ collaborator_raises E e.
Proof.
  intros E c p. induction p as [m t alg rules|m t alg ps IH] using policybase_ind'; intros e H.
  - simpl in H. apply catch_exception_raise in H. destruct H as [H He].
    split; [exact He|].
    assert (Hs : safe E (with_target E c t (match alg with
            | None => Raise EAttributeError
            | Some a => combine_rules a (rule_eval E c) rules end))).
    { apply with_target_safe. destruct alg as [a|]; auto with safedb.
      intros e' He'. apply combine_rules_raise in He'.
      destruct He' as [He'|(r & _ & Hr)]; [auto|right; eapply rule_eval_escape; eauto]. }
    destruct (Hs _ H); [congruence|assumption].
  - simpl in H. apply catch_exception_raise in H. destruct H as [H He].
    split; [exact He|].
    assert (Hs : safe E (with_target E c t (match alg with
            | None => Raise EAttributeError
            | Some a => combine_policies a (policy_eval E c) ps end))).
    { apply with_target_safe. destruct alg as [a|]; auto with safedb.
      intros e' He'. apply combine_policies_raise in He'.
      destruct He' as (p & Hp & Hpe). right.
      rewrite Forall_forall in IH. apply (IH p Hp); exact Hpe. }
    destruct (Hs _ H); [congruence|assumption].
Qed.

(** ** Expressions: big-step equivalence *)

Scheme evals_mut := Induction for evals Sort Prop
with evals_list_mut := Induction for evals_list Sort Prop.

Lemma evals_list_mapM : forall E c args vs,
  Forall (fun x => forall v, eval_expr E c x = Ok v <-> evals E c x v) args ->
  (mapM (eval_expr E c) args = Ok vs <-> evals_list E c args vs).
Proof.
  induction args as [|x xs IH]; intros vs Hall.
  - simpl. split; intros H; [injection H as <-; constructor|inversion H; reflexivity].
  - inversion Hall as [|? ? Hx Hxs]; subst. rewrite mapM_cons, bind_ok. split.
    + intros (v & Hv & H). apply bind_ok in H. destruct H as (ws & Hws & H).
      injection H as <-. constructor; [apply Hx; exact Hv|apply IH; assumption].
    + intros H. inversion H as [|? ? v ws Hv Hws]; subst.
      exists v. split; [apply Hx; exact Hv|]. apply bind_ok. exists ws.
      split; [apply IH; assumption|reflexivity].
Qed.

Lemma eval_expr_evals : forall E c x v, eval_expr E c x = Ok v <-> evals E c x v.
Proof.
  intros E c x. induction x as [fid f args IH|a|d|s] using expr_ind'; intros v.
  - simpl. rewrite bind_ok. split.
    + intros (vs & Hvs & H). destruct f as [f|]; [|discriminate].
      econstructor; [|exact H]. apply evals_list_mapM; assumption.
    + intros H. inversion H; subst. exists vs. split; [|assumption].
      apply evals_list_mapM; assumption.
  - simpl. split; intros H; [injection H as <-; constructor|inversion H; reflexivity].
  - simpl. split; intros H; [constructor; exact H|inversion H; assumption].
  - simpl. split; intros H; [constructor; exact H|inversion H; assumption].
Qed.

Lemma evals_list_iff : forall E c args vs,
  mapM (eval_expr E c) args = Ok vs <-> evals_list E c args vs.
Proof.
  intros. apply evals_list_mapM. apply Forall_forall. intros; apply eval_expr_evals.
Qed.

Lemma evals_list_Forall2 : forall E c args vs,
  evals_list E c args vs <-> Forall2 (fun a b => eval_expr E c a = Ok b) args vs.
Proof. intros. rewrite <- evals_list_iff. apply mapM_ok. Qed.

Lemma eval_expr_fails : forall E c x e, eval_expr E c x = Raise e <-> fails E c x e.
Proof.
  intros E c x. induction x as [fid f args IH|a|d|s] using expr_ind'; intros e.
  - simpl. rewrite bind_raise. split.
    + intros [H|(vs & Hvs & H)].
      * apply mapM_raise in H. destruct H as (pre & y & post & ys & -> & Hy & Hpre).
        eapply FlArg.
        -- apply evals_list_Forall2; exact Hpre.
        -- rewrite Forall_forall in IH. apply IH; [|exact Hy].
           apply in_app_iff; right; left; reflexivity.
      * apply evals_list_iff in Hvs. destruct f as [f|].
        -- eapply FlApply; eauto.
        -- injection H as <-. eapply FlNoFunction; eauto.
    + intros H. inversion H as [| |fid' f' pre y post ys e' Hpre Hy
                               |fid' f' args' vs e' Hvs Hf|fid' args' vs Hvs]; subst.
      * left. apply mapM_raise. exists pre, y, post, ys. split; [reflexivity|].
        split; [|apply evals_list_Forall2; exact Hpre].
        rewrite Forall_forall in IH. apply IH; [|exact Hy].
        apply in_app_iff; right; left; reflexivity.
      * right. exists vs. split; [apply evals_list_iff; exact Hvs|exact Hf].
      * right. exists vs. split; [apply evals_list_iff; exact Hvs|reflexivity].
  - simpl. split; intros H; [discriminate|inversion H].
  - simpl. split; intros H; [constructor; exact H|inversion H; assumption].
  - simpl. split; intros H; [constructor; exact H|inversion H; assumption].
Qed.

(** ** Attribute retrieval *)

Lemma ostr_eqb_eq : forall a b, ostr_eqb a b = true <-> a = b.
Proof.
  intros [a|] [b|]; unfold ostr_eqb, opt_eqb; split; try discriminate; try reflexivity.
  - intros H. apply String.eqb_eq in H. congruence.
  - intros H. injection H as ->. apply String.eqb_refl.
Qed.

Lemma attr_match_iff : forall d a, attr_match d a = true <-> asks_for d a.
Proof.
  intros d a. unfold attr_match, asks_for. rewrite !andb_true_iff, !ostr_eqb_eq.
  destruct (dg_issuer d) as [i|]; [rewrite ostr_eqb_eq|].
  - split.
    + intros [[H1 H2] H3]. auto.
    + intros (H1 & H2 & [H3|H3]); [discriminate|]. auto.
  - split; [intros [[H1 H2] _]; auto|intros (H1 & H2 & _); auto].
Qed.

Definition wanted (d : designator) (attrs : list attribute) : list attrval :=
  flat_map (fun a => if attr_match d a then typed_values d a else []) attrs.

Lemma selection_app : forall A (P : A -> Prop) l1 l1' l2 l2',
  selection P l1 l1' -> selection P l2 l2' -> selection P (l1 ++ l2) (l1' ++ l2').
Proof. induction 1; intros; simpl; [assumption|constructor; auto|constructor; auto]. Qed.

Lemma selection_functional : forall A (P : A -> Prop) l l1 l2,
  selection P l l1 -> selection P l l2 -> l1 = l2.
Proof.
  intros A P l l1 l2 H. revert l2. induction H; intros l2 H2; inversion H2; subst; try contradiction.
  - reflexivity.
  - f_equal. auto.
  - auto.
Qed.

Lemma selection_none : forall A (P : A -> Prop) l,
  (forall x, In x l -> ~ P x) -> selection P l [].
Proof.
  induction l as [|x l IH]; intros H; constructor; [apply H; left; reflexivity|].
  apply IH. intros y Hy; apply H; right; exact Hy.
Qed.

Lemma wanted_requested : forall d attrs, requested_values d attrs (wanted d attrs).
Proof.
  intros d. induction attrs as [|a attrs IH].
  - exists []. split; [constructor|reflexivity].
  - destruct IH as (ps & Hps & Heq).
    assert (Ha : exists qs, selection (fun p => asks_for_value d (fst p) (snd p))
                    (map (fun v => (a, v)) (at_values a)) qs /\
                    map snd qs = (if attr_match d a then typed_values d a else [])).
    { destruct (attr_match d a) eqn:Hm.
      - apply attr_match_iff in Hm. unfold typed_values.
        induction (at_values a) as [|v vs IHv]; [exists []; split; [constructor|reflexivity]|].
        destruct IHv as (qs & Hqs & Hq). cbn [filter map].
        destruct (ostr_eqb (Some (av_dataType v)) (dg_dataType d)) eqn:Ht.
        + exists ((a, v) :: qs). split.
          * constructor; [|exact Hqs]. split; [exact Hm|]. apply ostr_eqb_eq; exact Ht.
          * cbn [map snd]. rewrite Hq. reflexivity.
        + exists qs. split; [|exact Hq]. constructor; [|exact Hqs].
          intros [_ H]. simpl in H. apply ostr_eqb_eq in H. congruence.
      - exists []. split; [|reflexivity]. apply selection_none.
        intros [a' v] Hin [H _]. apply in_map_iff in Hin. destruct Hin as (v' & Hp & _).
        injection Hp as <- _. simpl in H. apply attr_match_iff in H. congruence. }
    destruct Ha as (qs & Hqs & Hq).
    exists (qs ++ ps). split.
    + unfold value_pairs. simpl. apply selection_app; assumption.
    + simpl. rewrite map_app, Hq, Heq. reflexivity.
Qed.

Lemma requested_functional : forall d attrs vs1 vs2,
  requested_values d attrs vs1 -> requested_values d attrs vs2 -> vs1 = vs2.
Proof.
  intros d attrs vs1 vs2 (p1 & H1 & ->) (p2 & H2 & ->).
  rewrite (selection_functional _ _ _ _ _ H1 H2). reflexivity.
Qed.

Lemma requested_wanted : forall d attrs vs,
  requested_values d attrs vs <-> vs = wanted d attrs.
Proof.
  intros d attrs vs. split; intros H.
  - eapply requested_functional; eauto using wanted_requested.
  - subst; apply wanted_requested.
Qed.

Lemma wanted_app : forall d l1 l2, wanted d (l1 ++ l2) = wanted d l1 ++ wanted d l2.
Proof. intros. unfold wanted. apply flat_map_app. Qed.

(** membership form *)
Lemma requested_in : forall d attrs vs v,
  requested_values d attrs vs ->
  (In v vs <-> exists a, In a attrs /\ In v (at_values a) /\ asks_for_value d a v).
Proof.
  intros d attrs vs v H. apply requested_wanted in H. subst vs. unfold wanted.
  rewrite in_flat_map. split.
  - intros (a & Ha & Hv). destruct (attr_match d a) eqn:Hm; [|contradiction].
    unfold typed_values in Hv. apply filter_In in Hv. destruct Hv as [Hv Ht].
    exists a. repeat split; auto; try (apply attr_match_iff in Hm; apply Hm).
    apply ostr_eqb_eq; exact Ht.
  - intros (a & Ha & Hv & Hm & Ht). exists a. split; [exact Ha|].
    apply attr_match_iff in Hm. rewrite Hm. apply filter_In. split; [exact Hv|].
    apply ostr_eqb_eq; exact Ht.
Qed.

Definition instances (et : option avclass) (vs : list attrval) : bool :=
  forallb (fun v => match et with Some c => av_isinstance v c | None => false end) vs.

Lemma bag_extend_attrs : forall et bag vs,
  bag_extend et bag (map PAttr vs) =
  if instances et vs then Ok (bag ++ vs) else Raise ETypeError.
Proof.
  intros et bag vs. unfold bag_extend.
  assert (H : mapM (bag_check et) (map PAttr vs) = if instances et vs then Ok vs else Raise ETypeError).
  { induction vs as [|v vs IH]; [reflexivity|]. simpl map. rewrite mapM_cons, IH.
    simpl. destruct et as [c|]; simpl; [|reflexivity].
    destruct (av_isinstance v c); simpl; [|reflexivity].
    fold (instances (Some c) vs). destruct (instances (Some c) vs); reflexivity. }
  rewrite H. destruct (instances et vs); reflexivity.
Qed.

Lemma instances_app : forall et l1 l2, instances et (l1 ++ l2) = instances et l1 && instances et l2.
Proof. intros. unfold instances. apply forallb_app. Qed.

Lemma collect_attrs_wanted : forall d et attrs bag,
  collect_attrs d et bag attrs =
  if instances et (wanted d attrs) then Ok (bag ++ wanted d attrs) else Raise ETypeError.
Proof.
  induction attrs as [|a attrs IH]; intros bag.
  - simpl. rewrite app_nil_r. reflexivity.
  - simpl collect_attrs. unfold wanted; simpl flat_map; fold (wanted d attrs).
    destruct (attr_match d a); [|apply IH].
    rewrite bag_extend_attrs, instances_app.
    destruct (instances et (typed_values d a)); simpl; [|reflexivity].
    rewrite IH, app_assoc. reflexivity.
Qed.

Lemma collect_subjects_wanted : forall E r d et subs bag,
  rq_ctxHandler r = None ->
  collect_subjects E r d et bag subs =
  let w := wanted d (concat (map sb_attributes subs)) in
  if instances et w then Ok (bag ++ w) else Raise ETypeError.
Proof.
  induction subs as [|s subs IH]; intros bag Hh.
  - simpl. rewrite app_nil_r. reflexivity.
  - simpl. rewrite collect_attrs_wanted, Hh, wanted_app, instances_app.
    destruct (instances et (wanted d (sb_attributes s))); simpl; [|reflexivity].
    rewrite IH by exact Hh. simpl. rewrite app_assoc. reflexivity.
Qed.

Lemma collect_resources_wanted : forall d et rs bag,
  collect_resources d et bag rs =
  let w := wanted d (concat (map rs_attributes rs)) in
  if instances et w then Ok (bag ++ w) else Raise ETypeError.
Proof.
  induction rs as [|s subs IH]; intros bag.
  - simpl. rewrite app_nil_r. reflexivity.
  - simpl. rewrite collect_attrs_wanted, wanted_app, instances_app.
    destruct (instances et (wanted d (rs_attributes s))); simpl; [|reflexivity].
    rewrite IH. simpl. rewrite app_assoc. reflexivity.
Qed.

Lemma instances_all_of_type : forall E dt vs,
  instances (class_for E dt) vs = true <-> all_of_type E dt vs.
Proof.
  intros E dt vs. unfold all_of_type, instances. rewrite forallb_forall. split.
  - intros H. destruct vs as [|v vs]; [left; reflexivity|right].
    destruct dt as [n|]; simpl in H.
    + destruct (dict_get n (en_classes E)) as [cls|] eqn:Hd.
      * exists n, cls. repeat split; auto.
      * specialize (H v (or_introl eq_refl)). discriminate.
    + specialize (H v (or_introl eq_refl)). discriminate.
  - intros [->|(n & cls & -> & Hd & H)] v Hv; [contradiction|].
    simpl. rewrite Hd. auto.
Qed.

Lemma eval_designator_plain : forall E d r attrs,
  (dg_kind d = DSubject -> rq_ctxHandler r = None) ->
  section_attributes (dg_kind d) r = Some attrs ->
  eval_designator E d (CtxRequest r) =
  if instances (class_for E (dg_dataType d)) (wanted d attrs)
  then check_present (dg_mustBePresent d) (class_for E (dg_dataType d)) (wanted d attrs)
  else Raise ETypeError.
Proof.
  intros E d r attrs Hh Hs. unfold eval_designator.
  destruct (dg_kind d) eqn:Hk; simpl in Hs.
  - injection Hs as <-. rewrite collect_subjects_wanted by auto. simpl.
    match goal with |- context[if ?b then _ else _] => destruct b end; reflexivity.
  - injection Hs as <-. rewrite collect_resources_wanted. simpl.
    match goal with |- context[if ?b then _ else _] => destruct b end; reflexivity.
  - rewrite Hs, collect_attrs_wanted.
    match goal with |- context[if ?b then _ else _] => destruct b end; reflexivity.
  - rewrite Hs, collect_attrs_wanted.
    match goal with |- context[if ?b then _ else _] => destruct b end; reflexivity.
Qed.

Lemma eval_designator_exact : forall E d r attrs vs,
  (dg_kind d = DSubject -> rq_ctxHandler r = None) ->
  section_attributes (dg_kind d) r = Some attrs ->
  requested_values d attrs vs ->
  (all_of_type E (dg_dataType d) vs ->
     (vs <> [] \/ dg_mustBePresent d = false) ->
     eval_designator E d (CtxRequest r) = Ok (PBag (class_for E (dg_dataType d)) vs)) /\
  (vs = [] -> dg_mustBePresent d = true ->
     eval_designator E d (CtxRequest r) = Raise EMissingAttributeError) /\
  (~ all_of_type E (dg_dataType d) vs ->
     eval_designator E d (CtxRequest r) = Raise ETypeError).
Proof.
  intros E d r attrs vs Hh Hs Hv. apply requested_wanted in Hv.
  rewrite (eval_designator_plain E d r attrs Hh Hs), <- Hv.
  rewrite <- instances_all_of_type. repeat split.
  - intros -> H. destruct vs as [|v vs]; simpl; [|reflexivity].
    destruct H as [H| ->]; [congruence|reflexivity].
  - intros -> ->. reflexivity.
  - intros H. destruct (instances (class_for E (dg_dataType d)) vs); [congruence|reflexivity].
Qed.

Lemma eval_designator_no_section : forall E d r,
  section_attributes (dg_kind d) r = None ->
  eval_designator E d (CtxRequest r) = Raise EAttributeError.
Proof.
  intros E d r H. unfold eval_designator. destruct (dg_kind d); simpl in H;
    try discriminate; rewrite H; reflexivity.
Qed.

(** Independence of the attribute source and of the other sections. *)
Lemma eval_designator_section_only : forall E1 E2 d r1 r2,
  dg_kind d <> DSubject ->
  en_classes E1 = en_classes E2 ->
  section_attributes (dg_kind d) r1 = section_attributes (dg_kind d) r2 ->
  eval_designator E1 d (CtxRequest r1) = eval_designator E2 d (CtxRequest r2).
Proof.
  intros E1 E2 d r1 r2 Hk Hc Hs.
  assert (Hcf : class_for E1 (dg_dataType d) = class_for E2 (dg_dataType d)).
  { unfold class_for. destruct (dg_dataType d); [rewrite Hc|]; reflexivity. }
  destruct (section_attributes (dg_kind d) r2) as [attrs|] eqn:H2.
  - rewrite (eval_designator_plain E1 d r1 attrs), (eval_designator_plain E2 d r2 attrs); auto;
      try contradiction.
    rewrite Hcf. reflexivity.
  - rewrite !eval_designator_no_section; auto.
Qed.

(** ** The attribute source *)

Lemma bag_extend_ok : forall et bag items bag',
  bag_extend et bag items = Ok bag' ->
  exists vs, items = map PAttr vs /\ bag' = bag ++ vs /\ instances et vs = true.
Proof.
  intros et bag items bag' H. unfold bag_extend in H. apply bind_ok in H.
  destruct H as (vs & Hvs & H). injection H as <-. apply mapM_ok in Hvs.
  exists vs. split; [|split; [reflexivity|]].
  - induction Hvs as [|x v xs vs Hx _ IH]; [reflexivity|]. simpl. rewrite IH.
    unfold bag_check in Hx. destruct et; [|discriminate]. destruct x; try discriminate.
    destruct (av_isinstance a0 a); [|discriminate]. injection Hx as ->. reflexivity.
  - induction Hvs as [|x v xs vs Hx _ IH]; [reflexivity|]. simpl. rewrite IH, andb_true_r.
    unfold bag_check in Hx. destruct et as [c|]; [|discriminate]. destruct x; try discriminate.
    destruct (av_isinstance a c) eqn:Ha; [|discriminate]. injection Hx as ->. exact Ha.
Qed.

Lemma filter_new_in : forall bag vs out x,
  filter_new bag vs = Ok out -> In x out -> In x vs.
Proof.
  induction vs as [|v vs IH]; intros out x H Hx; simpl in H.
  - injection H as <-. exact Hx.
  - apply bind_ok in H. destruct H as (b & Hb & H). apply bind_ok in H.
    destruct H as (o & Ho & H). injection H as <-. destruct b.
    + right; eapply IH; eauto.
    + destruct Hx as [->|Hx]; [left; reflexivity|right; eapply IH; eauto].
Qed.

Lemma add_pip_values_ok : forall et bag ans bag',
  add_pip_values et bag ans = Ok bag' ->
  exists vs, bag' = bag ++ vs /\ instances et vs = true /\
    forall v, In v vs -> exists l, ans = Some l /\ In (PAttr v) l.
Proof.
  intros et bag [l|] bag' H; simpl in H.
  - apply bind_ok in H. destruct H as (new & Hnew & H).
    apply bag_extend_ok in H. destruct H as (vs & -> & -> & Hi).
    exists vs. repeat split; auto. intros v Hv. exists l. split; [reflexivity|].
    assert (Hin : In (PAttr v) (map PAttr vs)) by (apply in_map; exact Hv).
    destruct bag.
    + injection Hnew as ->. exact Hin.
    + eapply filter_new_in; eauto.
  - injection H as <-. exists []. rewrite app_nil_r. repeat split; auto; contradiction.
Qed.

Lemma subseq_refl : forall A (l : list A), subseq l l.
Proof. induction l; constructor; auto. Qed.
Lemma subseq_nil : forall A (l : list A), subseq [] l.
Proof. induction l; constructor; auto. Qed.
Lemma subseq_app : forall A (l1 l1' l2 l2' : list A),
  subseq l1 l1' -> subseq l2 l2' -> subseq (l1 ++ l2) (l1' ++ l2').
Proof. induction 1; intros; simpl; [assumption|constructor; auto|constructor; auto]. Qed.

Lemma collect_subjects_pip : forall E r d et subs bag bag',
  collect_subjects E r d et bag subs = Ok bag' ->
  exists tail, bag' = bag ++ tail /\
    subseq (wanted d (concat (map sb_attributes subs))) tail /\
    instances et tail = true /\
    forall v, In v tail -> In v (wanted d (concat (map sb_attributes subs))) \/
      exists l, rq_ctxHandler r <> None /\ en_pip E r d = Ok (Some l) /\ In (PAttr v) l.
Proof.
  induction subs as [|s subs IH]; intros bag bag' H; simpl in H.
  - injection H as <-. exists []. rewrite app_nil_r. repeat split; try constructor; contradiction.
  - rewrite collect_attrs_wanted in H.
    destruct (instances et (wanted d (sb_attributes s))) eqn:Hi; [|discriminate].
    simpl in H. apply bind_ok in H. destruct H as (bag2 & Hp & H).
    assert (Hadd : exists vs, bag2 = (bag ++ wanted d (sb_attributes s)) ++ vs /\ instances et vs = true /\
       forall v, In v vs -> exists l, rq_ctxHandler r <> None /\ en_pip E r d = Ok (Some l) /\ In (PAttr v) l).
    { destruct (rq_ctxHandler r).
      - apply bind_ok in Hp. destruct Hp as (ans & Hans & Hp).
        apply add_pip_values_ok in Hp. destruct Hp as (vs & -> & Hvi & Hv).
        exists vs. repeat split; auto. intros v Hin. destruct (Hv v Hin) as (l & -> & Hl).
        exists l. repeat split; auto. discriminate.
      - injection Hp as <-. exists []. rewrite app_nil_r. repeat split; auto; contradiction. }
    destruct Hadd as (vs & -> & Hvi & Hv).
    apply IH in H. destruct H as (tail & -> & Hsub & Hti & Hin).
    exists (wanted d (sb_attributes s) ++ vs ++ tail).
    simpl concat. rewrite wanted_app. repeat split.
    + rewrite !app_assoc. reflexivity.
    + apply subseq_app; [apply subseq_refl|].
      change (wanted d (concat (map sb_attributes subs)))
        with ([] ++ wanted d (concat (map sb_attributes subs))).
      apply subseq_app; [apply subseq_nil|exact Hsub].
    + rewrite !instances_app, Hi, Hvi, Hti. reflexivity.
    + intros v Hv'. rewrite !in_app_iff in Hv'. rewrite in_app_iff.
      destruct Hv' as [Hv'|[Hv'|Hv']]; [tauto|right; auto|].
      destruct (Hin v Hv') as [?|?]; [tauto|right; assumption].
Qed.

Lemma check_present_ok : forall must et bag v,
  check_present must et bag = Ok v -> v = PBag et bag.
Proof. intros [] et [|b bag] v H; simpl in H; congruence. Qed.

Lemma check_present_nonempty : forall et bag v,
  check_present true et bag = Ok v -> bag <> [].
Proof. intros et [|b bag] v H; simpl in H; congruence. Qed.

Lemma eval_designator_ok_bag : forall E d c v,
  eval_designator E d c = Ok v ->
  exists bag, v = PBag (class_for E (dg_dataType d)) bag /\
    instances (class_for E (dg_dataType d)) bag = true /\
    (dg_mustBePresent d = true -> bag <> []).
Proof.
  intros E d [r|] v H; [|discriminate].
  destruct (dg_kind d) eqn:Hk.
  - unfold eval_designator in H. rewrite Hk in H. apply bind_ok in H.
    destruct H as (bag & Hb & H). exists bag.
    split; [eapply check_present_ok; eauto|].
    apply collect_subjects_pip in Hb. destruct Hb as (tail & -> & _ & Hi & _).
    split; [exact Hi|]. intros Hm. rewrite Hm in H. eapply check_present_nonempty; eauto.
  - rewrite (eval_designator_plain E d r (concat (map rs_attributes (rq_resources r)))) in H;
      rewrite ?Hk; auto; try discriminate.
    match type of H with context[if instances ?e ?w then _ else _] => destruct (instances e w) eqn:Hi end;
      [|discriminate].
    eexists. split; [eapply check_present_ok; eauto|]. split; [exact Hi|].
    intros Hm. rewrite Hm in H. eapply check_present_nonempty; eauto.
  - destruct (rq_action r) as [attrs|] eqn:Ha.
    + rewrite (eval_designator_plain E d r attrs) in H; rewrite ?Hk; auto; try discriminate.
      match type of H with context[if instances ?e ?w then _ else _] => destruct (instances e w) eqn:Hi end;
        [|discriminate].
      eexists. split; [eapply check_present_ok; eauto|]. split; [exact Hi|].
      intros Hm. rewrite Hm in H. eapply check_present_nonempty; eauto.
    + rewrite eval_designator_no_section in H; [discriminate|]. rewrite Hk. exact Ha.
  - destruct (rq_environment r) as [attrs|] eqn:Ha.
    + rewrite (eval_designator_plain E d r attrs) in H; rewrite ?Hk; auto; try discriminate.
      match type of H with context[if instances ?e ?w then _ else _] => destruct (instances e w) eqn:Hi end;
        [|discriminate].
      eexists. split; [eapply check_present_ok; eauto|]. split; [exact Hi|].
      intros Hm. rewrite Hm in H. eapply check_present_nonempty; eauto.
    + rewrite eval_designator_no_section in H; [discriminate|]. rewrite Hk. exact Ha.
Qed.

Lemma eval_designator_pip : forall E d r et bag vs,
  dg_kind d = DSubject ->
  eval_designator E d (CtxRequest r) = Ok (PBag et bag) ->
  requested_values d (concat (map sb_attributes (rq_subjects r))) vs ->
  subseq vs bag /\
  forall v, In v bag -> In v vs \/
    exists l, rq_ctxHandler r <> None /\ en_pip E r d = Ok (Some l) /\ In (PAttr v) l.
Proof.
  intros E d r et bag vs Hk H Hv. apply requested_wanted in Hv. subst vs.
  unfold eval_designator in H. rewrite Hk in H. apply bind_ok in H.
  destruct H as (bag' & Hb & H). apply check_present_ok in H. injection H as -> ->.
  apply collect_subjects_pip in Hb. destruct Hb as (tail & -> & Hs & _ & Hin). auto.
Qed.

(** MissingAttributeError *)
Lemma safe_no_missing_extend : forall et bag items,
  bag_extend et bag items <> Raise EMissingAttributeError.
Proof.
  intros et bag items H. unfold bag_extend in H. apply bind_raise in H.
  destruct H as [H|(a & _ & H)]; [|discriminate]. apply mapM_raise in H.
  destruct H as (pre & x & post & ys & _ & Hx & _). unfold bag_check in Hx.
  destruct et; [|discriminate]. destruct x; try discriminate.
  destruct (av_isinstance a0 a); discriminate.
Qed.

Lemma bag_contains_no_missing : forall bag x, bag_contains bag x <> Raise EMissingAttributeError.
Proof.
  induction bag as [|i bag IH]; intros x H; simpl in H; [discriminate|].
  destruct x; try discriminate. apply bind_raise in H. destruct H as [H|(b & _ & H)].
  - unfold av_eq, av_dunder_eq in H. repeat match type of H with context[if ?b then _ else _] => destruct b end;
      discriminate.
  - destruct b; [discriminate|]. eapply IH; eauto.
Qed.

Lemma filter_new_no_missing : forall bag vs, filter_new bag vs <> Raise EMissingAttributeError.
Proof.
  induction vs as [|v vs IH]; intros H; simpl in H; [discriminate|].
  apply bind_raise in H. destruct H as [H|(b & _ & H)]; [eapply bag_contains_no_missing; eauto|].
  apply bind_raise in H. destruct H as [H|(o & _ & H)]; [contradiction|discriminate].
Qed.

Lemma collect_subjects_no_missing : forall E r d et subs bag,
  en_pip E r d <> Raise EMissingAttributeError ->
  collect_subjects E r d et bag subs <> Raise EMissingAttributeError.
Proof.
  induction subs as [|s subs IH]; intros bag Hp H; simpl in H; [discriminate|].
  rewrite collect_attrs_wanted in H.
  destruct (instances et (wanted d (sb_attributes s))); [|discriminate]. simpl in H.
  apply bind_raise in H. destruct H as [H|(b & _ & H)]; [|eapply IH; eauto].
  destruct (rq_ctxHandler r); [|discriminate].
  apply bind_raise in H. destruct H as [H|(ans & _ & H)]; [contradiction|].
  destruct ans as [l|]; [|discriminate]. simpl in H.
  apply bind_raise in H. destruct H as [H|(new & _ & H)].
  - destruct (bag ++ wanted d (sb_attributes s)); [discriminate|].
    eapply filter_new_no_missing; eauto.
  - eapply safe_no_missing_extend; eauto.
Qed.

(** The attribute source supplies nothing for this designator. *)

Lemma collect_subjects_empty : forall E r d et subs,
  wanted d (concat (map sb_attributes subs)) = [] ->
  (rq_ctxHandler r = None \/ subs = [] \/ en_pip E r d = Ok None \/ en_pip E r d = Ok (Some [])) ->
  collect_subjects E r d et [] subs = Ok [].
Proof.
  induction subs as [|s subs IH]; intros Hw Hs; [reflexivity|]. simpl in Hw.
  rewrite wanted_app in Hw. apply app_eq_nil in Hw. destruct Hw as [Hw1 Hw2].
  simpl. rewrite collect_attrs_wanted, Hw1. simpl.
  assert (Hadd : (match rq_ctxHandler r with
                   | Some _ => let* answer := en_pip E r d in add_pip_values et [] answer
                   | None => Ok []
                   end) = Ok []).
  { destruct Hs as [->|[Hs|[->| ->]]]; try reflexivity; try discriminate;
      destruct (rq_ctxHandler r); reflexivity. }
  rewrite Hadd. simpl. apply IH; [exact Hw2|]. tauto || (destruct Hs as [?|[?|?]]; [tauto|discriminate|tauto]).
Qed.

Lemma collect_subjects_empty_inv : forall E r d et subs,
  collect_subjects E r d et [] subs = Ok [] ->
  wanted d (concat (map sb_attributes subs)) = [] /\
  (rq_ctxHandler r = None \/ subs = [] \/ en_pip E r d = Ok None \/ en_pip E r d = Ok (Some [])).
Proof.
  intros E r d et subs H. split.
  - apply collect_subjects_pip in H. destruct H as (tail & Heq & Hs & _).
    simpl in Heq. subst tail. inversion Hs. reflexivity.
  - destruct subs as [|s subs]; [tauto|]. simpl in H.
    rewrite collect_attrs_wanted in H.
    destruct (instances et (wanted d (sb_attributes s))); [|discriminate]. simpl in H.
    apply bind_ok in H. destruct H as (b & Hb & H).
    apply collect_subjects_pip in H. destruct H as (tail & Heq & _).
    symmetry in Heq. apply app_eq_nil in Heq. destruct Heq as [-> _].
    destruct (rq_ctxHandler r); [|tauto].
    apply bind_ok in Hb. destruct Hb as (ans & Hans & Hb). rewrite Hans.
    destruct ans as [l|]; [|tauto]. right. right. right. f_equal. f_equal.
    simpl in Hb. apply bind_ok in Hb. destruct Hb as (new & Hnew & Hb).
    apply bag_extend_ok in Hb. destruct Hb as (vs & -> & Heq & _).
    symmetry in Heq. apply app_eq_nil in Heq. destruct Heq as [Hw ->].
    rewrite Hw in Hnew. injection Hnew as ->. reflexivity.
Qed.

Lemma eval_designator_missing : forall E d r attrs vs,
  en_pip E r d <> Raise EMissingAttributeError ->
  section_attributes (dg_kind d) r = Some attrs ->
  requested_values d attrs vs ->
  (eval_designator E d (CtxRequest r) = Raise EMissingAttributeError <->
   dg_mustBePresent d = true /\ vs = [] /\
   (dg_kind d = DSubject -> source_silent E d r)).
Proof.
  intros E d r attrs vs Hp Hs Hv. apply requested_wanted in Hv. subst vs.
  destruct (dg_kind d) eqn:Hk.
  - unfold eval_designator. rewrite Hk. simpl in Hs. injection Hs as <-.
    rewrite bind_raise. split.
    + intros [H|(bag & Hb & H)]; [exfalso; eapply collect_subjects_no_missing; eauto|].
      destruct bag; [|discriminate]. simpl in H. destruct (dg_mustBePresent d); [|discriminate].
      apply collect_subjects_empty_inv in Hb. destruct Hb. repeat split; auto.
    + intros (Hm & Hw & Hss). right. exists []. split.
      * apply collect_subjects_empty; [exact Hw|apply Hss; reflexivity].
      * rewrite Hm. reflexivity.
  - rewrite (eval_designator_plain E d r attrs); rewrite ?Hk; auto; try discriminate.
    destruct (instances (class_for E (dg_dataType d)) (wanted d attrs)) eqn:Hi.
    + destruct (wanted d attrs), (dg_mustBePresent d); simpl; split; intros H;
        try discriminate; try reflexivity; repeat split; try discriminate;
        destruct H as (? & ? & _); discriminate.
    + split; [discriminate|]. intros (_ & Hw & _). rewrite Hw in Hi. discriminate.
  - rewrite (eval_designator_plain E d r attrs); rewrite ?Hk; auto; try discriminate.
    destruct (instances (class_for E (dg_dataType d)) (wanted d attrs)) eqn:Hi.
    + destruct (wanted d attrs), (dg_mustBePresent d); simpl; split; intros H;
        try discriminate; try reflexivity; repeat split; try discriminate;
        destruct H as (? & ? & _); discriminate.
    + split; [discriminate|]. intros (_ & Hw & _). rewrite Hw in Hi. discriminate.
  - rewrite (eval_designator_plain E d r attrs); rewrite ?Hk; auto; try discriminate.
    destruct (instances (class_for E (dg_dataType d)) (wanted d attrs)) eqn:Hi.
    + destruct (wanted d attrs), (dg_mustBePresent d); simpl; split; intros H;
        try discriminate; try reflexivity; repeat split; try discriminate;
        destruct H as (? & ? & _); discriminate.
    + split; [discriminate|]. intros (_ & Hw & _). rewrite Hw in Hi. discriminate.
Qed.

(** ** Selectors *)

Definition accepts (cls : avclass) (t : native) : bool :=
  match native_isinstance t (ac_type cls) with Ok true => true | _ => false end.

Lemma class_eqb_refl : forall c, class_eqb c c = true.
Proof. intros. unfold class_eqb. apply String.eqb_refl. Qed.

Lemma native_isinstance_type_error : forall t ty e,
  native_isinstance t ty = Raise e -> e = ETypeError.
Proof. intros t [] e H; simpl in H; congruence. Qed.

Lemma selector_loop_spec : forall cls dt texts bag,
  selector_loop cls dt bag texts =
  if forallb (accepts cls) texts then Ok (bag ++ map (mkAV cls dt) texts)
  else Raise ETypeError.
Proof.
  induction texts as [|t texts IH]; intros bag.
  - simpl. rewrite app_nil_r. reflexivity.
  - cbn [selector_loop av_new bind av_class av_value forallb map]. unfold av_set_value at 1.
    cbn [av_class av_dataType]. unfold accepts at 1.
    destruct (native_isinstance t (ac_type cls)) as [[]|e] eqn:Hi; simpl.
    + change [PAttr (mkAV cls dt t)] with (map PAttr [mkAV cls dt t]).
      rewrite bag_extend_attrs. cbn [instances forallb].
      unfold av_isinstance, issubclass. cbn [av_class]. rewrite class_eqb_refl. simpl.
      rewrite IH. destruct (forallb (accepts cls) texts); [|reflexivity].
      rewrite <- app_assoc. reflexivity.
    + reflexivity.
    + apply native_isinstance_type_error in Hi. subst. reflexivity.
Qed.

Lemma eval_selector_exact : forall E s r dt cls n texts,
  rq_selector r = Some n ->
  sl_dataType s = Some dt -> dict_get dt (en_classes E) = Some cls ->
  en_xpath E r (sl_path s) = Ok texts ->
  eval_selector E s (CtxRequest r) =
  if forallb (accepts cls) texts then
    check_present (match sl_mustBePresent s with Some b => b | None => false end)
      (Some cls) (map (mkAV cls dt) texts)
  else Raise ETypeError.
Proof.
  intros E s r dt cls n texts Hs Hd Hc Hx. unfold eval_selector. rewrite Hs, Hd. simpl.
  rewrite Hc, Hx. simpl. rewrite selector_loop_spec.
  destruct (forallb (accepts cls) texts); reflexivity.
Qed.

Lemma eval_selector_ok_inv : forall E s c v,
  eval_selector E s c = Ok v ->
  exists r n dt cls texts, c = CtxRequest r /\ rq_selector r = Some n /\
    sl_dataType s = Some dt /\ dict_get dt (en_classes E) = Some cls /\
    en_xpath E r (sl_path s) = Ok texts /\
    (forall t, In t texts -> native_isinstance t (ac_type cls) = Ok true) /\
    v = PBag (Some cls) (map (mkAV cls dt) texts) /\
    (sl_mustBePresent s = Some true -> texts <> []).
Proof.
  intros E s [r|] v H; [|discriminate]. unfold eval_selector in H.
  destruct (rq_selector r) as [n|] eqn:Hr; [|discriminate].
  destruct (sl_dataType s) as [dt|] eqn:Hd; [|discriminate]. simpl in H.
  destruct (dict_get dt (en_classes E)) as [cls|] eqn:Hc; [|discriminate].
  destruct (en_xpath E r (sl_path s)) as [texts|e] eqn:Hx; [|discriminate].
  simpl in H. rewrite selector_loop_spec in H.
  destruct (forallb (accepts cls) texts) eqn:Hf; [|discriminate]. simpl in H.
  exists r, n, dt, cls, texts. repeat split; auto.
  - intros t Ht. rewrite forallb_forall in Hf. specialize (Hf t Ht). unfold accepts in Hf.
    destruct (native_isinstance t (ac_type cls)) as [[]|]; try discriminate; reflexivity.
  - apply check_present_ok in H. exact H.
  - intros Hm ->. rewrite Hm in H. discriminate.
Qed.
