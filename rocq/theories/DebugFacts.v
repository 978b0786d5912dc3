(** Facts about evaluation with debug logging. *)
From Verif Require Import EvalState SpecEval EvalFacts EvalFacts2 EvalFacts3 EvalFacts4 SpecState StateFacts SpecFault FaultFacts EvalCrash CrashFacts EvalDebug SpecDebug SpecRelate RelateFacts.

Section Debug.
  Variable S : senv.
  Variable O : N -> option exn.

  (** ** Debug logging is one of the ways to be interrupted *)

  Lemma inc_match_d : forall c m, includes (eval_match_d S O c m) (eval_match_c S c m).
  Proof.
    intros c m. apply inc_bind.
    - destruct (mt_designator m); [apply inc_designator|]. destruct (mt_selector m); apply inc_elementary.
    - intros bag. apply inc_bind; [|intros; apply inc_elementary]. apply inc_mapM. intros v _ w.
      unfold match_fn_apply_d, match_fn_apply_s, match_fn_apply_c, bind_s.
      destruct (mt_fn m) as [f|]; [|apply inc_elementary]. unfold fn_eval_c, elementary.
      destruct (fn_eval_s S f _ w) as [[r|e] w1]; simpl; [|left; auto].
      destruct (compare_true O r); simpl; [right; eauto|left; auto].
  Qed.
  Lemma inc_target_d : forall c t, includes (target_match_d S O c t) (target_match_c S c t).
  Proof.
    intros c t. apply inc_bind; [|intros; apply inc_elementary]. apply inc_mapM. intros s _.
    unfold match_section_d, match_section_c. destruct s as [|ch s]; [apply inc_elementary|].
    generalize false. generalize (ch :: s). induction l as [|x l IH]; intros st; [apply inc_elementary|].
    apply inc_bind; [|intros; apply IH]. apply inc_bind; [|intros; apply inc_elementary].
    apply inc_mapM. intros; apply inc_match_d.
  Qed.
  Lemma inc_rule_d : forall c r, includes (rule_eval_d S O c r) (rule_eval_c S c r).
  Proof.
    intros c r. apply inc_catch, inc_bind.
    - destruct (rl_target r); [apply inc_target_d|apply inc_elementary].
    - intros []; [|apply inc_elementary]. apply inc_bind.
      + destruct (rl_condition r) as [[x|]|]; [apply inc_expr|apply inc_elementary..].
      + intros st. destruct (truthy st); [|apply inc_elementary]. destruct (rl_effect r); apply inc_elementary.
  Qed.
  Lemma inc_rules_d : forall c alg rules,
    includes (combine_rules_s alg (rule_eval_d S O c) rules) (combine_rules_c alg (rule_eval_c S c) rules).
  Proof.
    intros c [] rules; simpl.
    - generalize false at 1 4. generalize false at 1 3. generalize false.
      induction rules as [|r rules IH]; intros p b a.
      + simpl. destruct b, p, a; apply inc_elementary.
      + apply inc_bind; [apply inc_rule_d|]. intros []; try apply IH; try apply inc_elementary.
        destruct (rl_effect r) as [[|]|]; [apply IH..|apply inc_elementary].
    - generalize false at 1 4. generalize false at 1 3. generalize false.
      induction rules as [|r rules IH]; intros p b a.
      + simpl. destruct b, p, a; apply inc_elementary.
      + apply inc_bind; [apply inc_rule_d|]. intros []; try apply IH; try apply inc_elementary.
        destruct (rl_effect r) as [[|]|]; [apply IH..|apply inc_elementary].
    - induction rules as [|r rules IH]; [apply inc_elementary|].
      apply inc_bind; [apply inc_rule_d|]. intros []; try apply IH; apply inc_elementary.
  Qed.
  Lemma inc_policies_d : forall c alg ps, Forall (fun q => includes (policy_eval_d S O c q) (policy_eval_c S c q)) ps ->
    includes (combine_policies_s alg (policy_eval_d S O c) ps) (combine_policies_c alg (policy_eval_c S c) ps).
  Proof.
    intros c [] ps H; simpl.
    - generalize false. induction H as [|q ps Hq _ IH]; intros p; [destruct p; apply inc_elementary|].
      apply inc_bind; [exact Hq|]. intros []; try apply IH; apply inc_elementary.
    - generalize false at 2 4. generalize false. induction H as [|q ps Hq _ IH]; intros a b;
        [simpl; destruct a, b; apply inc_elementary|].
      apply inc_bind; [exact Hq|]. intros []; try apply IH; apply inc_elementary.
    - induction H as [|q ps Hq _ IH]; [apply inc_elementary|].
      apply inc_bind; [exact Hq|]. intros []; try apply IH; apply inc_elementary.
  Qed.
  Lemma inc_policy_d : forall c p, includes (policy_eval_d S O c p) (policy_eval_c S c p).
  Proof.
    intros c p. induction p as [m t alg rules|m t alg ps IH] using policybase_ind'; simpl; apply inc_catch, inc_bind.
    - destruct t; [apply inc_target_d|apply inc_elementary].
    - intros []; [|apply inc_elementary]. destruct alg; [apply inc_rules_d|apply inc_elementary].
    - destruct t; [apply inc_target_d|apply inc_elementary].
    - intros []; [|apply inc_elementary]. destruct alg; [apply inc_policies_d, IH|apply inc_elementary].
  Qed.

  (** ** The same evaluation when all results can be compared *)

  Definition eqv {A} (x y : ST A) : Prop := forall w, x w = y w.
  Lemma eqv_refl : forall A (x : ST A), eqv x x.
  Proof. intros A x w. reflexivity. Qed.
  Lemma eqv_bind : forall A B (x y : ST A) (f g : A -> ST B),
    eqv x y -> (forall a, eqv (f a) (g a)) -> eqv (bind_s x f) (bind_s y g).
  Proof.
    intros A B x y f g H Hf w. unfold bind_s. rewrite H. destruct (y w) as [[a|e] w1]; [apply Hf|reflexivity].
  Qed.
  Lemma eqv_mapM : forall A B (f g : A -> ST B) l,
    (forall x, In x l -> eqv (f x) (g x)) -> eqv (mapM_s f l) (mapM_s g l).
  Proof.
    induction l as [|x l IH]; intros H; [apply eqv_refl|].
    apply eqv_bind; [apply H; left; reflexivity|]. intros y.
    apply eqv_bind; [apply IH; intros; apply H; right; assumption|]. intros; apply eqv_refl.
  Qed.
  Lemma eqv_catch : forall x y, eqv x y -> eqv (catch_exception_s x) (catch_exception_s y).
  Proof. intros x y H w. unfold catch_exception_s. rewrite H. reflexivity. Qed.

  Definition plain_match (m : matchel) : Prop := forall f, mt_fn m = Some f -> comparable_results S O f.

  Lemma eqv_match : forall c m, plain_match m -> eqv (eval_match_d S O c m) (eval_match_s S c m).
  Proof.
    intros c m H. apply eqv_bind; [apply eqv_refl|]. intros bag.
    apply eqv_bind; [|intros; apply eqv_refl]. apply eqv_mapM. intros v _ w.
    unfold match_fn_apply_d, match_fn_apply_s, bind_s.
    destruct (mt_fn m) as [f|] eqn:Hf; [|reflexivity].
    destruct (fn_eval_s S f _ w) as [[r|e] w1] eqn:Hr; [|reflexivity].
    rewrite (H f Hf _ _ _ _ Hr). reflexivity.
  Qed.
  Lemma eqv_section : forall c s, (forall ch m, In ch s -> In m ch -> plain_match m) ->
    eqv (match_section_d S O c s) (match_section_s S c s).
  Proof.
    intros c s H. unfold match_section_d, match_section_s. destruct s as [|ch s]; [apply eqv_refl|].
    generalize false. revert H. generalize (ch :: s). induction l as [|x l IH]; intros H st; [apply eqv_refl|].
    apply eqv_bind; [|intros; apply IH; intros; eapply H; [right|]; eassumption].
    apply eqv_bind; [|intros; apply eqv_refl]. apply eqv_mapM. intros m Hm. apply eqv_match.
    eapply H; [left; reflexivity|exact Hm].
  Qed.
  Lemma eqv_target : forall c t, (forall m, In m (target_matches t) -> plain_match m) ->
    eqv (target_match_d S O c t) (target_match_s S c t).
  Proof.
    intros c t H. apply eqv_bind; [|intros; apply eqv_refl]. apply eqv_mapM. intros s Hs.
    apply eqv_section. intros ch m Hch Hm. apply H. unfold target_matches. apply in_concat. exists ch.
    split; [|exact Hm]. rewrite !in_app_iff.
    destruct Hs as [<-|[<-|[<-|[<-|[]]]]]; auto.
  Qed.
  Definition plain_target (t : option target) : Prop :=
    forall t' m, t = Some t' -> In m (target_matches t') -> plain_match m.
  Lemma eqv_rule : forall c r, plain_target (rl_target r) -> eqv (rule_eval_d S O c r) (rule_eval_s S c r).
  Proof.
    intros c r H. apply eqv_catch, eqv_bind; [|intros; apply eqv_refl].
    destruct (rl_target r) as [t|] eqn:Ht; [|apply eqv_refl]. apply eqv_target. intros m Hm. exact (H t m eq_refl Hm).
  Qed.
  Lemma eqv_rules : forall c alg rules, (forall r, In r rules -> plain_target (rl_target r)) ->
    eqv (combine_rules_s alg (rule_eval_d S O c) rules) (combine_rules_s alg (rule_eval_s S c) rules).
  Proof.
    intros c [] rules H; simpl.
    - generalize false at 1 4. generalize false at 1 3. generalize false.
      induction rules as [|r rules IH]; intros p b a; [apply eqv_refl|].
      assert (IH' := IH (fun r H' => H r (or_intror H'))).
      apply eqv_bind; [apply eqv_rule, H; left; reflexivity|]. intros []; try apply IH'; try apply eqv_refl.
      destruct (rl_effect r) as [[|]|]; [apply IH'..|apply eqv_refl].
    - generalize false at 1 4. generalize false at 1 3. generalize false.
      induction rules as [|r rules IH]; intros p b a; [apply eqv_refl|].
      assert (IH' := IH (fun r H' => H r (or_intror H'))).
      apply eqv_bind; [apply eqv_rule, H; left; reflexivity|]. intros []; try apply IH'; try apply eqv_refl.
      destruct (rl_effect r) as [[|]|]; [apply IH'..|apply eqv_refl].
    - induction rules as [|r rules IH]; [apply eqv_refl|].
      assert (IH' := IH (fun r H' => H r (or_intror H'))).
      apply eqv_bind; [apply eqv_rule, H; left; reflexivity|]. intros []; try apply IH'; apply eqv_refl.
  Qed.
  Lemma eqv_policies : forall c alg ps, Forall (fun q => eqv (policy_eval_d S O c q) (policy_eval_s S c q)) ps ->
    eqv (combine_policies_s alg (policy_eval_d S O c) ps) (combine_policies_s alg (policy_eval_s S c) ps).
  Proof.
    intros c [] ps H; simpl.
    - generalize false. induction H as [|q ps Hq _ IH]; intros p; [apply eqv_refl|].
      apply eqv_bind; [exact Hq|]. intros []; try apply IH; apply eqv_refl.
    - generalize false at 2 4. generalize false. induction H as [|q ps Hq _ IH]; intros a b; [apply eqv_refl|].
      apply eqv_bind; [exact Hq|]. intros []; try apply IH; apply eqv_refl.
    - induction H as [|q ps Hq _ IH]; [apply eqv_refl|].
      apply eqv_bind; [exact Hq|]. intros []; try apply IH; apply eqv_refl.
  Qed.
  Lemma eqv_policy : forall c p, (forall m, tree_match p m -> plain_match m) ->
    eqv (policy_eval_d S O c p) (policy_eval_s S c p).
  Proof.
    intros c p. induction p as [m t alg rules|m t alg ps IH] using policybase_ind'; intros H; simpl;
      apply eqv_catch, eqv_bind.
    - destruct t as [t|]; [|apply eqv_refl]. apply eqv_target. intros x Hx. apply H.
      exists t. split; [eapply tt_policy, subtree_self|exact Hx].
    - intros []; [|apply eqv_refl]. destruct alg; [|apply eqv_refl]. apply eqv_rules.
      intros r Hr t' x Ht Hx. apply H. exists t'. split; [eapply tt_rule; [apply subtree_self|exact Hr|exact Ht]|exact Hx].
    - destruct t as [t|]; [|apply eqv_refl]. apply eqv_target. intros x Hx. apply H.
      exists t. split; [eapply tt_set, subtree_self|exact Hx].
    - intros []; [|apply eqv_refl]. destruct alg; [|apply eqv_refl]. apply eqv_policies.
      rewrite Forall_forall in *. intros q Hq. apply IH; [exact Hq|]. intros x Hx. apply H.
      eapply tree_match_up; eassumption.
  Qed.

  Lemma truth_comparable : forall f, truth_function f -> comparable_results S O f.
  Proof.
    intros f Hf args v w w' H.
    enough (exists b, v = py_bool b) as [b ->] by reflexivity.
    destruct f; try contradiction; unfold fn_eval_s in H; cbn [fn_eval] in H.
    - injection H as H _. destruct args as [|a args]; cbn [and_eval] in H.
      + injection H as <-. eauto.
      + destruct (and_check (a :: args)); [injection H as <-; eauto|discriminate].
    - injection H as H _. destruct args as [|a [|b args]]; cbn [not_eval] in H; try discriminate.
      destruct (as_bool a); [injection H as <-; eauto|discriminate].
    - injection H as H _. destruct args as [|[|a| |] [|[|b| |] [|z l]]]; cbn [equal_eval] in H; try discriminate;
        destruct (av_isinstance a c); try discriminate.
      destruct (av_isinstance b c); [|discriminate]. injection H as <-. eauto.
    - injection H as H _. destruct args as [|[|a| |] [|[|b| |] [|z l]]]; cbn [match_eval] in H; try discriminate;
        destruct (av_isinstance a c); try discriminate.
      destruct (av_isinstance b c); [|discriminate]. destruct (av_eq a b); [|discriminate]. injection H as <-. eauto.
    - injection H as H _. destruct args as [|[| |e1 l1|] [|[| |e2 l2|] [|z l]]]; cbn [at_least_one_eval] in H;
        try discriminate; destruct (opt_eqb class_eqb e1 (Some c)); try discriminate.
      destruct (opt_eqb class_eqb e2 (Some c)); [|discriminate]. injection H as <-. eauto.
    - destruct (regexp_eval_s (sn_fenv S) c args (w_cache w)) as [r k] eqn:Hr. injection H as -> _.
      unfold regexp_eval_s in Hr. destruct args as [|[|a| |] [|[|b| |] [|z l]]]; try discriminate;
        destruct (av_isinstance a c); try discriminate.
      destruct (av_isinstance b c); [|discriminate]. unfold regexp_values_s in Hr.
      destruct (av_value a); try discriminate.
      destruct (dict_get s (w_cache w)) as [cr|]; [|destruct (fe_compile (sn_fenv S) s); [discriminate|]];
        (destruct (av_value b); try discriminate; injection Hr as <- _; eauto).
  Qed.
End Debug.
