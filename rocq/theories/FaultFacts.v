(** Facts about evaluation with faults. *)
From Verif Require Import EvalState SpecEval EvalFacts EvalFacts2 EvalFacts3 EvalFacts4 SpecState StateFacts SpecFault.

Section Fault.
  Variable S : senv.
  Variable E : env.
  Hypothesis HS : faulty_version S E.

  (** The outcome of [x] is [r], or an Exception. *)
  Definition faults {A} (x : ST A) (r : res A) : Prop := sound S anyq x (or_fault r).

  Lemma faults_bind : forall A B (x : ST A) (f : A -> ST B) rx (g : A -> res B),
    faults x rx -> (forall a, rx = Ok a -> faults (f a) (g a)) -> faults (bind_s x f) (bind rx g).
  Proof.
    intros A B x f rx g Hx Hf. unfold faults in *. eapply sound_bind; [exact Hx| |].
    - intros e [<-|(e' & He & [= <-])]; [left; reflexivity|right; eauto].
    - intros a [<-|(e' & _ & K)]; [simpl; apply Hf; reflexivity|discriminate].
  Qed.
  Lemma faults_ret : forall A (a : A), faults (ret_s a) (Ok a).
  Proof. intros. apply sound_ret. left. reflexivity. Qed.
  Lemma faults_raise : forall A e, faults (@raise_s A e) (Raise e).
  Proof. intros. apply sound_raise. left. reflexivity. Qed.
  Lemma faults_lift : forall A (r : res A), faults (lift_s r) r.
  Proof. intros. apply sound_lift. left. reflexivity. Qed.
  Lemma faults_lift' : forall A (r r' : res A), or_fault r r' -> faults (lift_s r') r.
  Proof. intros. apply sound_lift. assumption. Qed.

  Lemma faults_mapM : forall A B (f : A -> ST B) (g : A -> res B) l,
    (forall x, In x l -> faults (f x) (g x)) -> faults (mapM_s f l) (mapM g l).
  Proof.
    induction l as [|x l IH]; intros H; [apply faults_ret|].
    simpl. apply faults_bind; [apply H; left; reflexivity|]. intros y _.
    apply faults_bind; [apply IH; intros; apply H; right; assumption|].
    intros ys _. apply faults_ret.
  Qed.

  Lemma fault_regexp : forall c args,
    or_fault (regexp_eval (en_fenv E) c args) (regexp_eval (sn_fenv S) c args).
  Proof.
    intros c args. destruct HS as (_ & _ & _ & _ & Hc & Hm).
    unfold regexp_eval. destruct args as [|[|a| |] [|[|b| |] [|z l]]]; try (left; reflexivity).
    destruct (av_isinstance a c); [|left; reflexivity]. destruct (av_isinstance b c); [|left; reflexivity].
    unfold regexp_values. destruct (av_value a); try (left; reflexivity).
    destruct (Hc s) as [->|(e & He & ->)]; [|right; eauto].
    destruct (fe_compile (en_fenv E) s); [left; reflexivity|].
    destruct (av_value b); try (left; reflexivity). left. rewrite Hm. reflexivity.
  Qed.

  Lemma faults_fn : forall f args, faults (fn_eval_s S f args) (fn_eval (en_fenv E) f args).
  Proof.
    intros f args w Hw. unfold fn_eval_s.
    assert (Hlog : exists new : list (request * designator),
      w_log w = w_log w ++ new /\ Forall anyq new)
      by (exists []; rewrite app_nil_r; auto).
    destruct f; simpl; try (refine (conj Hw (conj _ Hlog)); left; reflexivity).
    - destruct (regexp_eval_s_ok (sn_fenv S) c args (w_cache w) Hw) as [H1 H2].
      destruct (regexp_eval_s (sn_fenv S) c args (w_cache w)) as [r k]. simpl in *.
      refine (conj H2 (conj _ Hlog)). rewrite H1. apply fault_regexp.
    - refine (conj Hw (conj _ Hlog)). destruct HS as (_ & _ & _ & H & _). apply H.
  Qed.

  Lemma faults_pip : forall r d, faults (pip_query_s S r d) (en_pip E r d).
  Proof.
    intros r d w Hw. unfold pip_query_s. simpl. refine (conj Hw (conj _ _)).
    - destruct HS as (_ & H & _). apply H.
    - exists [(r, d)]. split; [reflexivity|]. repeat constructor.
  Qed.

  Lemma same_class : forall dt, sclass_for S dt = class_for E dt.
  Proof.
    intros dt. destruct HS as (H & _). unfold sclass_for, class_for. simpl. rewrite H. reflexivity.
  Qed.

  Lemma faults_subjects : forall r d et subs bag,
    faults (collect_subjects_s S r d et bag subs) (collect_subjects E r d et bag subs).
  Proof.
    induction subs as [|s subs IH]; intros bag; simpl; [apply faults_ret|].
    apply faults_bind; [apply faults_lift|]. intros bag1 _.
    apply faults_bind; [|auto].
    destruct (rq_ctxHandler r); [|apply faults_ret].
    apply (faults_bind _ _ _ _ (en_pip E r d)); [apply faults_pip|].
    intros ans _. apply faults_lift.
  Qed.

  Lemma faults_designator : forall d c, faults (eval_designator_s S d c) (eval_designator E d c).
  Proof.
    intros d [r|]; simpl; [|apply faults_raise]. rewrite same_class.
    apply faults_bind; [|intros; apply faults_lift].
    destruct (dg_kind d).
    - apply faults_subjects.
    - apply faults_lift.
    - destruct (rq_action r); [apply faults_lift|apply faults_raise].
    - destruct (rq_environment r); [apply faults_lift|apply faults_raise].
  Qed.

  Lemma faults_selector : forall s c, faults (eval_selector_s S s c) (eval_selector E s c).
  Proof.
    intros s c. apply faults_lift'. unfold eval_selector. destruct c as [r|]; [|left; reflexivity].
    destruct (rq_selector r); [|left; reflexivity]. destruct (sl_dataType s) as [dt|]; [|left; reflexivity].
    pose proof (same_class (Some dt)) as Hc. unfold sclass_for in Hc.
    assert (Hc' : class_for (env_of S []) (Some dt) = class_for E (Some dt)) by exact Hc.
    rewrite Hc'. destruct (class_for E (Some dt)) as [cls|]; [|left; reflexivity].
    destruct HS as (_ & _ & Hx & _). destruct (Hx r (sl_path s)) as [Hx'|(e & He & Hx')]; simpl; rewrite Hx'.
    - left. reflexivity.
    - right. exists e. split; [exact He|reflexivity].
  Qed.

  Lemma faults_expr : forall c x, faults (eval_expr_s S c x) (eval_expr E c x).
  Proof.
    intros c x. induction x as [fid f args IH|v|d|s] using expr_ind'; simpl.
    - apply faults_bind.
      + apply faults_mapM. rewrite Forall_forall in IH. exact IH.
      + intros vs _. destruct f; [apply faults_fn|apply faults_raise].
    - apply faults_ret.
    - apply faults_designator.
    - apply faults_selector.
  Qed.

  Lemma faults_match : forall c m, faults (eval_match_s S c m) (eval_match E c m).
  Proof.
    intros c m. unfold eval_match_s, eval_match. apply faults_bind.
    - destruct (mt_designator m); [apply faults_designator|].
      destruct (mt_selector m); [apply faults_selector|apply faults_raise].
    - intros bag _. apply faults_bind; [|intros; apply faults_ret].
      apply faults_mapM. intros v _. unfold match_fn_apply_s, match_fn_apply.
      destruct (mt_fn m); [apply faults_fn|apply faults_raise].
  Qed.

  Lemma faults_section_loop : forall c children st,
    faults (section_loop_s S c st children) (section_loop E c st children).
  Proof.
    induction children as [|ch rest IH]; intros st; simpl; [apply faults_ret|].
    apply faults_bind; [|auto].
    unfold match_child_s, match_child. apply faults_bind; [|intros; apply faults_ret].
    apply faults_mapM. intros; apply faults_match.
  Qed.

  Lemma faults_target : forall c t, faults (target_match_s S c t) (target_match E c t).
  Proof.
    intros c t. unfold target_match_s, target_match.
    apply faults_bind; [|intros; apply faults_ret].
    apply faults_mapM. intros s _. unfold match_section_s, match_section.
    destruct s; [apply faults_ret|apply faults_section_loop].
  Qed.

  Lemma faults_rule_body : forall c r, faults (rule_body_s S c r) (rule_body E c r).
  Proof.
    intros c r. unfold rule_body_s, rule_body. apply faults_bind.
    - destruct (rl_target r); [apply faults_target|apply faults_ret].
    - intros [] _; simpl; [|apply faults_ret]. apply faults_bind.
      + destruct (rl_condition r) as [[x|]|]; simpl;
          [apply faults_expr|apply faults_raise|apply faults_ret].
      + intros st _. destruct (truthy st); [|apply faults_ret].
        destruct (rl_effect r); [apply faults_ret|apply faults_raise].
  Qed.

  (** A rule's outcome: as without faults, or Indeterminate. *)
  Lemma faults_rule : forall c r,
    sound S anyq (rule_eval_s S c r) (fun o => o = rule_eval E c r \/ o = Ok Indeterminate).
  Proof.
    intros c r. unfold rule_eval_s, rule_eval. eapply sound_catch; [apply faults_rule_body|].
    intros o [->|(e & He & ->)]; [left; reflexivity|right]. simpl. rewrite He. reflexivity.
  Qed.

  (** Outcome [o] of a policy whose outcome without faults is [x]. *)
  Definition weaker (x o : res decision) : Prop :=
    forall d0 d, catch_exception x = Ok d0 -> o = Ok d -> d = d0 \/ d = Indeterminate.
  Definition safe (x o : res decision) : Prop :=
    forall d0, catch_exception x = Ok d0 -> (o = Ok Permit -> d0 = Permit) /\ (o = Ok NotApplicable -> d0 = NotApplicable).

  Lemma weaker_safe : forall x o, weaker x o -> safe x o.
  Proof.
    intros x o H d0 Hx. split; intros Ho; destruct (H _ _ Hx Ho) as [K|K]; congruence.
  Qed.
  Lemma weaker_refl : forall x, weaker x x.
  Proof. intros x d0 d H1 ->. left. simpl in H1. congruence. Qed.
  Lemma weaker_raise : forall e o, is_exception e = false -> weaker (Raise e) o.
  Proof. intros e o He d0 d H. simpl in H. rewrite He in H. discriminate. Qed.
  Lemma weaker_indet : forall x, weaker x (Ok Indeterminate).
  Proof. intros x d0 d _ [= <-]. right. reflexivity. Qed.
  Lemma weaker_raised : forall x e, weaker x (Raise e).
  Proof. intros x e d0 d _ K. discriminate. Qed.

  Lemma rule_deny_effect : forall c r, rule_eval E c r = Ok Deny -> rl_effect r = Some EffDeny.
  Proof. intros c r H. apply rule_eval_deny_iff in H. apply H. Qed.
  Lemma rule_permit_effect : forall c r, rule_eval E c r = Ok Permit -> rl_effect r = Some EffPermit.
  Proof. intros c r H. apply rule_eval_permit_iff in H. apply H. Qed.

  Local Notation outcome P x := (sound S anyq x P).

  (** A rule in doubt that might deny rules out anything but Deny. *)
  Lemma deny_in_doubt : forall c rules a p,
    outcome (weaker (Ok Deny)) (rules_deny_overrides_s (rule_eval_s S c) a true p rules).
  Proof.
    induction rules as [|r rules IH]; intros a p; simpl; [apply sound_ret, weaker_indet|].
    eapply sound_bind; [apply faults_rule|intros; apply weaker_raised|]. intros d _.
    destruct d; [apply IH|apply sound_ret, weaker_refl| |apply IH].
    destruct (rl_effect r) as [[|]|]; [apply IH..|apply sound_raise, weaker_raised].
  Qed.
  Lemma permit_in_doubt : forall c rules a p,
    outcome (weaker (Ok Permit)) (rules_permit_overrides_s (rule_eval_s S c) a true p rules).
  Proof.
    induction rules as [|r rules IH]; intros a p; simpl; [apply sound_ret, weaker_indet|].
    eapply sound_bind; [apply faults_rule|intros; apply weaker_raised|]. intros d _.
    destruct d; [apply sound_ret, weaker_refl|apply IH| |apply IH].
    destruct (rl_effect r) as [[|]|]; [apply IH..|apply sound_raise, weaker_raised].
  Qed.

  Definition any {A} (o : res A) : Prop := True.
  Lemma faults_any : forall A (x : ST A) P, outcome P x -> outcome any x.
  Proof. intros A x P H. eapply sound_weaken; [| |exact H]; unfold any; auto. Qed.
  Lemma any_raise : forall c r x e, rule_eval E c r = Raise e -> outcome any x -> outcome (weaker (Raise e)) x.
  Proof.
    intros c r x e He H. eapply sound_weaken; [| |exact H]; auto. intros o _. apply weaker_raise.
    apply rule_eval_raise_iff in He. apply He.
  Qed.

  Lemma deny_rules_any : forall c rules a b p, outcome any (rules_deny_overrides_s (rule_eval_s S c) a b p rules).
  Proof.
    induction rules as [|r rules IH]; intros a b p; simpl.
    - destruct b, p, a; apply sound_ret; exact I.
    - eapply sound_bind; [apply faults_rule|intros; exact I|]. intros d _.
      destruct d; [apply IH|apply sound_ret; exact I| |apply IH].
      destruct (rl_effect r) as [[|]|]; [apply IH..|apply sound_raise; exact I].
  Qed.
  Lemma permit_rules_any : forall c rules a b p, outcome any (rules_permit_overrides_s (rule_eval_s S c) a b p rules).
  Proof.
    induction rules as [|r rules IH]; intros a b p; simpl.
    - destruct b, p, a; apply sound_ret; exact I.
    - eapply sound_bind; [apply faults_rule|intros; exact I|]. intros d _.
      destruct d; [apply sound_ret; exact I|apply IH| |apply IH].
      destruct (rl_effect r) as [[|]|]; [apply IH..|apply sound_raise; exact I].
  Qed.
  Lemma first_rules_any : forall c rules, outcome any (rules_first_applicable_s (rule_eval_s S c) rules).
  Proof.
    induction rules as [|r rules IH]; simpl; [apply sound_ret; exact I|].
    eapply sound_bind; [apply faults_rule|intros; exact I|]. intros d _.
    destruct d; try (apply sound_ret; exact I). apply IH.
  Qed.

  Lemma deny_rules_weaker : forall c rules a b p a' b' p',
    (b = true -> b' = true) -> (p' = true -> p = true) -> (p = true -> p' = true \/ a' = true) ->
    (a = true -> a' = true) ->
    outcome (weaker (rules_deny_overrides (rule_eval E c) a b p rules))
      (rules_deny_overrides_s (rule_eval_s S c) a' b' p' rules).
  Proof.
    induction rules as [|r rules IH]; intros a b p a' b' p' Hb Hp Hp' Ha.
    - simpl. destruct b'; [apply sound_ret, weaker_indet|]. destruct b; [discriminate (Hb eq_refl)|].
      destruct p'; [rewrite (Hp eq_refl); apply sound_ret, weaker_refl|].
      destruct a'; [apply sound_ret, weaker_indet|].
      destruct p; [destruct (Hp' eq_refl); discriminate|]. destruct a; [discriminate (Ha eq_refl)|].
      apply sound_ret, weaker_refl.
    - cbn [rules_deny_overrides rules_deny_overrides_s].
      destruct (rule_eval E c r) as [d0|e] eqn:Hr.
      2:{ cbn [bind]. apply (any_raise c r); [exact Hr|]. exact (deny_rules_any c (r :: rules) _ _ _). }
      cbn [bind]. eapply sound_bind; [apply faults_rule|intros; apply weaker_raised|].
      intros d Hd. cbn beta in Hd. rewrite Hr in Hd.
      destruct Hd as [[= <-]|[= ->]].
      + destruct d; [apply IH; auto|apply sound_ret, weaker_refl| |apply IH; auto].
        destruct (rl_effect r) as [[|]|]; [apply IH; auto..|apply sound_raise, weaker_raised].
      + destruct d0.
        * rewrite (rule_permit_effect _ _ Hr). apply IH; auto.
        * rewrite (rule_deny_effect _ _ Hr). apply deny_in_doubt.
        * destruct (rl_effect r) as [[|]|]; [apply IH; auto..|apply sound_raise, weaker_raised].
        * destruct (rl_effect r) as [[|]|]; [apply IH; auto..|apply sound_raise, weaker_raised].
  Qed.

  Lemma permit_rules_weaker : forall c rules a b p a' b' p',
    (b = true -> b' = true) -> (p' = true -> p = true) -> (p = true -> p' = true \/ a' = true) ->
    (a = true -> a' = true) ->
    outcome (weaker (rules_permit_overrides (rule_eval E c) a b p rules))
      (rules_permit_overrides_s (rule_eval_s S c) a' b' p' rules).
  Proof.
    induction rules as [|r rules IH]; intros a b p a' b' p' Hb Hp Hp' Ha.
    - simpl. destruct b'; [apply sound_ret, weaker_indet|]. destruct b; [discriminate (Hb eq_refl)|].
      destruct p'; [rewrite (Hp eq_refl); apply sound_ret, weaker_refl|].
      destruct a'; [apply sound_ret, weaker_indet|].
      destruct p; [destruct (Hp' eq_refl); discriminate|]. destruct a; [discriminate (Ha eq_refl)|].
      apply sound_ret, weaker_refl.
    - cbn [rules_permit_overrides rules_permit_overrides_s].
      destruct (rule_eval E c r) as [d0|e] eqn:Hr.
      2:{ cbn [bind]. apply (any_raise c r); [exact Hr|]. exact (permit_rules_any c (r :: rules) _ _ _). }
      cbn [bind]. eapply sound_bind; [apply faults_rule|intros; apply weaker_raised|].
      intros d Hd. cbn beta in Hd. rewrite Hr in Hd.
      destruct Hd as [[= <-]|[= ->]].
      + destruct d; [apply sound_ret, weaker_refl|apply IH; auto| |apply IH; auto].
        destruct (rl_effect r) as [[|]|]; [apply IH; auto..|apply sound_raise, weaker_raised].
      + destruct d0.
        * rewrite (rule_permit_effect _ _ Hr). apply permit_in_doubt.
        * rewrite (rule_deny_effect _ _ Hr). apply IH; auto.
        * destruct (rl_effect r) as [[|]|]; [apply IH; auto..|apply sound_raise, weaker_raised].
        * destruct (rl_effect r) as [[|]|]; [apply IH; auto..|apply sound_raise, weaker_raised].
  Qed.

  Lemma first_rules_weaker : forall c rules,
    outcome (weaker (rules_first_applicable (rule_eval E c) rules))
      (rules_first_applicable_s (rule_eval_s S c) rules).
  Proof.
    induction rules as [|r rules IH]; [apply sound_ret, weaker_refl|].
    cbn [rules_first_applicable rules_first_applicable_s].
    destruct (rule_eval E c r) as [d0|e] eqn:Hr.
    2:{ cbn [bind]. apply (any_raise c r); [exact Hr|]. exact (first_rules_any c (r :: rules)). }
    cbn [bind]. eapply sound_bind; [apply faults_rule|intros; apply weaker_raised|].
    intros d Hd. cbn beta in Hd. rewrite Hr in Hd.
    destruct Hd as [[= <-]|[= ->]].
    - destruct d; try apply sound_ret, weaker_refl. apply IH.
    - apply sound_ret, weaker_indet.
  Qed.

  Lemma weaker_catch : forall x o, weaker x o -> weaker (catch_exception x) (catch_exception o).
  Proof.
    intros x [d|e] H; [|simpl; destruct (is_exception e); [apply weaker_indet|apply weaker_raised]].
    intros d0 d1 H0 [= <-]. apply (H d0 d); [|reflexivity].
    destruct x as [dx|ex]; simpl in *; [exact H0|]. destruct (is_exception ex) eqn:Hex; [exact H0|].
    simpl in H0. rewrite Hex in H0. discriminate.
  Qed.

  Lemma rules_weaker : forall c alg rules,
    outcome (weaker (combine_rules alg (rule_eval E c) rules)) (combine_rules_s alg (rule_eval_s S c) rules).
  Proof.
    intros c [] rules; [apply deny_rules_weaker; auto|apply permit_rules_weaker; auto|apply first_rules_weaker].
  Qed.

  Lemma target_then : forall (R : res decision -> res decision -> Prop) c t x y,
    (forall z, R z z) -> (forall z e, R z (Raise e)) -> 
    outcome (R x) y ->
    outcome (R (with_target E c t x)) (with_target_s S c t y).
  Proof.
    intros R c t x y H1 H2 H. unfold with_target, with_target_s.
    destruct t as [t|].
    - eapply sound_bind; [apply faults_target| |].
      + intros; apply H2.
      + intros b [<-|(e & _ & K)]; [|discriminate]. cbn [bind]. destruct b; [exact H|apply sound_ret, H1].
    - exact H.
  Qed.

  Lemma policy_weaker : forall c m t alg rules,
    outcome (weaker (policy_eval E c (PPolicy m t alg rules))) (policy_eval_s S c (PPolicy m t alg rules)).
  Proof.
    intros c m t alg rules. simpl. eapply sound_catch; [|intros o Ho; apply weaker_catch; exact Ho].
    apply target_then; [apply weaker_refl|intros; apply weaker_raised|].
    destruct alg as [alg|]; [apply rules_weaker|apply sound_raise, weaker_raised].
  Qed.

  Lemma safe_refl : forall x, safe x x.
  Proof. intros x. apply weaker_safe, weaker_refl. Qed.
  Lemma safe_raised : forall x e, safe x (Raise e).
  Proof. intros x e d0 _. split; discriminate. Qed.
  Lemma safe_raise : forall e o, is_exception e = false -> safe (Raise e) o.
  Proof. intros e o He d0 H. simpl in H. rewrite He in H. discriminate. Qed.
  Lemma safe_other : forall x d, d <> Permit -> d <> NotApplicable -> safe x (Ok d).
  Proof. intros x d H1 H2 d0 _. split; intros [= ->]; contradiction. Qed.
  Lemma safe_catch : forall x o, safe x o -> safe (catch_exception x) (catch_exception o).
  Proof.
    intros x [d|e] H; [|simpl; destruct (is_exception e); [apply safe_other; discriminate|apply safe_raised]].
    intros d0 H0. apply (H d0).
    destruct x as [dx|ex]; simpl in *; [exact H0|]. destruct (is_exception ex) eqn:Hex; [exact H0|].
    simpl in H0. rewrite Hex in H0. discriminate.
  Qed.
  Lemma policy_base : forall c p e, policy_eval E c p = Raise e -> is_exception e = false.
  Proof. intros c p e H. apply policy_eval_escape in H. apply H. Qed.

  Section Sets.
    Variable c : context.
    Local Notation ideal := (policy_eval E c).
    Local Notation real := (policy_eval_s S c).

    Lemma deny_set_any : forall ps p, Forall (fun q => outcome any (real q)) ps ->
      outcome any (policies_deny_overrides_s real p ps).
    Proof.
      induction ps as [|q ps IH]; intros p H; simpl.
      - destruct p; apply sound_ret; exact I.
      - inversion H; subst. eapply sound_bind; [eassumption|intros; exact I|]. intros d _.
        destruct d; try (apply sound_ret; exact I); apply IH; assumption.
    Qed.
    Lemma permit_set_any : forall ps a b, Forall (fun q => outcome any (real q)) ps ->
      outcome any (policies_permit_overrides_s real a b ps).
    Proof.
      induction ps as [|q ps IH]; intros a b H; simpl.
      - destruct b, a; apply sound_ret; exact I.
      - inversion H; subst. eapply sound_bind; [eassumption|intros; exact I|]. intros d _.
        destruct d; try (apply sound_ret; exact I); apply IH; assumption.
    Qed.
    Lemma first_set_any : forall ps, Forall (fun q => outcome any (real q)) ps ->
      outcome any (policies_first_applicable_s real ps).
    Proof.
      induction ps as [|q ps IH]; intros H; simpl; [apply sound_ret; exact I|].
      inversion H; subst. eapply sound_bind; [eassumption|intros; exact I|]. intros d _.
      destruct d; try (apply sound_ret; exact I); apply IH; assumption.
    Qed.

    Local Notation rel R := (fun q => outcome (R (ideal q)) (real q)).

    Lemma rel_any : forall (R : res decision -> res decision -> Prop) ps, Forall (rel R) ps -> Forall (fun q => outcome any (real q)) ps.
    Proof. intros R ps H. eapply Forall_impl; [|exact H]. intros q Hq. eapply faults_any, Hq. Qed.

    Lemma deny_set_safe : forall ps p, Forall (rel safe) ps ->
      outcome (safe (policies_deny_overrides ideal p ps)) (policies_deny_overrides_s real p ps).
    Proof.
      induction ps as [|q ps IH]; intros p H; [simpl; destruct p; apply sound_ret, safe_refl|].
      cbn [policies_deny_overrides policies_deny_overrides_s]. destruct (ideal q) as [d0|e] eqn:Hq.
      2:{ eapply sound_weaken; [| |exact (deny_set_any (q :: ps) p (rel_any safe _ H))]; [auto|].
          intros o _. apply safe_raise. exact (policy_base _ _ _ Hq). }
      inversion H as [|? ? Hx Hr]; subst. rewrite Hq in Hx. cbn [bind].
      eapply sound_bind; [exact Hx|intros; apply safe_raised|]. intros d Hd. destruct (Hd d0 eq_refl) as [H1 H2].
      destruct d; try (apply sound_ret, safe_other; discriminate).
      - rewrite (H1 eq_refl). apply IH, Hr.
      - rewrite (H2 eq_refl). apply IH, Hr.
    Qed.

    Lemma permit_set_found : forall ps a b, a || b = true -> Forall (rel safe) ps ->
      outcome (safe (Ok Permit)) (policies_permit_overrides_s real a b ps).
    Proof.
      induction ps as [|q ps IH]; intros a b Hab H.
      - simpl. destruct b; [apply sound_ret, safe_other; discriminate|]. destruct a; [|discriminate].
        apply sound_ret, safe_other; discriminate.
      - cbn [policies_permit_overrides_s]. inversion H as [|? ? Hx Hr]; subst.
        eapply sound_bind; [exact Hx|intros; apply safe_raised|]. intros d _.
        destruct d; [apply sound_ret, safe_refl|apply IH; [apply orb_true_r|exact Hr]|apply IH; [reflexivity|exact Hr]|apply IH; assumption].
    Qed.

    Lemma permit_set_safe : forall ps a b a' b', (a || b = true -> a' || b' = true) -> Forall (rel safe) ps ->
      outcome (safe (policies_permit_overrides ideal a b ps)) (policies_permit_overrides_s real a' b' ps).
    Proof.
      induction ps as [|q ps IH]; intros a b a' b' Hab H.
      - simpl. destruct b'; [apply sound_ret, safe_other; discriminate|].
        destruct a'; [apply sound_ret, safe_other; discriminate|].
        destruct b; [rewrite orb_true_r in Hab; discriminate (Hab eq_refl)|].
        destruct a; [discriminate (Hab eq_refl)|]. apply sound_ret, safe_refl.
      - cbn [policies_permit_overrides policies_permit_overrides_s]. destruct (ideal q) as [d0|e] eqn:Hq.
        2:{ eapply sound_weaken; [| |exact (permit_set_any (q :: ps) a' b' (rel_any safe _ H))]; [auto|].
            intros o _. apply safe_raise. exact (policy_base _ _ _ Hq). }
        inversion H as [|? ? Hx Hr]; subst. rewrite Hq in Hx. cbn [bind].
        eapply sound_bind; [exact Hx|intros; apply safe_raised|]. intros d Hd. destruct (Hd d0 eq_refl) as [H1 H2].
        destruct d.
        + rewrite (H1 eq_refl). apply sound_ret, safe_refl.
        + destruct d0; [apply permit_set_found; [apply orb_true_r|exact Hr]|..]; (apply IH; [|exact Hr]);
            intros _; apply orb_true_r.
        + destruct d0; [apply permit_set_found; [reflexivity|exact Hr]|..]; (apply IH; [|exact Hr]); reflexivity.
        + rewrite (H2 eq_refl). apply IH; assumption.
    Qed.

    Lemma first_set_safe : forall ps, Forall (rel safe) ps ->
      outcome (safe (policies_first_applicable ideal ps)) (policies_first_applicable_s real ps).
    Proof.
      induction ps as [|q ps IH]; intros H; [apply sound_ret, safe_refl|].
      cbn [policies_first_applicable policies_first_applicable_s]. destruct (ideal q) as [d0|e] eqn:Hq.
      2:{ eapply sound_weaken; [| |exact (first_set_any (q :: ps) (rel_any safe _ H))]; [auto|].
          intros o _. apply safe_raise. exact (policy_base _ _ _ Hq). }
      inversion H as [|? ? Hx Hr]; subst. rewrite Hq in Hx. cbn [bind].
      eapply sound_bind; [exact Hx|intros; apply safe_raised|]. intros d Hd. destruct (Hd d0 eq_refl) as [H1 H2].
      destruct d; try (apply sound_ret, safe_other; discriminate).
      - rewrite (H1 eq_refl). apply sound_ret, safe_refl.
      - rewrite (H2 eq_refl). apply IH, Hr.
    Qed.

    Lemma first_set_weaker : forall ps, Forall (rel weaker) ps ->
      outcome (weaker (policies_first_applicable ideal ps)) (policies_first_applicable_s real ps).
    Proof.
      induction ps as [|q ps IH]; intros H; [apply sound_ret, weaker_refl|].
      cbn [policies_first_applicable policies_first_applicable_s]. destruct (ideal q) as [d0|e] eqn:Hq.
      2:{ eapply sound_weaken; [| |exact (first_set_any (q :: ps) (rel_any weaker _ H))]; [auto|].
          intros o _. apply weaker_raise. exact (policy_base _ _ _ Hq). }
      inversion H as [|? ? Hx Hr]; subst. rewrite Hq in Hx. cbn [bind].
      eapply sound_bind; [exact Hx|intros; apply weaker_raised|]. intros d Hd.
      destruct (Hd d0 d eq_refl eq_refl) as [->| ->]; [|apply sound_ret, weaker_indet].
      destruct d0; try apply sound_ret, weaker_refl. apply IH, Hr.
    Qed.

    Lemma policy_safe : forall p, outcome (safe (ideal p)) (real p).
    Proof.
      induction p as [m t alg rules|m t alg ps IH] using policybase_ind'.
      - eapply sound_weaken; [| |apply policy_weaker]; [auto|]. intros o. apply weaker_safe.
      - simpl. eapply sound_catch; [|intros o Ho; apply safe_catch; exact Ho].
        apply target_then; [apply safe_refl|intros; apply safe_raised|].
        destruct alg as [[]|]; [apply deny_set_safe, IH|apply permit_set_safe; [auto|exact IH]|apply first_set_safe, IH|
          apply sound_raise, safe_raised].
    Qed.

    Lemma no_sets_weaker : forall p, no_overriding_sets p -> outcome (weaker (ideal p)) (real p).
    Proof.
      induction p as [m t alg rules|m t alg ps IH] using policybase_ind'; intros Hn; [apply policy_weaker|].
      simpl. eapply sound_catch; [|intros o Ho; apply weaker_catch; exact Ho].
      apply target_then; [apply weaker_refl|intros; apply weaker_raised|].
      inversion Hn as [|? ? ? ? H1 H2 H3]; subst.
      destruct alg as [[]|]; [contradiction|contradiction| |apply sound_raise, weaker_raised].
      apply first_set_weaker. rewrite Forall_forall in *. auto.
    Qed.
  End Sets.
End Fault.
