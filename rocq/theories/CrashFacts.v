(** Facts about evaluation that may be interrupted. *)
From Verif Require Import EvalState SpecEval EvalFacts EvalFacts2 EvalFacts3 EvalFacts4 SpecState StateFacts SpecFault FaultFacts EvalCrash.

Section Crash.
  Variable S : senv.
  Variable E : env.
  Hypothesis HS : faulty_version S E.

  (** Whatever comes out of [x] without exception satisfies [P], and the regular
      expression cache stays good. *)
  Definition csound {A} (x : NS A) (P : res A -> Prop) : Prop :=
    forall w o w', wok S w -> x w o w' -> wok S w' /\ ((exists e, o = Raise e) \/ P o).

  Lemma csound_elementary : forall A (x : ST A) P,
    (forall w, wok S w -> wok S (snd (x w)) /\ P (fst (x w))) -> csound (elementary x) P.
  Proof.
    intros A x P H w o w' Hw K. destruct (H w Hw) as [H1 H2].
    destruct K as [[-> ->]|(e & -> & [-> | ->])]; eauto.
  Qed.
  Lemma csound_ret : forall A (a : A) (P : res A -> Prop), P (Ok a) -> csound (ret_c a) P.
  Proof. intros. apply csound_elementary. intros. split; assumption. Qed.
  Lemma csound_raise : forall A e (P : res A -> Prop), P (Raise e) -> csound (raise_c e) P.
  Proof. intros. apply csound_elementary. intros. split; assumption. Qed.
  Lemma csound_lift : forall A (r : res A) (P : res A -> Prop), P r -> csound (lift_c r) P.
  Proof. intros. apply csound_elementary. intros. split; assumption. Qed.
  Lemma csound_bind : forall A B (x : NS A) (f : A -> NS B) Px (P : res B -> Prop),
    csound x Px -> (forall e, Px (Raise e) -> P (Raise e)) ->
    (forall a, Px (Ok a) -> csound (f a) P) -> csound (bind_c x f) P.
  Proof.
    intros A B x f Px P Hx _ Hf w o w' Hw [(a & w1 & K1 & K2)|(e & K & ->)].
    - destruct (Hx _ _ _ Hw K1) as [Hw1 [[e K]|K]]; [discriminate|]. exact (Hf a K _ _ _ Hw1 K2).
    - destruct (Hx _ _ _ Hw K) as [Hw1 _]. eauto.
  Qed.
  Lemma csound_weaken : forall A (x : NS A) (P Q : res A -> Prop),
    (forall q : request * designator, anyq q -> anyq q) -> (forall o, P o -> Q o) -> csound x P -> csound x Q.
  Proof. intros A x P Q _ H Hx w o w' Hw K. destruct (Hx _ _ _ Hw K) as [H1 [H2|H2]]; auto. Qed.
  Lemma csound_catch : forall (x : NS decision) (P Q : res decision -> Prop),
    Q (Ok Indeterminate) -> csound x P -> (forall o, P o -> Q (catch_exception o)) -> csound (catch_exception_c x) Q.
  Proof.
    intros x P Q Hi Hx H w o w' Hw [(d & K & ->)|(e & K & Ho)].
    - destruct (Hx _ _ _ Hw K) as [H1 [[e H2]|H2]]; [discriminate|]. split; [exact H1|right; exact (H _ H2)].
    - destruct (Hx _ _ _ Hw K) as [H1 _]. split; [exact H1|].
      destruct (is_exception e); [destruct Ho as [->|Ho]; auto|eauto].
  Qed.

  (** The outcome of [x] is [r], or an exception. *)
  Definition faults_c {A} (x : NS A) (r : res A) : Prop := csound x (or_fault r).

  Lemma faults_bind_c : forall A B (x : NS A) (f : A -> NS B) rx (g : A -> res B),
    faults_c x rx -> (forall a, rx = Ok a -> faults_c (f a) (g a)) -> faults_c (bind_c x f) (bind rx g).
  Proof.
    intros A B x f rx g Hx Hf. unfold faults_c in *. eapply csound_bind; [exact Hx| |].
    - intros e [<-|(e' & He & [= <-])]; [left; reflexivity|right; eauto].
    - intros a [<-|(e' & _ & K)]; [simpl; apply Hf; reflexivity|discriminate].
  Qed.
  Lemma faults_ret_c : forall A (a : A), faults_c (ret_c a) (Ok a).
  Proof. intros. apply csound_ret. left. reflexivity. Qed.
  Lemma faults_raise_c : forall A e, faults_c (@raise_c A e) (Raise e).
  Proof. intros. apply csound_raise. left. reflexivity. Qed.
  Lemma faults_lift_c : forall A (r : res A), faults_c (lift_c r) r.
  Proof. intros. apply csound_lift. left. reflexivity. Qed.
  Lemma faults_lift'_c : forall A (r r' : res A), or_fault r r' -> faults_c (lift_c r') r.
  Proof. intros. apply csound_lift. assumption. Qed.

  Lemma faults_mapM_c : forall A B (f : A -> NS B) (g : A -> res B) l,
    (forall x, In x l -> faults_c (f x) (g x)) -> faults_c (mapM_c f l) (mapM g l).
  Proof.
    induction l as [|x l IH]; intros H; [apply faults_ret_c|].
    simpl. apply faults_bind_c; [apply H; left; reflexivity|]. intros y _.
    apply faults_bind_c; [apply IH; intros; apply H; right; assumption|].
    intros ys _. apply faults_ret_c.
  Qed.

  Lemma faults_fn_c : forall f args, faults_c (fn_eval_c S f args) (fn_eval (en_fenv E) f args).
  Proof.
    intros f args. apply csound_elementary. intros w Hw.
    destruct (faults_fn S E HS f args w Hw) as (H1 & H2 & _). auto.
  Qed.
  Lemma faults_pip_c : forall r d, faults_c (pip_query_c S r d) (en_pip E r d).
  Proof.
    intros r d. apply csound_elementary. intros w Hw.
    destruct (faults_pip S E HS r d w Hw) as (H1 & H2 & _). auto.
  Qed.


  Lemma faults_subjects_c : forall r d et subs bag,
    faults_c (collect_subjects_c S r d et bag subs) (collect_subjects E r d et bag subs).
  Proof.
    induction subs as [|s subs IH]; intros bag; simpl; [apply faults_ret_c|].
    apply faults_bind_c; [apply faults_lift_c|]. intros bag1 _.
    apply faults_bind_c; [|auto].
    destruct (rq_ctxHandler r); [|apply faults_ret_c].
    apply (faults_bind_c _ _ _ _ (en_pip E r d)); [apply faults_pip_c|].
    intros ans _. apply faults_lift_c.
  Qed.

  Lemma faults_designator_c : forall d c, faults_c (eval_designator_c S d c) (eval_designator E d c).
  Proof.
    intros d [r|]; simpl; [|apply faults_raise_c]. rewrite (same_class S E HS).
    apply faults_bind_c; [|intros; apply faults_lift_c].
    destruct (dg_kind d).
    - apply faults_subjects_c.
    - apply faults_lift_c.
    - destruct (rq_action r); [apply faults_lift_c|apply faults_raise_c].
    - destruct (rq_environment r); [apply faults_lift_c|apply faults_raise_c].
  Qed.

  Lemma faults_selector_c : forall s c, faults_c (eval_selector_c S s c) (eval_selector E s c).
  Proof.
    intros s c. apply faults_lift'_c. unfold eval_selector. destruct c as [r|]; [|left; reflexivity].
    destruct (rq_selector r); [|left; reflexivity]. destruct (sl_dataType s) as [dt|]; [|left; reflexivity].
    pose proof (same_class S E HS (Some dt)) as Hc. unfold sclass_for in Hc.
    assert (Hc' : class_for (env_of S []) (Some dt) = class_for E (Some dt)) by exact Hc.
    rewrite Hc'. destruct (class_for E (Some dt)) as [cls|]; [|left; reflexivity].
    destruct HS as (_ & _ & Hx & _). destruct (Hx r (sl_path s)) as [Hx'|(e & He & Hx')]; simpl; rewrite Hx'.
    - left. reflexivity.
    - right. exists e. split; [exact He|reflexivity].
  Qed.

  Lemma faults_expr_c : forall c x, faults_c (eval_expr_c S c x) (eval_expr E c x).
  Proof.
    intros c x. induction x as [fid f args IH|v|d|s] using expr_ind'; simpl.
    - apply faults_bind_c.
      + apply faults_mapM_c. rewrite Forall_forall in IH. exact IH.
      + intros vs _. destruct f; [apply faults_fn_c|apply faults_raise_c].
    - apply faults_ret_c.
    - apply faults_designator_c.
    - apply faults_selector_c.
  Qed.

  Lemma faults_match_c : forall c m, faults_c (eval_match_c S c m) (eval_match E c m).
  Proof.
    intros c m. unfold eval_match_c, eval_match. apply faults_bind_c.
    - destruct (mt_designator m); [apply faults_designator_c|].
      destruct (mt_selector m); [apply faults_selector_c|apply faults_raise_c].
    - intros bag _. apply faults_bind_c; [|intros; apply faults_ret_c].
      apply faults_mapM_c. intros v _. unfold match_fn_apply_c, match_fn_apply.
      destruct (mt_fn m); [apply faults_fn_c|apply faults_raise_c].
  Qed.

  Lemma faults_section_loop_c : forall c children st,
    faults_c (section_loop_c S c st children) (section_loop E c st children).
  Proof.
    induction children as [|ch rest IH]; intros st; simpl; [apply faults_ret_c|].
    apply faults_bind_c; [|auto].
    unfold match_child_c, match_child. apply faults_bind_c; [|intros; apply faults_ret_c].
    apply faults_mapM_c. intros; apply faults_match_c.
  Qed.

  Lemma faults_target_c : forall c t, faults_c (target_match_c S c t) (target_match E c t).
  Proof.
    intros c t. unfold target_match_c, target_match.
    apply faults_bind_c; [|intros; apply faults_ret_c].
    apply faults_mapM_c. intros s _. unfold match_section_c, match_section.
    destruct s; [apply faults_ret_c|apply faults_section_loop_c].
  Qed.

  Lemma faults_rule_body_c : forall c r, faults_c (rule_body_c S c r) (rule_body E c r).
  Proof.
    intros c r. unfold rule_body_c, rule_body. apply faults_bind_c.
    - destruct (rl_target r); [apply faults_target_c|apply faults_ret_c].
    - intros [] _; simpl; [|apply faults_ret_c]. apply faults_bind_c.
      + destruct (rl_condition r) as [[x|]|]; simpl;
          [apply faults_expr_c|apply faults_raise_c|apply faults_ret_c].
      + intros st _. destruct (truthy st); [|apply faults_ret_c].
        destruct (rl_effect r); [apply faults_ret_c|apply faults_raise_c].
  Qed.

  (** A rule's outcome: as without faults, or Indeterminate. *)
  Lemma faults_rule_c : forall c r,
    csound (rule_eval_c S c r) (fun o => o = rule_eval E c r \/ o = Ok Indeterminate).
  Proof.
    intros c r. unfold rule_eval_c, rule_eval. eapply csound_catch; [right; reflexivity|apply faults_rule_body_c|].
    intros o [->|(e & He & ->)]; [left; reflexivity|right]. simpl. rewrite He. reflexivity.
  Qed.

  Local Notation outcome P x := (csound x P).

  (** A rule in doubt that might deny rules out anything but Deny. *)
  Lemma deny_in_doubt_c : forall c rules a p,
    outcome (weaker (Ok Deny)) (rules_deny_overrides_c (rule_eval_c S c) a true p rules).
  Proof.
    induction rules as [|r rules IH]; intros a p; simpl; [apply csound_ret, weaker_indet|].
    eapply csound_bind; [apply faults_rule_c|intros; apply weaker_raised|]. intros d _.
    destruct d; [apply IH|apply csound_ret, weaker_refl| |apply IH].
    destruct (rl_effect r) as [[|]|]; [apply IH..|apply csound_raise, weaker_raised].
  Qed.
  Lemma permit_in_doubt_c : forall c rules a p,
    outcome (weaker (Ok Permit)) (rules_permit_overrides_c (rule_eval_c S c) a true p rules).
  Proof.
    induction rules as [|r rules IH]; intros a p; simpl; [apply csound_ret, weaker_indet|].
    eapply csound_bind; [apply faults_rule_c|intros; apply weaker_raised|]. intros d _.
    destruct d; [apply csound_ret, weaker_refl|apply IH| |apply IH].
    destruct (rl_effect r) as [[|]|]; [apply IH..|apply csound_raise, weaker_raised].
  Qed.

  Lemma faults_any_c : forall A (x : NS A) P, outcome P x -> outcome any x.
  Proof. intros A x P H. eapply csound_weaken; [| |exact H]; unfold any; auto. Qed.
  Lemma any_raise_c : forall c r x e, rule_eval E c r = Raise e -> outcome any x -> outcome (weaker (Raise e)) x.
  Proof.
    intros c r x e He H. eapply csound_weaken; [| |exact H]; auto. intros o _. apply weaker_raise.
    apply rule_eval_raise_iff in He. apply He.
  Qed.

  Lemma deny_rules_any_c : forall c rules a b p, outcome any (rules_deny_overrides_c (rule_eval_c S c) a b p rules).
  Proof.
    induction rules as [|r rules IH]; intros a b p; simpl.
    - destruct b, p, a; apply csound_ret; exact I.
    - eapply csound_bind; [apply faults_rule_c|intros; exact I|]. intros d _.
      destruct d; [apply IH|apply csound_ret; exact I| |apply IH].
      destruct (rl_effect r) as [[|]|]; [apply IH..|apply csound_raise; exact I].
  Qed.
  Lemma permit_rules_any_c : forall c rules a b p, outcome any (rules_permit_overrides_c (rule_eval_c S c) a b p rules).
  Proof.
    induction rules as [|r rules IH]; intros a b p; simpl.
    - destruct b, p, a; apply csound_ret; exact I.
    - eapply csound_bind; [apply faults_rule_c|intros; exact I|]. intros d _.
      destruct d; [apply csound_ret; exact I|apply IH| |apply IH].
      destruct (rl_effect r) as [[|]|]; [apply IH..|apply csound_raise; exact I].
  Qed.
  Lemma first_rules_any_c : forall c rules, outcome any (rules_first_applicable_c (rule_eval_c S c) rules).
  Proof.
    induction rules as [|r rules IH]; simpl; [apply csound_ret; exact I|].
    eapply csound_bind; [apply faults_rule_c|intros; exact I|]. intros d _.
    destruct d; try (apply csound_ret; exact I). apply IH.
  Qed.

  Lemma deny_rules_weaker_c : forall c rules a b p a' b' p',
    (b = true -> b' = true) -> (p' = true -> p = true) -> (p = true -> p' = true \/ a' = true) ->
    (a = true -> a' = true) ->
    outcome (weaker (rules_deny_overrides (rule_eval E c) a b p rules))
      (rules_deny_overrides_c (rule_eval_c S c) a' b' p' rules).
  Proof.
    induction rules as [|r rules IH]; intros a b p a' b' p' Hb Hp Hp' Ha.
    - simpl. destruct b'; [apply csound_ret, weaker_indet|]. destruct b; [discriminate (Hb eq_refl)|].
      destruct p'; [rewrite (Hp eq_refl); apply csound_ret, weaker_refl|].
      destruct a'; [apply csound_ret, weaker_indet|].
      destruct p; [destruct (Hp' eq_refl); discriminate|]. destruct a; [discriminate (Ha eq_refl)|].
      apply csound_ret, weaker_refl.
    - cbn [rules_deny_overrides rules_deny_overrides_c].
      destruct (rule_eval E c r) as [d0|e] eqn:Hr.
      2:{ cbn [bind]. apply (any_raise_c c r); [exact Hr|]. exact (deny_rules_any_c c (r :: rules) _ _ _). }
      cbn [bind]. eapply csound_bind; [apply faults_rule_c|intros; apply weaker_raised|].
      intros d Hd. cbn beta in Hd. rewrite Hr in Hd.
      destruct Hd as [[= <-]|[= ->]].
      + destruct d; [apply IH; auto|apply csound_ret, weaker_refl| |apply IH; auto].
        destruct (rl_effect r) as [[|]|]; [apply IH; auto..|apply csound_raise, weaker_raised].
      + destruct d0.
        * rewrite (rule_permit_effect E _ _ Hr). apply IH; auto.
        * rewrite (rule_deny_effect E _ _ Hr). apply deny_in_doubt_c.
        * destruct (rl_effect r) as [[|]|]; [apply IH; auto..|apply csound_raise, weaker_raised].
        * destruct (rl_effect r) as [[|]|]; [apply IH; auto..|apply csound_raise, weaker_raised].
  Qed.

  Lemma permit_rules_weaker_c : forall c rules a b p a' b' p',
    (b = true -> b' = true) -> (p' = true -> p = true) -> (p = true -> p' = true \/ a' = true) ->
    (a = true -> a' = true) ->
    outcome (weaker (rules_permit_overrides (rule_eval E c) a b p rules))
      (rules_permit_overrides_c (rule_eval_c S c) a' b' p' rules).
  Proof.
    induction rules as [|r rules IH]; intros a b p a' b' p' Hb Hp Hp' Ha.
    - simpl. destruct b'; [apply csound_ret, weaker_indet|]. destruct b; [discriminate (Hb eq_refl)|].
      destruct p'; [rewrite (Hp eq_refl); apply csound_ret, weaker_refl|].
      destruct a'; [apply csound_ret, weaker_indet|].
      destruct p; [destruct (Hp' eq_refl); discriminate|]. destruct a; [discriminate (Ha eq_refl)|].
      apply csound_ret, weaker_refl.
    - cbn [rules_permit_overrides rules_permit_overrides_c].
      destruct (rule_eval E c r) as [d0|e] eqn:Hr.
      2:{ cbn [bind]. apply (any_raise_c c r); [exact Hr|]. exact (permit_rules_any_c c (r :: rules) _ _ _). }
      cbn [bind]. eapply csound_bind; [apply faults_rule_c|intros; apply weaker_raised|].
      intros d Hd. cbn beta in Hd. rewrite Hr in Hd.
      destruct Hd as [[= <-]|[= ->]].
      + destruct d; [apply csound_ret, weaker_refl|apply IH; auto| |apply IH; auto].
        destruct (rl_effect r) as [[|]|]; [apply IH; auto..|apply csound_raise, weaker_raised].
      + destruct d0.
        * rewrite (rule_permit_effect E _ _ Hr). apply permit_in_doubt_c.
        * rewrite (rule_deny_effect E _ _ Hr). apply IH; auto.
        * destruct (rl_effect r) as [[|]|]; [apply IH; auto..|apply csound_raise, weaker_raised].
        * destruct (rl_effect r) as [[|]|]; [apply IH; auto..|apply csound_raise, weaker_raised].
  Qed.

  Lemma first_rules_weaker_c : forall c rules,
    outcome (weaker (rules_first_applicable (rule_eval E c) rules))
      (rules_first_applicable_c (rule_eval_c S c) rules).
  Proof.
    induction rules as [|r rules IH]; [apply csound_ret, weaker_refl|].
    cbn [rules_first_applicable rules_first_applicable_c].
    destruct (rule_eval E c r) as [d0|e] eqn:Hr.
    2:{ cbn [bind]. apply (any_raise_c c r); [exact Hr|]. exact (first_rules_any_c c (r :: rules)). }
    cbn [bind]. eapply csound_bind; [apply faults_rule_c|intros; apply weaker_raised|].
    intros d Hd. cbn beta in Hd. rewrite Hr in Hd.
    destruct Hd as [[= <-]|[= ->]].
    - destruct d; try apply csound_ret, weaker_refl. apply IH.
    - apply csound_ret, weaker_indet.
  Qed.


  Lemma rules_weaker_c : forall c alg rules,
    outcome (weaker (combine_rules alg (rule_eval E c) rules)) (combine_rules_c alg (rule_eval_c S c) rules).
  Proof.
    intros c [] rules; [apply deny_rules_weaker_c; auto|apply permit_rules_weaker_c; auto|apply first_rules_weaker_c].
  Qed.

  Lemma target_then_c : forall (R : res decision -> res decision -> Prop) c t x y,
    (forall z, R z z) -> (forall z e, R z (Raise e)) -> 
    outcome (R x) y ->
    outcome (R (with_target E c t x)) (with_target_c S c t y).
  Proof.
    intros R c t x y H1 H2 H. unfold with_target, with_target_c.
    destruct t as [t|].
    - eapply csound_bind; [apply faults_target_c| |].
      + intros; apply H2.
      + intros b [<-|(e & _ & K)]; [|discriminate]. cbn [bind]. destruct b; [exact H|apply csound_ret, H1].
    - eapply csound_bind; [apply (csound_ret _ true (fun o => o = Ok true)); reflexivity|intros; discriminate|].
      intros b [= ->]. exact H.
  Qed.

  Lemma policy_weaker_c : forall c m t alg rules,
    outcome (weaker (policy_eval E c (PPolicy m t alg rules))) (policy_eval_c S c (PPolicy m t alg rules)).
  Proof.
    intros c m t alg rules. simpl. eapply csound_catch; [apply weaker_indet| |intros o Ho; apply weaker_catch; exact Ho].
    apply target_then_c; [apply weaker_refl|intros; apply weaker_raised|].
    destruct alg as [alg|]; [apply rules_weaker_c|apply csound_raise, weaker_raised].
  Qed.


  Section Sets.
    Variable c : context.
    Local Notation ideal := (policy_eval E c).
    Local Notation real := (policy_eval_c S c).

    Lemma deny_set_any_c : forall ps p, Forall (fun q => outcome any (real q)) ps ->
      outcome any (policies_deny_overrides_c real p ps).
    Proof.
      induction ps as [|q ps IH]; intros p H; simpl.
      - destruct p; apply csound_ret; exact I.
      - inversion H; subst. eapply csound_bind; [eassumption|intros; exact I|]. intros d _.
        destruct d; try (apply csound_ret; exact I); apply IH; assumption.
    Qed.
    Lemma permit_set_any_c : forall ps a b, Forall (fun q => outcome any (real q)) ps ->
      outcome any (policies_permit_overrides_c real a b ps).
    Proof.
      induction ps as [|q ps IH]; intros a b H; simpl.
      - destruct b, a; apply csound_ret; exact I.
      - inversion H; subst. eapply csound_bind; [eassumption|intros; exact I|]. intros d _.
        destruct d; try (apply csound_ret; exact I); apply IH; assumption.
    Qed.
    Lemma first_set_any_c : forall ps, Forall (fun q => outcome any (real q)) ps ->
      outcome any (policies_first_applicable_c real ps).
    Proof.
      induction ps as [|q ps IH]; intros H; simpl; [apply csound_ret; exact I|].
      inversion H; subst. eapply csound_bind; [eassumption|intros; exact I|]. intros d _.
      destruct d; try (apply csound_ret; exact I); apply IH; assumption.
    Qed.

    Local Notation rel R := (fun q => outcome (R (ideal q)) (real q)).

    Lemma rel_any_c : forall (R : res decision -> res decision -> Prop) ps, Forall (rel R) ps -> Forall (fun q => outcome any (real q)) ps.
    Proof. intros R ps H. eapply Forall_impl; [|exact H]. intros q Hq. eapply faults_any_c, Hq. Qed.

    Lemma deny_set_safe_c : forall ps p, Forall (rel safe) ps ->
      outcome (safe (policies_deny_overrides ideal p ps)) (policies_deny_overrides_c real p ps).
    Proof.
      induction ps as [|q ps IH]; intros p H; [simpl; destruct p; apply csound_ret, safe_refl|].
      cbn [policies_deny_overrides policies_deny_overrides_c]. destruct (ideal q) as [d0|e] eqn:Hq.
      2:{ eapply csound_weaken; [| |exact (deny_set_any_c (q :: ps) p (rel_any_c safe _ H))]; [auto|].
          intros o _. apply safe_raise. exact (policy_base E _ _ _ Hq). }
      inversion H as [|? ? Hx Hr]; subst. rewrite Hq in Hx. cbn [bind].
      eapply csound_bind; [exact Hx|intros; apply safe_raised|]. intros d Hd. destruct (Hd d0 eq_refl) as [H1 H2].
      destruct d; try (apply csound_ret, safe_other; discriminate).
      - rewrite (H1 eq_refl). apply IH, Hr.
      - rewrite (H2 eq_refl). apply IH, Hr.
    Qed.

    Lemma permit_set_found_c : forall ps a b, a || b = true -> Forall (rel safe) ps ->
      outcome (safe (Ok Permit)) (policies_permit_overrides_c real a b ps).
    Proof.
      induction ps as [|q ps IH]; intros a b Hab H.
      - simpl. destruct b; [apply csound_ret, safe_other; discriminate|]. destruct a; [|discriminate].
        apply csound_ret, safe_other; discriminate.
      - cbn [policies_permit_overrides_c]. inversion H as [|? ? Hx Hr]; subst.
        eapply csound_bind; [exact Hx|intros; apply safe_raised|]. intros d _.
        destruct d; [apply csound_ret, safe_refl|apply IH; [apply orb_true_r|exact Hr]|apply IH; [reflexivity|exact Hr]|apply IH; assumption].
    Qed.

    Lemma permit_set_safe_c : forall ps a b a' b', (a || b = true -> a' || b' = true) -> Forall (rel safe) ps ->
      outcome (safe (policies_permit_overrides ideal a b ps)) (policies_permit_overrides_c real a' b' ps).
    Proof.
      induction ps as [|q ps IH]; intros a b a' b' Hab H.
      - simpl. destruct b'; [apply csound_ret, safe_other; discriminate|].
        destruct a'; [apply csound_ret, safe_other; discriminate|].
        destruct b; [rewrite orb_true_r in Hab; discriminate (Hab eq_refl)|].
        destruct a; [discriminate (Hab eq_refl)|]. apply csound_ret, safe_refl.
      - cbn [policies_permit_overrides policies_permit_overrides_c]. destruct (ideal q) as [d0|e] eqn:Hq.
        2:{ eapply csound_weaken; [| |exact (permit_set_any_c (q :: ps) a' b' (rel_any_c safe _ H))]; [auto|].
            intros o _. apply safe_raise. exact (policy_base E _ _ _ Hq). }
        inversion H as [|? ? Hx Hr]; subst. rewrite Hq in Hx. cbn [bind].
        eapply csound_bind; [exact Hx|intros; apply safe_raised|]. intros d Hd. destruct (Hd d0 eq_refl) as [H1 H2].
        destruct d.
        + rewrite (H1 eq_refl). apply csound_ret, safe_refl.
        + destruct d0; [apply permit_set_found_c; [apply orb_true_r|exact Hr]|..]; (apply IH; [|exact Hr]);
            intros _; apply orb_true_r.
        + destruct d0; [apply permit_set_found_c; [reflexivity|exact Hr]|..]; (apply IH; [|exact Hr]); reflexivity.
        + rewrite (H2 eq_refl). apply IH; assumption.
    Qed.

    Lemma first_set_safe_c : forall ps, Forall (rel safe) ps ->
      outcome (safe (policies_first_applicable ideal ps)) (policies_first_applicable_c real ps).
    Proof.
      induction ps as [|q ps IH]; intros H; [apply csound_ret, safe_refl|].
      cbn [policies_first_applicable policies_first_applicable_c]. destruct (ideal q) as [d0|e] eqn:Hq.
      2:{ eapply csound_weaken; [| |exact (first_set_any_c (q :: ps) (rel_any_c safe _ H))]; [auto|].
          intros o _. apply safe_raise. exact (policy_base E _ _ _ Hq). }
      inversion H as [|? ? Hx Hr]; subst. rewrite Hq in Hx. cbn [bind].
      eapply csound_bind; [exact Hx|intros; apply safe_raised|]. intros d Hd. destruct (Hd d0 eq_refl) as [H1 H2].
      destruct d; try (apply csound_ret, safe_other; discriminate).
      - rewrite (H1 eq_refl). apply csound_ret, safe_refl.
      - rewrite (H2 eq_refl). apply IH, Hr.
    Qed.

    Lemma first_set_weaker_c : forall ps, Forall (rel weaker) ps ->
      outcome (weaker (policies_first_applicable ideal ps)) (policies_first_applicable_c real ps).
    Proof.
      induction ps as [|q ps IH]; intros H; [apply csound_ret, weaker_refl|].
      cbn [policies_first_applicable policies_first_applicable_c]. destruct (ideal q) as [d0|e] eqn:Hq.
      2:{ eapply csound_weaken; [| |exact (first_set_any_c (q :: ps) (rel_any_c weaker _ H))]; [auto|].
          intros o _. apply weaker_raise. exact (policy_base E _ _ _ Hq). }
      inversion H as [|? ? Hx Hr]; subst. rewrite Hq in Hx. cbn [bind].
      eapply csound_bind; [exact Hx|intros; apply weaker_raised|]. intros d Hd.
      destruct (Hd d0 d eq_refl eq_refl) as [->| ->]; [|apply csound_ret, weaker_indet].
      destruct d0; try apply csound_ret, weaker_refl. apply IH, Hr.
    Qed.

    Lemma policy_safe_c : forall p, outcome (safe (ideal p)) (real p).
    Proof.
      induction p as [m t alg rules|m t alg ps IH] using policybase_ind'.
      - eapply csound_weaken; [| |apply policy_weaker_c]; [auto|]. intros o. apply weaker_safe.
      - simpl. eapply csound_catch; [apply safe_other; discriminate| |intros o Ho; apply safe_catch; exact Ho].
        apply target_then_c; [apply safe_refl|intros; apply safe_raised|].
        destruct alg as [[]|]; [apply deny_set_safe_c, IH|apply permit_set_safe_c; [auto|exact IH]|apply first_set_safe_c, IH|
          apply csound_raise, safe_raised].
    Qed.

    Lemma no_sets_weaker_c : forall p, no_overriding_sets p -> outcome (weaker (ideal p)) (real p).
    Proof.
      induction p as [m t alg rules|m t alg ps IH] using policybase_ind'; intros Hn; [apply policy_weaker_c|].
      simpl. eapply csound_catch; [apply weaker_indet| |intros o Ho; apply weaker_catch; exact Ho].
      apply target_then_c; [apply weaker_refl|intros; apply weaker_raised|].
      inversion Hn as [|? ? ? ? H1 H2 H3]; subst.
      destruct alg as [[]|]; [contradiction|contradiction| |apply csound_raise, weaker_raised].
      apply first_set_weaker_c. rewrite Forall_forall in *. auto.
    Qed.
  End Sets.

  Lemma run_interrupted_ok : forall calls w os w',
    w_cache w = [] -> run_interrupted S calls w os w' -> wok S w'.
  Proof.
    intros calls w os w' H. assert (Hw : wok S w) by (unfold wok; rewrite H; apply cache_ok_nil). clear H.
    revert w os w' Hw. induction calls as [|[p c] calls IH]; intros w os w' Hw; simpl.
    - intros [_ ->]. exact Hw.
    - intros (o & os' & w1 & H1 & _ & H2). refine (IH _ _ _ _ H2).
      exact (proj1 (policy_safe_c c p _ _ _ Hw H1)).
  Qed.
End Crash.

(** Without any interruption the outcome is that of [policy_eval_s]. *)
Section Plain.
  Variable S : senv.

  Definition includes {A} (x : ST A) (y : NS A) : Prop :=
    forall w, y w (fst (x w)) (snd (x w)).

  Lemma inc_elementary : forall A (x : ST A), includes x (elementary x).
  Proof. intros A x w. left. auto. Qed.
  Lemma inc_bind : forall A B (x : ST A) (f : A -> ST B) x' f',
    includes x x' -> (forall a, includes (f a) (f' a)) -> includes (bind_s x f) (bind_c x' f').
  Proof.
    intros A B x f x' f' Hx Hf w. specialize (Hx w). unfold bind_s, bind_c.
    destruct (x w) as [[a|e] w1]; simpl in *; [left|right; eauto].
    exists a, w1. split; [exact Hx|apply Hf].
  Qed.
  Lemma inc_mapM : forall A B (f : A -> ST B) f' l,
    (forall x, In x l -> includes (f x) (f' x)) -> includes (mapM_s f l) (mapM_c f' l).
  Proof.
    induction l as [|x l IH]; intros H; [apply inc_elementary|].
    apply inc_bind; [apply H; left; reflexivity|]. intros y.
    apply inc_bind; [apply IH; intros; apply H; right; assumption|]. intros; apply inc_elementary.
  Qed.
  Lemma inc_catch : forall x y, includes x y -> includes (catch_exception_s x) (catch_exception_c y).
  Proof.
    intros x y H w. specialize (H w). unfold catch_exception_s, catch_exception_c.
    destruct (x w) as [[d|e] w1]; simpl in *; [left; eauto|right].
    exists e. split; [exact H|]. destruct (is_exception e); auto.
  Qed.

  Lemma inc_designator : forall d c, includes (eval_designator_s S d c) (eval_designator_c S d c).
  Proof.
    intros d [r|]; [|apply inc_elementary]. apply inc_bind; [|intros; apply inc_elementary].
    destruct (dg_kind d); [|apply inc_elementary| |].
    - generalize (@nil attrval). induction (rq_subjects r) as [|s subs IH]; intros bag; [apply inc_elementary|].
      apply inc_bind; [apply inc_elementary|]. intros bag1. apply inc_bind; [|apply IH].
      destruct (rq_ctxHandler r); [|apply inc_elementary].
      apply inc_bind; [apply inc_elementary|]. intros; apply inc_elementary.
    - destruct (rq_action r); apply inc_elementary.
    - destruct (rq_environment r); apply inc_elementary.
  Qed.
  Lemma inc_expr : forall c x, includes (eval_expr_s S c x) (eval_expr_c S c x).
  Proof.
    intros c x. induction x as [fid f args IH|v|d|s] using expr_ind'.
    - apply inc_bind.
      + apply inc_mapM. rewrite Forall_forall in IH. exact IH.
      + intros vs. destruct f; apply inc_elementary.
    - apply inc_elementary.
    - apply inc_designator.
    - apply inc_elementary.
  Qed.
  Lemma inc_match : forall c m, includes (eval_match_s S c m) (eval_match_c S c m).
  Proof.
    intros c m. apply inc_bind.
    - destruct (mt_designator m); [apply inc_designator|]. destruct (mt_selector m); apply inc_elementary.
    - intros bag. apply inc_bind; [|intros; apply inc_elementary]. apply inc_mapM. intros v _.
      unfold match_fn_apply_s, match_fn_apply_c. destruct (mt_fn m); apply inc_elementary.
  Qed.
  Lemma inc_target : forall c t, includes (target_match_s S c t) (target_match_c S c t).
  Proof.
    intros c t. apply inc_bind; [|intros; apply inc_elementary]. apply inc_mapM. intros s _.
    unfold match_section_s, match_section_c. destruct s as [|ch s]; [apply inc_elementary|].
    generalize false. generalize (ch :: s). induction l as [|x l IH]; intros st; [apply inc_elementary|].
    apply inc_bind; [|intros; apply IH]. apply inc_bind; [|intros; apply inc_elementary].
    apply inc_mapM. intros; apply inc_match.
  Qed.
  Lemma inc_rule : forall c r, includes (rule_eval_s S c r) (rule_eval_c S c r).
  Proof.
    intros c r. apply inc_catch, inc_bind.
    - destruct (rl_target r); [apply inc_target|apply inc_elementary].
    - intros []; [|apply inc_elementary]. apply inc_bind.
      + destruct (rl_condition r) as [[x|]|]; [apply inc_expr|apply inc_elementary..].
      + intros st. destruct (truthy st); [|apply inc_elementary]. destruct (rl_effect r); apply inc_elementary.
  Qed.
  Lemma inc_rules : forall c alg rules,
    includes (combine_rules_s alg (rule_eval_s S c) rules) (combine_rules_c alg (rule_eval_c S c) rules).
  Proof.
    intros c [] rules; simpl.
    - generalize false at 1 4. generalize false at 1 3. generalize false.
      induction rules as [|r rules IH]; intros p b a.
      + simpl. destruct b, p, a; apply inc_elementary.
      + apply inc_bind; [apply inc_rule|]. intros []; try apply IH; try apply inc_elementary.
        destruct (rl_effect r) as [[|]|]; [apply IH..|apply inc_elementary].
    - generalize false at 1 4. generalize false at 1 3. generalize false.
      induction rules as [|r rules IH]; intros p b a.
      + simpl. destruct b, p, a; apply inc_elementary.
      + apply inc_bind; [apply inc_rule|]. intros []; try apply IH; try apply inc_elementary.
        destruct (rl_effect r) as [[|]|]; [apply IH..|apply inc_elementary].
    - induction rules as [|r rules IH]; [apply inc_elementary|].
      apply inc_bind; [apply inc_rule|]. intros []; try apply IH; apply inc_elementary.
  Qed.
  Lemma inc_policies : forall c alg ps, Forall (fun q => includes (policy_eval_s S c q) (policy_eval_c S c q)) ps ->
    includes (combine_policies_s alg (policy_eval_s S c) ps) (combine_policies_c alg (policy_eval_c S c) ps).
  Proof.
    intros c [] ps H; simpl.
    - generalize false. induction H as [|q ps Hq _ IH]; intros p; [destruct p; apply inc_elementary|].
      apply inc_bind; [exact Hq|]. intros []; try apply IH; apply inc_elementary.
    - generalize false at 2 4. generalize false. induction H as [|q ps Hq _ IH]; intros a b;
        [simpl; destruct a, b; apply inc_elementary|].
      apply inc_bind; [exact Hq|]. intros []; try apply IH; apply inc_elementary.
    - induction H as [|q ps Hq _ IH]; [apply inc_elementary|].
      apply inc_bind; [exact Hq|]. intros []; try apply IH; apply inc_elementary.
  Qed.
  Lemma inc_policy : forall c p, includes (policy_eval_s S c p) (policy_eval_c S c p).
  Proof.
    intros c p. induction p as [m t alg rules|m t alg ps IH] using policybase_ind'; simpl; apply inc_catch, inc_bind.
    - destruct t; [apply inc_target|apply inc_elementary].
    - intros []; [|apply inc_elementary]. destruct alg; [apply inc_rules|apply inc_elementary].
    - destruct t; [apply inc_target|apply inc_elementary].
    - intros []; [|apply inc_elementary]. destruct alg; [apply inc_policies, IH|apply inc_elementary].
  Qed.
End Plain.
