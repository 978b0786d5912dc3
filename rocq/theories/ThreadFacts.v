(** Proofs about threads. *)
From Verif Require Import EvalState EvalThreads SpecEval SpecState SpecThreads.
From Verif Require Import EvalFacts EvalFacts2 EvalFacts3 StateFacts.
From Coq Require Import Lia.

(** ** A logic for threads

    [keeps S Q P x]: whatever other threads do to a valid cache and to the query log,
    [x] stores only valid entries, makes only queries satisfying [Q], and ends with an
    outcome satisfying [P]. *)
Section Logic.
  Variable S : senv.

  Definition found_ok (p : string) (o : option string) : Prop :=
    o = None \/ (o = Some p /\ fe_compile (sn_fenv S) p = None).

  Inductive keeps {A} (Q : request * designator -> Prop) (P : res A -> Prop) : TH A -> Prop :=
  | K_done : forall r, P r -> keeps Q P (Done r)
  | K_get : forall p k, (forall o, found_ok p o -> keeps Q P (k o)) -> keeps Q P (CacheGet p k)
  | K_set : forall p k, fe_compile (sn_fenv S) p = None -> keeps Q P k -> keeps Q P (CacheSet p p k)
  | K_pip : forall r d k, Q (r, d) -> (forall h, keeps Q P (k (sn_pip S h r d))) ->
      keeps Q P (PipQuery r d k).

  Lemma keeps_then : forall A B Q (x : TH A) (f : res A -> TH B) (P : res A -> Prop) (R : res B -> Prop),
    keeps Q P x -> (forall r, P r -> keeps Q R (f r)) -> keeps Q R (then_t x f).
  Proof.
    intros A B Q x f P R Hx Hf. induction Hx as [r H|p k H IH|p k Hc H IH|r d k Hq H IH]; cbn [then_t].
    - apply Hf, H.
    - apply K_get. exact IH.
    - apply K_set; assumption.
    - apply K_pip; [exact Hq|exact IH].
  Qed.

  Lemma keeps_bind : forall A B Q (x : TH A) (f : A -> TH B) (P : res A -> Prop) (R : res B -> Prop),
    keeps Q P x -> (forall e, P (Raise e) -> R (Raise e)) -> (forall a, P (Ok a) -> keeps Q R (f a)) ->
    keeps Q R (bind_t x f).
  Proof.
    intros A B Q x f P R Hx He Hf. apply (keeps_then _ _ _ _ _ P); [exact Hx|].
    intros [a|e] H; [apply Hf, H|apply K_done, He, H].
  Qed.

  Lemma keeps_weaken : forall A (Q Q' : request * designator -> Prop) (x : TH A) (P P' : res A -> Prop),
    (forall q, Q q -> Q' q) -> (forall r, P r -> P' r) -> keeps Q P x -> keeps Q' P' x.
  Proof.
    intros A Q Q' x P P' HQ HP Hx. induction Hx as [r H|p k H IH|p k Hc H IH|r d k Hq H IH].
    - apply K_done, HP, H.
    - apply K_get. exact IH.
    - apply K_set; assumption.
    - apply K_pip; [apply HQ, Hq|exact IH].
  Qed.

  Lemma keeps_fn : forall Q f args, keeps Q (eq (fn_eval (sn_fenv S) f args)) (fn_eval_t S f args).
  Proof.
    intros Q f args. destruct f; try (apply K_done; reflexivity).
    cbn [fn_eval_t fn_eval]. unfold regexp_eval_t, regexp_eval.
    destruct args as [|x [|y [|z l]]].
    - apply K_done. reflexivity.
    - destruct x; apply K_done; reflexivity.
    - destruct x as [|a| |], y as [|b| |]; try (apply K_done; reflexivity);
        destruct (av_isinstance a c); try (apply K_done; reflexivity).
      destruct (av_isinstance b c); [|apply K_done; reflexivity].
      unfold regexp_values_t, regexp_values.
      destruct (av_value a) as [|p| | | | | |]; try (apply K_done; reflexivity).
      apply K_get. intros o [->|[-> Hc]].
      + destruct (fe_compile (sn_fenv S) p) as [e|] eqn:Hc; [apply K_done; reflexivity|].
        apply K_set; [exact Hc|]. destruct (av_value b); apply K_done; reflexivity.
      + rewrite Hc. destruct (av_value b); apply K_done; reflexivity.
    - destruct x as [|a| |], y as [|b| |]; apply K_done; reflexivity.
  Qed.
End Logic.

(** ** Agreement with the pure evaluator *)
Section Follow.
  Variable S : senv.
  Hypothesis Hind : history_independent S.
  Let E := env_of S [].

  Definition follows {A} (x : TH A) (r : res A) : Prop := keeps S (fun _ => True) (eq r) x.

  Lemma follows_bind : forall A B (x : TH A) (f : A -> TH B) rx (g : A -> res B),
    follows x rx -> (forall a, rx = Ok a -> follows (f a) (g a)) ->
    follows (bind_t x f) (bind rx g).
  Proof.
    intros A B x f rx g Hx Hf. unfold follows in *. eapply keeps_bind; [exact Hx| |].
    - intros e ->. reflexivity.
    - intros a ->. simpl. apply Hf. reflexivity.
  Qed.
  Lemma follows_ret : forall A (a : A), follows (ret_t a) (Ok a).
  Proof. intros. apply K_done. reflexivity. Qed.
  Lemma follows_raise : forall A e, follows (@raise_t A e) (Raise e).
  Proof. intros. apply K_done. reflexivity. Qed.
  Lemma follows_lift : forall A (r : res A), follows (lift_t r) r.
  Proof. intros. apply K_done. reflexivity. Qed.
  Lemma follows_fn : forall f args, follows (fn_eval_t S f args) (fn_eval (en_fenv E) f args).
  Proof. intros. apply keeps_fn. Qed.
  Lemma follows_pip : forall r d, follows (pip_query_t r d) (en_pip E r d).
  Proof.
    intros r d. apply K_pip; [exact I|]. intros h. apply K_done. cbn. symmetry. apply Hind.
  Qed.
  Lemma follows_catch : forall x r, follows x r -> follows (catch_exception_t x) (catch_exception r).
  Proof.
    intros x r H. apply (keeps_then _ _ _ _ _ _ _ _ H). intros r' <-. apply K_done. reflexivity.
  Qed.

  Lemma follows_mapM : forall A B (f : A -> TH B) (g : A -> res B) l,
    (forall x, In x l -> follows (f x) (g x)) -> follows (mapM_t f l) (mapM g l).
  Proof.
    induction l as [|x l IH]; intros H; [apply follows_ret|].
    simpl. apply follows_bind; [apply H; left; reflexivity|]. intros y _.
    apply follows_bind; [apply IH; intros; apply H; right; assumption|].
    intros ys _. apply follows_ret.
  Qed.

  Lemma follows_subjects : forall r d et subs bag,
    follows (collect_subjects_t S r d et bag subs) (collect_subjects E r d et bag subs).
  Proof.
    induction subs as [|s subs IH]; intros bag; simpl; [apply follows_ret|].
    apply follows_bind; [apply follows_lift|]. intros bag1 _.
    apply follows_bind; [|auto].
    destruct (rq_ctxHandler r); [|apply follows_ret].
    apply (follows_bind _ _ _ _ (en_pip E r d)); [apply follows_pip|].
    intros ans _. apply follows_lift.
  Qed.

  Lemma follows_designator : forall d c,
    follows (eval_designator_t S d c) (eval_designator E d c).
  Proof.
    intros d [r|]; simpl; [|apply follows_raise].
    apply follows_bind; [|intros; apply follows_lift].
    destruct (dg_kind d).
    - apply follows_subjects.
    - apply follows_lift.
    - destruct (rq_action r); [apply follows_lift|apply follows_raise].
    - destruct (rq_environment r); [apply follows_lift|apply follows_raise].
  Qed.

  Lemma follows_expr : forall c x, follows (eval_expr_t S c x) (eval_expr E c x).
  Proof.
    intros c x. induction x as [fid f args IH|v|d|s] using expr_ind'; simpl.
    - apply follows_bind.
      + apply follows_mapM. rewrite Forall_forall in IH. exact IH.
      + intros vs _. destruct f; [apply follows_fn|apply follows_raise].
    - apply follows_ret.
    - apply follows_designator.
    - apply follows_lift.
  Qed.

  Lemma follows_match : forall c m, follows (eval_match_t S c m) (eval_match E c m).
  Proof.
    intros c m. unfold eval_match_t, eval_match. apply follows_bind.
    - destruct (mt_designator m); [apply follows_designator|].
      destruct (mt_selector m); [apply follows_lift|apply follows_raise].
    - intros bag _. apply follows_bind; [|intros; apply follows_ret].
      apply follows_mapM. intros v _. unfold match_fn_apply_t, match_fn_apply.
      destruct (mt_fn m); [apply follows_fn|apply follows_raise].
  Qed.

  Lemma follows_section_loop : forall c children st,
    follows (section_loop_t S c st children) (section_loop E c st children).
  Proof.
    induction children as [|ch rest IH]; intros st; simpl; [apply follows_ret|].
    apply follows_bind; [|auto].
    unfold match_child_t, match_child. apply follows_bind; [|intros; apply follows_ret].
    apply follows_mapM. intros; apply follows_match.
  Qed.

  Lemma follows_target : forall c t, follows (target_match_t S c t) (target_match E c t).
  Proof.
    intros c t. unfold target_match_t, target_match.
    apply follows_bind; [|intros; apply follows_ret].
    apply follows_mapM. intros s _. unfold match_section_t, match_section.
    destruct s; [apply follows_ret|apply follows_section_loop].
  Qed.

  Lemma follows_rule : forall c r, follows (rule_eval_t S c r) (rule_eval E c r).
  Proof.
    intros c r. unfold rule_eval_t, rule_eval. apply follows_catch.
    unfold rule_body_t, rule_body. apply follows_bind.
    - destruct (rl_target r); [apply follows_target|apply follows_ret].
    - intros [] _; simpl; [|apply follows_ret]. apply follows_bind.
      + destruct (rl_condition r) as [[x|]|]; simpl;
          [apply follows_expr|apply follows_raise|apply follows_ret].
      + intros st _. destruct (truthy st); [|apply follows_ret].
        destruct (rl_effect r); [apply follows_ret|apply follows_raise].
  Qed.

  Lemma follows_deny_rules : forall ev ev' rules a b c,
    (forall r, In r rules -> follows (ev r) (ev' r)) ->
    follows (rules_deny_overrides_t ev a b c rules) (rules_deny_overrides ev' a b c rules).
  Proof.
    induction rules as [|r rules IH]; intros a b c H; simpl.
    - destruct b, c, a; apply follows_ret.
    - apply follows_bind; [apply H; left; reflexivity|].
      assert (H' : forall r, In r rules -> follows (ev r) (ev' r))
        by (intros; apply H; right; assumption).
      intros [] _; auto using follows_ret.
      destruct (rl_effect r) as [[|]|]; auto using follows_raise.
  Qed.

  Lemma follows_permit_rules : forall ev ev' rules a b c,
    (forall r, In r rules -> follows (ev r) (ev' r)) ->
    follows (rules_permit_overrides_t ev a b c rules) (rules_permit_overrides ev' a b c rules).
  Proof.
    induction rules as [|r rules IH]; intros a b c H; simpl.
    - destruct b, c, a; apply follows_ret.
    - apply follows_bind; [apply H; left; reflexivity|].
      assert (H' : forall r, In r rules -> follows (ev r) (ev' r))
        by (intros; apply H; right; assumption).
      intros [] _; auto using follows_ret.
      destruct (rl_effect r) as [[|]|]; auto using follows_raise.
  Qed.

  Lemma follows_first_rules : forall ev ev' rules,
    (forall r, In r rules -> follows (ev r) (ev' r)) ->
    follows (rules_first_applicable_t ev rules) (rules_first_applicable ev' rules).
  Proof.
    induction rules as [|r rules IH]; intros H; simpl; [apply follows_ret|].
    apply follows_bind; [apply H; left; reflexivity|].
    intros [] _; auto using follows_ret. apply IH. intros; apply H; right; assumption.
  Qed.

  Lemma follows_combine_rules : forall alg ev ev' rules,
    (forall r, In r rules -> follows (ev r) (ev' r)) ->
    follows (combine_rules_t alg ev rules) (combine_rules alg ev' rules).
  Proof.
    intros [] ev ev' rules H;
      [apply follows_deny_rules|apply follows_permit_rules|apply follows_first_rules]; exact H.
  Qed.

  Lemma follows_deny_policies : forall ev ev' ps a,
    (forall r, In r ps -> follows (ev r) (ev' r)) ->
    follows (policies_deny_overrides_t ev a ps) (policies_deny_overrides ev' a ps).
  Proof.
    induction ps as [|r ps IH]; intros a H; simpl.
    - destruct a; apply follows_ret.
    - apply follows_bind; [apply H; left; reflexivity|].
      assert (H' : forall r, In r ps -> follows (ev r) (ev' r))
        by (intros; apply H; right; assumption).
      intros [] _; auto using follows_ret.
  Qed.

  Lemma follows_permit_policies : forall ev ev' ps a b,
    (forall r, In r ps -> follows (ev r) (ev' r)) ->
    follows (policies_permit_overrides_t ev a b ps) (policies_permit_overrides ev' a b ps).
  Proof.
    induction ps as [|r ps IH]; intros a b H; simpl.
    - destruct b, a; apply follows_ret.
    - apply follows_bind; [apply H; left; reflexivity|].
      assert (H' : forall r, In r ps -> follows (ev r) (ev' r))
        by (intros; apply H; right; assumption).
      intros [] _; auto using follows_ret.
  Qed.

  Lemma follows_first_policies : forall ev ev' ps,
    (forall r, In r ps -> follows (ev r) (ev' r)) ->
    follows (policies_first_applicable_t ev ps) (policies_first_applicable ev' ps).
  Proof.
    induction ps as [|r ps IH]; intros H; simpl; [apply follows_ret|].
    apply follows_bind; [apply H; left; reflexivity|].
    intros [] _; auto using follows_ret. apply IH. intros; apply H; right; assumption.
  Qed.

  Lemma follows_combine_policies : forall alg ev ev' ps,
    (forall p, In p ps -> follows (ev p) (ev' p)) ->
    follows (combine_policies_t alg ev ps) (combine_policies alg ev' ps).
  Proof.
    intros [] ev ev' ps H;
      [apply follows_deny_policies|apply follows_permit_policies|apply follows_first_policies]; exact H.
  Qed.

  Lemma follows_with_target : forall c t k k',
    follows k k' -> follows (with_target_t S c t k) (with_target E c t k').
  Proof.
    intros c t k k' H. unfold with_target_t, with_target. apply follows_bind.
    - destruct t; [apply follows_target|apply follows_ret].
    - intros [] _; simpl; [exact H|apply follows_ret].
  Qed.

  Lemma follows_policy : forall c p, follows (policy_eval_t S c p) (policy_eval E c p).
  Proof.
    intros c p. induction p as [m t alg rules|m t alg ps IH] using policybase_ind'; simpl.
    - apply follows_catch, follows_with_target. destruct alg; [|apply follows_raise].
      apply follows_combine_rules. intros; apply follows_rule.
    - apply follows_catch, follows_with_target. destruct alg; [|apply follows_raise].
      apply follows_combine_policies. rewrite Forall_forall in IH. exact IH.
  Qed.


  Lemma follows_evaluations : forall calls,
    follows (evaluations_t S calls) (Ok (map (fun pc => policy_eval E (snd pc) (fst pc)) calls)).
  Proof.
    induction calls as [|[p c] calls IH]; [apply follows_ret|]. cbn [evaluations_t map fst snd].
    apply (keeps_then _ _ _ _ _ _ _ _ (follows_policy c p)). intros r <-.
    apply (keeps_then _ _ _ _ _ _ _ _ IH). intros r <-. apply K_done. reflexivity.
  Qed.
End Follow.

(** ** Any attribute source *)
Section Fair.
  Variable S : senv.
  Notation contained := (contained S).
  Notation ctx_asked := ctx_asked.

  Definition fair {A} (c : context) (ds : list designator) (x : TH A) : Prop :=
    keeps S (ctx_asked c ds) contained x.

  Lemma fair_bind : forall A B c ds (x : TH A) (f : A -> TH B),
    fair c ds x -> (forall a, fair c ds (f a)) -> fair c ds (bind_t x f).
  Proof.
    intros A B c ds x f Hx Hf. eapply keeps_bind; [exact Hx| |intros; apply Hf].
    intros e He e' He'. injection He' as <-. apply He; reflexivity.
  Qed.
  Lemma fair_ret : forall A c ds (a : A), fair c ds (ret_t a).
  Proof. intros. apply K_done. intros e He; discriminate. Qed.
  Lemma fair_raise : forall A c ds e, is_exception e = true -> fair c ds (@raise_t A e).
  Proof. intros. apply K_done. intros e' He; injection He as <-; auto. Qed.
  Lemma fair_lift : forall A c ds (r : res A), contained r -> fair c ds (lift_t r).
  Proof. intros. apply K_done. assumption. Qed.
  Lemma fair_fn : forall c ds f args, fair c ds (fn_eval_t S f args).
  Proof.
    intros c ds f args. apply (keeps_weaken S _ (ctx_asked c ds) _ _ (eq (fn_eval (sn_fenv S) f args)));
      [auto| |apply keeps_fn].
    intros r <-. apply (contained_of_safe S _ _ []), (fn_eval_safe (env_of S []) f args).
  Qed.
  Lemma fair_pip : forall r d, dg_kind d = DSubject -> rq_ctxHandler r <> None ->
    fair (CtxRequest r) [d] (pip_query_t r d).
  Proof.
    intros r d Hk Hh. apply K_pip.
    - exists r. split; [reflexivity|]. split; [reflexivity|].
      split; [left; reflexivity|]. split; assumption.
    - intros h. apply K_done. intros e He. right. left. eauto.
  Qed.
  Lemma fair_catch : forall c ds x, fair c ds x -> fair c ds (catch_exception_t x).
  Proof.
    intros c ds x H. apply (keeps_then _ _ _ _ _ _ _ _ H). intros r Hr. apply K_done. intros e He.
    apply catch_exception_raise in He. destruct He as [He _]. apply Hr; exact He.
  Qed.

  Lemma fair_mono : forall A c ds ds' (x : TH A), incl ds ds' -> fair c ds x -> fair c ds' x.
  Proof.
    intros A c ds ds' x Hi. apply keeps_weaken; auto.
    intros q (r & Hr & H1 & H2 & H3 & H4). exists r. split; [exact Hr|].
    split; [exact H1|]. split; [apply Hi; exact H2|]. split; assumption.
  Qed.

  Lemma fair_mapM : forall A B c ds (f : A -> TH B) l,
    (forall x, In x l -> fair c ds (f x)) -> fair c ds (mapM_t f l).
  Proof.
    induction l as [|x l IH]; intros H; [apply fair_ret|]. simpl.
    apply fair_bind; [apply H; left; reflexivity|]. intros y.
    apply fair_bind; [apply IH; intros; apply H; right; assumption|].
    intros; apply fair_ret.
  Qed.

  Lemma fair_subjects : forall r d et subs bag, dg_kind d = DSubject ->
    fair (CtxRequest r) [d] (collect_subjects_t S r d et bag subs).
  Proof.
    intros r d et subs bag Hk. revert bag.
    induction subs as [|s subs IH]; intros bag; simpl; [apply fair_ret|].
    apply fair_bind.
    - apply fair_lift. apply (contained_of_safe S _ _ []), collect_attrs_safe.
    - intros bag1. apply fair_bind; [|auto].
      destruct (rq_ctxHandler r) eqn:Hh; [|apply fair_ret].
      apply fair_bind; [apply fair_pip; [exact Hk|congruence]|].
      intros ans. apply fair_lift. apply (contained_of_safe S _ _ []), add_pip_values_safe.
  Qed.

  Lemma fair_designator : forall d c, fair c [d] (eval_designator_t S d c).
  Proof.
    intros d [r|]; simpl; [|apply fair_raise; reflexivity].
    apply fair_bind; [|intros; apply fair_lift; apply (contained_of_safe S _ _ []), check_present_safe].
    destruct (dg_kind d) eqn:Hk.
    - apply fair_subjects; exact Hk.
    - apply fair_lift. apply (contained_of_safe S _ _ []), collect_resources_safe.
    - destruct (rq_action r); [|apply fair_raise; reflexivity].
      apply fair_lift. apply (contained_of_safe S _ _ []), collect_attrs_safe.
    - destruct (rq_environment r); [|apply fair_raise; reflexivity].
      apply fair_lift. apply (contained_of_safe S _ _ []), collect_attrs_safe.
  Qed.

  Lemma fair_selector : forall s c ds, fair c ds (eval_selector_t S s c).
  Proof.
    intros. apply fair_lift. apply (contained_of_safe S _ _ []), eval_selector_safe.
  Qed.

  Lemma fair_expr : forall c x, fair c (designators_expr x) (eval_expr_t S c x).
  Proof.
    intros c x. induction x as [fid f args IH|v|d|s] using expr_ind'; simpl.
    - apply fair_bind.
      + apply fair_mapM. intros y Hy. rewrite Forall_forall in IH.
        eapply fair_mono; [|apply IH; exact Hy].
        intros d Hd. apply in_flat_map. eauto.
      + intros vs. destruct f; [apply fair_fn|apply fair_raise; reflexivity].
    - apply fair_ret.
    - apply fair_designator.
    - apply fair_selector.
  Qed.

  Lemma fair_match : forall c m, fair c (designators_match m) (eval_match_t S c m).
  Proof.
    intros c m. unfold eval_match_t, designators_match. apply fair_bind.
    - destruct (mt_designator m); [apply fair_designator|].
      destruct (mt_selector m); [apply fair_selector|apply fair_raise; reflexivity].
    - intros bag. apply fair_bind; [|intros; apply fair_ret].
      apply fair_mapM. intros v _. unfold match_fn_apply_t.
      destruct (mt_fn m); [apply fair_fn|apply fair_raise; reflexivity].
  Qed.

  Lemma fair_section_loop : forall c ds children st,
    (forall ch m, In ch children -> In m ch -> incl (designators_match m) ds) ->
    fair c ds (section_loop_t S c st children).
  Proof.
    induction children as [|ch rest IH]; intros st H; simpl; [apply fair_ret|].
    apply fair_bind.
    - unfold match_child_t. apply fair_bind; [|intros; apply fair_ret].
      apply fair_mapM. intros m Hm. eapply fair_mono; [|apply fair_match].
      eapply H; [left; reflexivity|exact Hm].
    - intros b. apply IH. intros ch' m H1 H2. eapply H; [right; exact H1|exact H2].
  Qed.

  Lemma fair_target : forall c t, fair c (designators_target (Some t)) (target_match_t S c t).
  Proof.
    intros c t. unfold target_match_t.
    apply fair_bind; [|intros; apply fair_ret].
    apply fair_mapM. intros s Hs. unfold match_section_t.
    destruct s as [|ch s]; [apply fair_ret|]. apply fair_section_loop.
    intros ch' m Hch Hm d Hd. simpl. apply in_flat_map. exists m. split; [|exact Hd].
    unfold target_matches. apply in_concat. exists ch'. split; [|exact Hm].
    rewrite !in_app_iff.
    destruct Hs as [Hs|[Hs|[Hs|[Hs|[]]]]]; rewrite Hs; tauto.
  Qed.

  Lemma fair_rule : forall c r, fair c (designators_rule r) (rule_eval_t S c r).
  Proof.
    intros c r. unfold rule_eval_t. apply fair_catch. unfold rule_body_t.
    apply fair_bind.
    - destruct (rl_target r) eqn:Ht; [|apply fair_ret].
      eapply fair_mono; [|apply fair_target]. unfold designators_rule. rewrite Ht.
      intros d Hd. apply in_app_iff; left; exact Hd.
    - intros []; simpl; [|apply fair_ret]. apply fair_bind.
      + destruct (rl_condition r) as [[x|]|] eqn:Hc; simpl;
          [|apply fair_raise; reflexivity|apply fair_ret].
        eapply fair_mono; [|apply fair_expr]. unfold designators_rule. rewrite Hc.
        intros d Hd. apply in_app_iff; right; exact Hd.
      + intros st. destruct (truthy st); [|apply fair_ret].
        destruct (rl_effect r); [apply fair_ret|apply fair_raise; reflexivity].
  Qed.

  Lemma fair_deny_rules : forall cx ds ev rules a b c,
    (forall r, In r rules -> fair cx ds (ev r)) ->
    fair cx ds (rules_deny_overrides_t ev a b c rules).
  Proof.
    induction rules as [|r rules IH]; intros a b c H; simpl.
    - destruct b, c, a; apply fair_ret.
    - apply fair_bind; [apply H; left; reflexivity|].
      assert (H' : forall r, In r rules -> fair cx ds (ev r))
        by (intros; apply H; right; assumption).
      intros []; auto using fair_ret.
      destruct (rl_effect r) as [[|]|]; auto using fair_raise.
  Qed.

  Lemma fair_permit_rules : forall cx ds ev rules a b c,
    (forall r, In r rules -> fair cx ds (ev r)) ->
    fair cx ds (rules_permit_overrides_t ev a b c rules).
  Proof.
    induction rules as [|r rules IH]; intros a b c H; simpl.
    - destruct b, c, a; apply fair_ret.
    - apply fair_bind; [apply H; left; reflexivity|].
      assert (H' : forall r, In r rules -> fair cx ds (ev r))
        by (intros; apply H; right; assumption).
      intros []; auto using fair_ret.
      destruct (rl_effect r) as [[|]|]; auto using fair_raise.
  Qed.

  Lemma fair_first_rules : forall cx ds ev rules,
    (forall r, In r rules -> fair cx ds (ev r)) ->
    fair cx ds (rules_first_applicable_t ev rules).
  Proof.
    induction rules as [|r rules IH]; intros H; simpl; [apply fair_ret|].
    apply fair_bind; [apply H; left; reflexivity|].
    intros []; auto using fair_ret. apply IH. intros; apply H; right; assumption.
  Qed.

  Lemma fair_combine_rules : forall cx ds alg ev rules,
    (forall r, In r rules -> fair cx ds (ev r)) ->
    fair cx ds (combine_rules_t alg ev rules).
  Proof.
    intros cx ds [] ev rules H;
      [apply fair_deny_rules|apply fair_permit_rules|apply fair_first_rules]; exact H.
  Qed.

  Lemma fair_deny_policies : forall cx ds ev ps a,
    (forall r, In r ps -> fair cx ds (ev r)) ->
    fair cx ds (policies_deny_overrides_t ev a ps).
  Proof.
    induction ps as [|r ps IH]; intros a H; simpl.
    - destruct a; apply fair_ret.
    - apply fair_bind; [apply H; left; reflexivity|].
      assert (H' : forall r, In r ps -> fair cx ds (ev r))
        by (intros; apply H; right; assumption).
      intros []; auto using fair_ret.
  Qed.

  Lemma fair_permit_policies : forall cx ds ev ps a b,
    (forall r, In r ps -> fair cx ds (ev r)) ->
    fair cx ds (policies_permit_overrides_t ev a b ps).
  Proof.
    induction ps as [|r ps IH]; intros a b H; simpl.
    - destruct b, a; apply fair_ret.
    - apply fair_bind; [apply H; left; reflexivity|].
      assert (H' : forall r, In r ps -> fair cx ds (ev r))
        by (intros; apply H; right; assumption).
      intros []; auto using fair_ret.
  Qed.

  Lemma fair_first_policies : forall cx ds ev ps,
    (forall r, In r ps -> fair cx ds (ev r)) ->
    fair cx ds (policies_first_applicable_t ev ps).
  Proof.
    induction ps as [|r ps IH]; intros H; simpl; [apply fair_ret|].
    apply fair_bind; [apply H; left; reflexivity|].
    intros []; auto using fair_ret. apply IH. intros; apply H; right; assumption.
  Qed.

  Lemma fair_combine_policies : forall cx ds alg ev ps,
    (forall p, In p ps -> fair cx ds (ev p)) ->
    fair cx ds (combine_policies_t alg ev ps).
  Proof.
    intros cx ds [] ev ps H;
      [apply fair_deny_policies|apply fair_permit_policies|apply fair_first_policies]; exact H.
  Qed.

  Lemma fair_with_target : forall c ds t k,
    incl (designators_target t) ds -> fair c ds k -> fair c ds (with_target_t S c t k).
  Proof.
    intros c ds t k Hi Hk. unfold with_target_t. apply fair_bind.
    - destruct t; [|apply fair_ret]. eapply fair_mono; [exact Hi|apply fair_target].
    - intros []; simpl; [exact Hk|apply fair_ret].
  Qed.

  Lemma fair_policy : forall c p, fair c (designators_policy p) (policy_eval_t S c p).
  Proof.
    intros c p. induction p as [m t alg rules|m t alg ps IH] using policybase_ind'; simpl.
    - apply fair_catch, fair_with_target.
      + intros d Hd; apply in_app_iff; left; exact Hd.
      + destruct alg; [|apply fair_raise; reflexivity].
        apply fair_combine_rules. intros r Hr. eapply fair_mono; [|apply fair_rule].
        intros d Hd. apply in_app_iff; right. apply in_flat_map; eauto.
    - apply fair_catch, fair_with_target.
      + intros d Hd; apply in_app_iff; left; exact Hd.
      + destruct alg; [|apply fair_raise; reflexivity].
        apply fair_combine_policies. intros q Hq. rewrite Forall_forall in IH.
        eapply fair_mono; [|apply IH; exact Hq].
        intros d Hd. apply in_app_iff; right. apply in_flat_map; eauto.
  Qed.
End Fair.

(** ** One thread alone behaves as the state passing evaluator *)
Section Alone.
  Variable S : senv.
  Definition sh (w : world) : shared := mkShared (w_log w) (w_cache w).

  Definition alone {A} (x : TH A) (y : ST A) : Prop :=
    forall w, run_alone S x (sh w) = (fst (y w), sh (snd (y w))).

  Lemma run_then : forall A B (x : TH A) (f : res A -> TH B) w,
    run_alone S (then_t x f) w = run_alone S (f (fst (run_alone S x w))) (snd (run_alone S x w)).
  Proof.
    intros A B x f. induction x as [r|p k IH|p c k IH|r d k IH]; intros w; cbn [then_t run_alone fst snd];
      [reflexivity|apply IH..].
  Qed.

  Lemma alone_bind : forall A B (x : TH A) (f : A -> TH B) (y : ST A) (g : A -> ST B),
    alone x y -> (forall a, True -> alone (f a) (g a)) -> alone (bind_t x f) (bind_s y g).
  Proof.
    intros A B x f y g Hx Hf w. unfold bind_t, bind_s. rewrite run_then, Hx.
    destruct (y w) as [[a|e] w']; cbn [fst snd run_alone]; [apply Hf, I|reflexivity].
  Qed.
  Lemma alone_ret : forall A (a : A), alone (ret_t a) (ret_s a).
  Proof. intros A a w. reflexivity. Qed.
  Lemma alone_raise : forall A e, alone (@raise_t A e) (raise_s e).
  Proof. intros A e w. reflexivity. Qed.
  Lemma alone_lift : forall A (r : res A), alone (lift_t r) (lift_s r).
  Proof. intros A r w. reflexivity. Qed.
  Lemma alone_pip : forall r d, alone (pip_query_t r d) (pip_query_s S r d).
  Proof. intros r d w. reflexivity. Qed.
  Lemma alone_fn : forall f args, alone (fn_eval_t S f args) (fn_eval_s S f args).
  Proof.
    intros f args w. destruct f; try reflexivity. cbn [fn_eval_t fn_eval_s].
    unfold regexp_eval_t, regexp_eval_s.
    destruct args as [|x [|y [|z l]]].
    - reflexivity.
    - destruct x; reflexivity.
    - destruct x as [|a| |], y as [|b| |]; try reflexivity;
        destruct (av_isinstance a c); try reflexivity.
      destruct (av_isinstance b c); [|reflexivity].
      unfold regexp_values_t, regexp_values_s.
      destruct (av_value a) as [|p| | | | | |]; try reflexivity.
      cbn [run_alone sh sh_cache]. destruct (dict_get p (w_cache w)) as [cr|].
      + destruct (av_value b); reflexivity.
      + destruct (fe_compile (sn_fenv S) p); [reflexivity|].
        destruct (av_value b); reflexivity.
    - destruct x as [|a| |], y as [|b| |]; reflexivity.
  Qed.
  Lemma alone_catch : forall x y, alone x y -> alone (catch_exception_t x) (catch_exception_s y).
  Proof.
    intros x y H w. unfold catch_exception_t, catch_exception_s. rewrite run_then, H.
    destruct (y w) as [r w']. reflexivity.
  Qed.

  Lemma alone_mapM : forall A B (f : A -> TH B) (g : A -> ST B) l,
    (forall x, In x l -> alone (f x) (g x)) -> alone (mapM_t f l) (mapM_s g l).
  Proof.
    induction l as [|x l IH]; intros H; [apply alone_ret|].
    simpl. apply alone_bind; [apply H; left; reflexivity|]. intros y _.
    apply alone_bind; [apply IH; intros; apply H; right; assumption|].
    intros ys _. apply alone_ret.
  Qed.

  Lemma alone_subjects : forall r d et subs bag,
    alone (collect_subjects_t S r d et bag subs) (collect_subjects_s S r d et bag subs).
  Proof.
    induction subs as [|s subs IH]; intros bag; simpl; [apply alone_ret|].
    apply alone_bind; [apply alone_lift|]. intros bag1 _.
    apply alone_bind; [|auto].
    destruct (rq_ctxHandler r); [|apply alone_ret].
    apply (alone_bind _ _ _ _ (pip_query_s S r d)); [apply alone_pip|].
    intros ans _. apply alone_lift.
  Qed.

  Lemma alone_designator : forall d c,
    alone (eval_designator_t S d c) (eval_designator_s S d c).
  Proof.
    intros d [r|]; simpl; [|apply alone_raise].
    apply alone_bind; [|intros; apply alone_lift].
    destruct (dg_kind d).
    - apply alone_subjects.
    - apply alone_lift.
    - destruct (rq_action r); [apply alone_lift|apply alone_raise].
    - destruct (rq_environment r); [apply alone_lift|apply alone_raise].
  Qed.

  Lemma alone_expr : forall c x, alone (eval_expr_t S c x) (eval_expr_s S c x).
  Proof.
    intros c x. induction x as [fid f args IH|v|d|s] using expr_ind'; simpl.
    - apply alone_bind.
      + apply alone_mapM. rewrite Forall_forall in IH. exact IH.
      + intros vs _. destruct f; [apply alone_fn|apply alone_raise].
    - apply alone_ret.
    - apply alone_designator.
    - apply alone_lift.
  Qed.

  Lemma alone_match : forall c m, alone (eval_match_t S c m) (eval_match_s S c m).
  Proof.
    intros c m. unfold eval_match_t, eval_match_s. apply alone_bind.
    - destruct (mt_designator m); [apply alone_designator|].
      destruct (mt_selector m); [apply alone_lift|apply alone_raise].
    - intros bag _. apply alone_bind; [|intros; apply alone_ret].
      apply alone_mapM. intros v _. unfold match_fn_apply_t, match_fn_apply_s.
      destruct (mt_fn m); [apply alone_fn|apply alone_raise].
  Qed.

  Lemma alone_section_loop : forall c children st,
    alone (section_loop_t S c st children) (section_loop_s S c st children).
  Proof.
    induction children as [|ch rest IH]; intros st; simpl; [apply alone_ret|].
    apply alone_bind; [|auto].
    unfold match_child_t, match_child_s. apply alone_bind; [|intros; apply alone_ret].
    apply alone_mapM. intros; apply alone_match.
  Qed.

  Lemma alone_target : forall c t, alone (target_match_t S c t) (target_match_s S c t).
  Proof.
    intros c t. unfold target_match_t, target_match_s.
    apply alone_bind; [|intros; apply alone_ret].
    apply alone_mapM. intros s _. unfold match_section_t, match_section_s.
    destruct s; [apply alone_ret|apply alone_section_loop].
  Qed.

  Lemma alone_rule : forall c r, alone (rule_eval_t S c r) (rule_eval_s S c r).
  Proof.
    intros c r. unfold rule_eval_t, rule_eval_s. apply alone_catch.
    unfold rule_body_t, rule_body_s. apply alone_bind.
    - destruct (rl_target r); [apply alone_target|apply alone_ret].
    - intros [] _; simpl; [|apply alone_ret]. apply alone_bind.
      + destruct (rl_condition r) as [[x|]|]; simpl;
          [apply alone_expr|apply alone_raise|apply alone_ret].
      + intros st _. destruct (truthy st); [|apply alone_ret].
        destruct (rl_effect r); [apply alone_ret|apply alone_raise].
  Qed.

  Lemma alone_deny_rules : forall ev ev' rules a b c,
    (forall r, In r rules -> alone (ev r) (ev' r)) ->
    alone (rules_deny_overrides_t ev a b c rules) (rules_deny_overrides_s ev' a b c rules).
  Proof.
    induction rules as [|r rules IH]; intros a b c H; simpl.
    - destruct b, c, a; apply alone_ret.
    - apply alone_bind; [apply H; left; reflexivity|].
      assert (H' : forall r, In r rules -> alone (ev r) (ev' r))
        by (intros; apply H; right; assumption).
      intros [] _; auto using alone_ret.
      destruct (rl_effect r) as [[|]|]; auto using alone_raise.
  Qed.

  Lemma alone_permit_rules : forall ev ev' rules a b c,
    (forall r, In r rules -> alone (ev r) (ev' r)) ->
    alone (rules_permit_overrides_t ev a b c rules) (rules_permit_overrides_s ev' a b c rules).
  Proof.
    induction rules as [|r rules IH]; intros a b c H; simpl.
    - destruct b, c, a; apply alone_ret.
    - apply alone_bind; [apply H; left; reflexivity|].
      assert (H' : forall r, In r rules -> alone (ev r) (ev' r))
        by (intros; apply H; right; assumption).
      intros [] _; auto using alone_ret.
      destruct (rl_effect r) as [[|]|]; auto using alone_raise.
  Qed.

  Lemma alone_first_rules : forall ev ev' rules,
    (forall r, In r rules -> alone (ev r) (ev' r)) ->
    alone (rules_first_applicable_t ev rules) (rules_first_applicable_s ev' rules).
  Proof.
    induction rules as [|r rules IH]; intros H; simpl; [apply alone_ret|].
    apply alone_bind; [apply H; left; reflexivity|].
    intros [] _; auto using alone_ret. apply IH. intros; apply H; right; assumption.
  Qed.

  Lemma alone_combine_rules : forall alg ev ev' rules,
    (forall r, In r rules -> alone (ev r) (ev' r)) ->
    alone (combine_rules_t alg ev rules) (combine_rules_s alg ev' rules).
  Proof.
    intros [] ev ev' rules H;
      [apply alone_deny_rules|apply alone_permit_rules|apply alone_first_rules]; exact H.
  Qed.

  Lemma alone_deny_policies : forall ev ev' ps a,
    (forall r, In r ps -> alone (ev r) (ev' r)) ->
    alone (policies_deny_overrides_t ev a ps) (policies_deny_overrides_s ev' a ps).
  Proof.
    induction ps as [|r ps IH]; intros a H; simpl.
    - destruct a; apply alone_ret.
    - apply alone_bind; [apply H; left; reflexivity|].
      assert (H' : forall r, In r ps -> alone (ev r) (ev' r))
        by (intros; apply H; right; assumption).
      intros [] _; auto using alone_ret.
  Qed.

  Lemma alone_permit_policies : forall ev ev' ps a b,
    (forall r, In r ps -> alone (ev r) (ev' r)) ->
    alone (policies_permit_overrides_t ev a b ps) (policies_permit_overrides_s ev' a b ps).
  Proof.
    induction ps as [|r ps IH]; intros a b H; simpl.
    - destruct b, a; apply alone_ret.
    - apply alone_bind; [apply H; left; reflexivity|].
      assert (H' : forall r, In r ps -> alone (ev r) (ev' r))
        by (intros; apply H; right; assumption).
      intros [] _; auto using alone_ret.
  Qed.

  Lemma alone_first_policies : forall ev ev' ps,
    (forall r, In r ps -> alone (ev r) (ev' r)) ->
    alone (policies_first_applicable_t ev ps) (policies_first_applicable_s ev' ps).
  Proof.
    induction ps as [|r ps IH]; intros H; simpl; [apply alone_ret|].
    apply alone_bind; [apply H; left; reflexivity|].
    intros [] _; auto using alone_ret. apply IH. intros; apply H; right; assumption.
  Qed.

  Lemma alone_combine_policies : forall alg ev ev' ps,
    (forall p, In p ps -> alone (ev p) (ev' p)) ->
    alone (combine_policies_t alg ev ps) (combine_policies_s alg ev' ps).
  Proof.
    intros [] ev ev' ps H;
      [apply alone_deny_policies|apply alone_permit_policies|apply alone_first_policies]; exact H.
  Qed.

  Lemma alone_with_target : forall c t k k',
    alone k k' -> alone (with_target_t S c t k) (with_target_s S c t k').
  Proof.
    intros c t k k' H. unfold with_target_t, with_target_s. apply alone_bind.
    - destruct t; [apply alone_target|apply alone_ret].
    - intros [] _; simpl; [exact H|apply alone_ret].
  Qed.

  Lemma alone_policy : forall c p, alone (policy_eval_t S c p) (policy_eval_s S c p).
  Proof.
    intros c p. induction p as [m t alg rules|m t alg ps IH] using policybase_ind'; simpl.
    - apply alone_catch, alone_with_target. destruct alg; [|apply alone_raise].
      apply alone_combine_rules. intros; apply alone_rule.
    - apply alone_catch, alone_with_target. destruct alg; [|apply alone_raise].
      apply alone_combine_policies. rewrite Forall_forall in IH. exact IH.
  Qed.


  Lemma alone_evaluations : forall calls w,
    run_alone S (evaluations_t S calls) (sh w) =
    (Ok (fst (run_evaluations S calls w)), sh (snd (run_evaluations S calls w))).
  Proof.
    induction calls as [|[p c] calls IH]; intros w; [reflexivity|].
    cbn [evaluations_t run_evaluations]. assert (H := alone_policy c p w). rewrite run_then, !H.
    destruct (policy_eval_s S c p w) as [r w1]. cbn [fst snd]. unfold bind_t.
    rewrite run_then, IH. destruct (run_evaluations S calls w1) as [rs w2]. reflexivity.
  Qed.
End Alone.

(** ** Schedules *)
Section Schedules.
  Variable S : senv.
  Context {A : Type}.

  Lemma replace_same : forall (l : list (TH A)) i x y,
    nth_error l i = Some x -> nth_error (replace_nth i y l) i = Some y.
  Proof.
    induction l as [|z l IH]; intros [|i] x y H; try discriminate H; cbn; [reflexivity|].
    apply (IH i x), H.
  Qed.
  Lemma replace_other : forall (l : list (TH A)) i j y, i <> j ->
    nth_error (replace_nth i y l) j = nth_error l j.
  Proof.
    induction l as [|z l IH]; intros [|i] [|j] y H; cbn; try reflexivity; [congruence|].
    apply IH. congruence.
  Qed.

  Lemma step_keeps : forall Q P (x : TH A) w, keeps S Q P x -> cache_ok (sn_fenv S) (sh_cache w) ->
    keeps S Q P (fst (step_t S x w)) /\ cache_ok (sn_fenv S) (sh_cache (snd (step_t S x w))) /\
    exists new, sh_log (snd (step_t S x w)) = sh_log w ++ new /\ Forall Q new.
  Proof.
    intros Q P x w Hx Hw.
    assert (N : exists new, sh_log w = sh_log w ++ new /\ Forall Q new)
      by (exists []; rewrite app_nil_r; auto).
    destruct Hx as [r H|p k H|p k Hc H|r d k Hq H]; cbn [step_t fst snd sh_cache sh_log].
    - split; [apply K_done, H|]. split; [exact Hw|exact N].
    - split; [|split; [exact Hw|exact N]]. apply H.
      destruct (dict_get p (sh_cache w)) as [q|] eqn:E; [right|left; reflexivity].
      destruct (Hw p q E) as [-> Hc]. auto.
    - split; [exact H|]. split; [|exact N].
      intros p' q Hg. destruct (String.eqb p' p) eqn:Heq.
      + apply String.eqb_eq in Heq; subst p'. rewrite dict_get_set_same in Hg.
        injection Hg as <-. auto.
      + apply String.eqb_neq in Heq. rewrite dict_get_set_other in Hg by exact Heq. auto.
    - split; [apply H|]. split; [exact Hw|]. exists [(r, d)]. repeat (constructor; auto).
  Qed.

  (** Every thread keeps its promise. *)
  Definition pool_ok (Q : nat -> request * designator -> Prop) (P : nat -> res A -> Prop)
    (s : list (TH A) * shared) : Prop :=
    cache_ok (sn_fenv S) (sh_cache (snd s)) /\
    (forall i x, nth_error (fst s) i = Some x -> keeps S (Q i) (P i) x) /\
    Forall (fun q => exists i, i < length (fst s) /\ Q i q) (sh_log (snd s)).

  Lemma replace_length : forall (l : list (TH A)) i y, length (replace_nth i y l) = length l.
  Proof. induction l as [|z l IH]; intros [|i] y; cbn; auto. Qed.

  Lemma pool_step : forall Q P i s, pool_ok Q P s -> pool_ok Q P (schedule_step S i s).
  Proof.
    intros Q P i [l w] (Hw & Hl & Hq). unfold schedule_step. cbn [fst snd] in *.
    destruct (nth_error l i) as [x|] eqn:E; [|exact (conj Hw (conj Hl Hq))].
    destruct (step_keeps _ _ x w (Hl i x E) Hw) as (H1 & H2 & new & H3 & H4).
    destruct (step_t S x w) as [x' w']. cbn [fst snd] in *.
    split; [exact H2|]. split.
    - cbn [fst]. intros j y Hj. destruct (Nat.eq_dec i j) as [->|Hne].
      + rewrite (replace_same l j x x' E) in Hj. injection Hj as <-. exact H1.
      + rewrite replace_other in Hj by exact Hne. apply Hl, Hj.
    - cbn [fst snd]. rewrite H3, replace_length. apply Forall_app. split; [exact Hq|].
      assert (i < length l) by (apply nth_error_Some; congruence).
      eapply Forall_impl; [|exact H4]. intros q K. exists i. auto.
  Qed.

  Lemma pool_run : forall Q P sched s, pool_ok Q P s -> pool_ok Q P (run_schedule S sched s).
  Proof.
    induction sched as [|i sched IH]; intros s H; [exact H|]. cbn [run_schedule]. apply IH, pool_step, H.
  Qed.

  Lemma run_app : forall a b (s : list (TH A) * shared),
    run_schedule S (a ++ b) s = run_schedule S b (run_schedule S a s).
  Proof. induction a as [|i a IH]; intros b s; [reflexivity|]. cbn [app run_schedule]. apply IH. Qed.

  (** A thread that is not scheduled stays as it is. *)
  Lemma unscheduled : forall sched i (s : list (TH A) * shared), ~ In i sched ->
    nth_error (fst (run_schedule S sched s)) i = nth_error (fst s) i.
  Proof.
    induction sched as [|j sched IH]; intros i s H; [reflexivity|]. cbn [run_schedule].
    rewrite IH by (intros K; apply H; right; exact K). unfold schedule_step.
    destruct (nth_error (fst s) j) as [x|]; [|reflexivity].
    destruct (step_t S x (snd s)) as [x' w']. cbn [fst]. apply replace_other.
    intros ->. apply H. left; reflexivity.
  Qed.

  Lemma first_turn : forall (sched : nat -> nat) i n, recurring sched i ->
    exists m, sched (n + m) = i /\ ~ In i (map sched (seq n m)).
  Proof.
    intros sched i n H. destruct (H n) as (t & Hle & Ht).
    assert (K : exists m, sched (n + m) = i) by (exists (t - n); replace (n + (t - n)) with t by lia; exact Ht).
    destruct K as (m & Hm). clear t Hle Ht. induction m as [m IH] using lt_wf_ind.
    destruct (in_dec Nat.eq_dec i (map sched (seq n m))) as [Hin|Hout]; [|exists m; auto].
    apply in_map_iff in Hin. destruct Hin as (t & Ht & Hin). apply in_seq in Hin.
    apply (IH (t - n)); [lia|]. replace (n + (t - n)) with t by lia. exact Ht.
  Qed.

  Lemma thread_ends : forall (sched : nat -> nat) i, recurring sched i ->
    forall (x : TH A) n s, nth_error (fst s) i = Some x ->
    exists m r, nth_error (fst (run_schedule S (map sched (seq n m)) s)) i = Some (Done r).
  Proof.
    intros sched i Hr x. induction x as [r|p k IH|p c k IH|rq d k IH]; intros n s Hs.
    { exists 0, r. exact Hs. }
    all: destruct (first_turn sched i n Hr) as (m & Hm & Hout).
    all: assert (K := unscheduled _ _ s Hout); rewrite Hs in K.
    all: set (s1 := run_schedule S (map sched (seq n m)) s) in *.
    all: assert (T : exists y, nth_error (fst (schedule_step S i s1)) i = Some y /\
           forall mm rr, nth_error (fst (run_schedule S (map sched (seq (n + m + 1) mm))
              (schedule_step S i s1))) i = Some (Done rr) ->
           exists m r, nth_error (fst (run_schedule S (map sched (seq n m)) s)) i = Some (Done r))
      by (unfold schedule_step at 1; rewrite K; destruct (step_t S _ (snd s1)) as [x' w'] eqn:E;
          exists x'; split; [apply (replace_same _ _ _ _ K)|];
          intros mm rr H; exists (m + (1 + mm)), rr;
          rewrite seq_app, map_app, run_app, seq_app, map_app, run_app;
          cbn [seq map run_schedule]; rewrite Hm; exact H).
    - destruct T as (y & Hy & T). assert (y = k (dict_get p (sh_cache (snd s1)))).
      { unfold schedule_step in Hy. rewrite K in Hy. cbn [step_t fst] in Hy.
        rewrite (replace_same _ _ _ _ K) in Hy. congruence. }
      subst y. destruct (IH _ (n + m + 1) _ Hy) as (mm & rr & H). apply (T mm rr), H.
    - destruct T as (y & Hy & T). assert (y = k).
      { unfold schedule_step in Hy. rewrite K in Hy. cbn [step_t fst] in Hy.
        rewrite (replace_same _ _ _ _ K) in Hy. congruence. }
      subst y. destruct (IH (n + m + 1) _ Hy) as (mm & rr & H). apply (T mm rr), H.
    - destruct T as (y & Hy & T). assert (y = k (sn_pip S (sh_log (snd s1)) rq d)).
      { unfold schedule_step in Hy. rewrite K in Hy. cbn [step_t fst] in Hy.
        rewrite (replace_same _ _ _ _ K) in Hy. congruence. }
      subst y. destruct (IH _ (n + m + 1) _ Hy) as (mm & rr & H). apply (T mm rr), H.
  Qed.
End Schedules.

(** ** Outcomes of a thread's evaluations, whatever the attribute source *)
Section Outcomes.
  Variable S : senv.

  Lemma keeps_range : forall Q P (x : TH decision), keeps S Q P (catch_exception_t x) ->
    keeps S Q (fun r => P r /\ exists r', r = catch_exception r') (catch_exception_t x).
  Proof.
    intros Q P x. unfold catch_exception_t.
    induction x as [r|p k IH|p c k IH|rq d k IH]; cbn [then_t]; intros H; inversion H; subst.
    - apply K_done. eauto.
    - apply K_get. auto.
    - apply K_set; auto.
    - apply K_pip; auto.
  Qed.

  Lemma outcome_policy : forall c p,
    keeps S (ctx_asked c (designators_policy p)) (decision_or_escape S) (policy_eval_t S c p).
  Proof.
    intros c p. assert (H := fair_policy S c p). unfold fair in H.
    assert (K : exists x, policy_eval_t S c p = catch_exception_t x) by (destruct p; eexists; reflexivity).
    destruct K as [x K]. rewrite K in *. apply keeps_range in H.
    eapply keeps_weaken; [intros q Hq; exact Hq| |exact H].
    intros r (Hr & r' & ->). destruct (catch_exception r') as [d|e] eqn:E; [left; eauto|right].
    exists e. split; [reflexivity|]. destruct (catch_exception_raise _ _ E) as [_ He].
    split; [exact He|]. destruct (Hr e eq_refl); [congruence|assumption].
  Qed.

  Lemma outcomes : forall calls,
    keeps S (asked_by calls)
      (fun r => exists rs, r = Ok rs /\ length rs = length calls /\ Forall (decision_or_escape S) rs)
      (evaluations_t S calls).
  Proof.
    induction calls as [|[p c] calls IH]; [apply K_done; exists []; auto|]. cbn [evaluations_t].
    eapply keeps_then; [eapply keeps_weaken; [|intros r Hr; exact Hr|apply outcome_policy]|].
    - intros q Hq. destruct q as [r d]. destruct Hq as (r' & -> & H1 & H2 & H3 & H4).
      cbn [fst snd] in *. subst r'. exists p. split; [left; reflexivity|]. auto.
    - intros r Hr. unfold bind_t.
      eapply keeps_then; [eapply keeps_weaken; [|intros x Hx; exact Hx|exact IH]|].
      + intros [r1 d1] (p1 & H1 & H2). exists p1. split; [right; exact H1|exact H2].
      + intros x (rs & -> & Hl & Hf). apply K_done. exists (r :: rs). cbn [length].
        split; [reflexivity|]. split; [congruence|]. constructor; assumption.
  Qed.
End Outcomes.

Lemma start_nth : forall S threads i x, nth_error (fst (start S threads)) i = Some x ->
  exists calls, nth_error threads i = Some calls /\ x = evaluations_t S calls.
Proof.
  intros S threads i x H. unfold start in H. cbn [fst] in H. rewrite nth_error_map in H.
  destruct (nth_error threads i) as [calls|]; [|discriminate]. injection H as <-. eauto.
Qed.

Lemma start_ok : forall S threads (Q : nat -> request * designator -> Prop) P,
  (forall i calls, nth_error threads i = Some calls -> keeps S (Q i) (P i) (evaluations_t S calls)) ->
  pool_ok S Q P (start S threads).
Proof.
  intros S threads Q P H. split; [apply cache_ok_nil|]. split; [|constructor].
  intros i x Hx. destruct (start_nth _ _ _ _ Hx) as (calls & Hc & ->). apply H, Hc.
Qed.

Lemma run_pool_length : forall S A sched (s : list (TH A) * shared),
  length (fst (run_schedule S sched s)) = length (fst s).
Proof.
  induction sched as [|i sched IH]; intros s; [reflexivity|]. cbn [run_schedule]. rewrite IH.
  unfold schedule_step. destruct (nth_error (fst s) i) as [x|]; [|reflexivity].
  destruct (step_t S x (snd s)). apply replace_length.
Qed.

Lemma finished_independent : forall S threads sched i calls rs,
  history_independent S -> nth_error threads i = Some calls -> finished S threads sched i rs ->
  rs = map (fun pc => policy_eval (env_of S []) (snd pc) (fst pc)) calls.
Proof.
  intros S threads sched i calls rs Hi Hc Hf.
  set (P := fun j (r : res (list (res decision))) => forall cs, nth_error threads j = Some cs ->
    r = Ok (map (fun pc => policy_eval (env_of S []) (snd pc) (fst pc)) cs)).
  assert (K : pool_ok S (fun _ _ => True) P (run_schedule S sched (start S threads))).
  { apply pool_run, start_ok. intros j cs Hj.
    eapply keeps_weaken; [intros q Hq; exact Hq| |apply follows_evaluations, Hi].
    intros r <- cs' Hcs. congruence. }
  destruct K as (_ & K & _). specialize (K i _ Hf). inversion K as [r Hr| | |]; subst.
  specialize (Hr calls Hc). congruence.
Qed.

Lemma schedule_outcomes : forall S threads sched,
  pool_ok S (fun j q => exists cs, nth_error threads j = Some cs /\ asked_by cs q)
    (fun j r => forall cs, nth_error threads j = Some cs ->
      exists rs, r = Ok rs /\ length rs = length cs /\ Forall (decision_or_escape S) rs)
    (run_schedule S sched (start S threads)).
Proof.
  intros S threads sched. apply pool_run, start_ok. intros j cs Hj.
  eapply keeps_weaken; [| |apply outcomes].
  - intros q Hq. exists cs. auto.
  - intros r Hr cs' Hcs. replace cs' with cs by congruence. exact Hr.
Qed.

Lemma eventually_finished : forall S threads sched i, i < length threads -> recurring sched i ->
  exists n rs, finished S threads (first_steps sched n) i rs.
Proof.
  intros S threads sched i Hi Hr.
  destruct (nth_error (fst (start S threads)) i) as [x|] eqn:E.
  2:{ apply nth_error_None in E. unfold start in E. cbn [fst] in E. rewrite map_length in E. lia. }
  destruct (thread_ends S sched i Hr x 0 _ E) as (n & r & H). exists n.
  destruct (schedule_outcomes S threads (map sched (seq 0 n))) as (_ & K & _).
  specialize (K i _ H). inversion K as [r' Hr'| | |]; subst.
  destruct (nth_error threads i) as [cs|] eqn:Ec; [|apply nth_error_None in Ec; lia].
  destruct (Hr' cs eq_refl) as (rs & -> & _). exists rs. exact H.
Qed.

(** A finished thread stays finished. *)
Lemma done_stays : forall S A sched i (s : list (TH A) * shared) r,
  nth_error (fst s) i = Some (Done r) -> nth_error (fst (run_schedule S sched s)) i = Some (Done r).
Proof.
  induction sched as [|j sched IH]; intros i s r H; [exact H|]. cbn [run_schedule]. apply IH.
  unfold schedule_step. destruct (nth_error (fst s) j) as [x|] eqn:E; [|exact H].
  destruct (Nat.eq_dec j i) as [->|Hne].
  - rewrite E in H. injection H as ->. cbn [step_t fst]. apply (replace_same _ _ _ _ E).
  - destruct (step_t S x (snd s)). cbn [fst]. rewrite replace_other by exact Hne. exact H.
Qed.

(** A single thread in the schedule is the thread alone. *)
Lemma alone_schedule : forall S A (x : TH A) w, exists n,
  run_schedule S (repeat 0 n) ([x], w) = ([Done (fst (run_alone S x w))], snd (run_alone S x w)).
Proof.
  intros S A x. induction x as [r|p k IH|p c k IH|rq d k IH]; intros w.
  - exists 0. reflexivity.
  - destruct (IH (dict_get p (sh_cache w)) w) as [n H]. exists (Datatypes.S n). exact H.
  - destruct (IH (mkShared (sh_log w) (dict_set p c (sh_cache w)))) as [n H].
    exists (Datatypes.S n). exact H.
  - destruct (IH (sn_pip S (sh_log w) rq d) (mkShared (sh_log w ++ [(rq, d)]) (sh_cache w))) as [n H].
    exists (Datatypes.S n). exact H.
Qed.
