(** Proofs about evaluation with state. *)
From Verif Require Import EvalState SpecEval SpecState EvalFacts EvalFacts2 EvalFacts3.
From Coq Require Import Lia.

(** ** Dictionaries *)

Lemma dict_get_set_same : forall V k (v : V) d, dict_get k (dict_set k v d) = Some v.
Proof.
  induction d as [|[k' v'] d IH]; simpl; [rewrite String.eqb_refl; reflexivity|].
  destruct (String.eqb k k') eqn:Hk; simpl; rewrite Hk; auto.
Qed.

Lemma dict_get_set_other : forall V k k' (v : V) d,
  k <> k' -> dict_get k (dict_set k' v d) = dict_get k d.
Proof.
  intros V k k' v d Hne. induction d as [|[k2 v2] d IH]; simpl.
  - destruct (String.eqb k k') eqn:Hk; [apply String.eqb_eq in Hk; congruence|reflexivity].
  - destruct (String.eqb k' k2) eqn:Hk'; simpl.
    + apply String.eqb_eq in Hk'; subst k2.
      destruct (String.eqb k k') eqn:Hk; [apply String.eqb_eq in Hk; congruence|reflexivity].
    + destruct (String.eqb k k2); auto.
Qed.

(** ** The cache *)


Lemma cache_ok_nil : forall F, cache_ok F [].
Proof. intros F p q H; discriminate. Qed.

Lemma regexp_values_s_ok : forall F pat inp k,
  cache_ok F k ->
  fst (regexp_values_s F pat inp k) = regexp_values F pat inp /\
  cache_ok F (snd (regexp_values_s F pat inp k)).
Proof.
  intros F pat inp k Hk. unfold regexp_values_s, regexp_values.
  destruct pat as [|p| | | | | |]; simpl; auto.
  destruct (dict_get p k) as [cr|] eqn:Hg.
  - destruct (Hk p cr Hg) as [-> Hc]. rewrite Hc. destruct inp; simpl; auto.
  - destruct (fe_compile F p) as [e|] eqn:Hc; simpl; auto.
    assert (Hok : cache_ok F (dict_set p p k)).
    { intros p' q Hg'. destruct (String.eqb p' p) eqn:Heq.
      - apply String.eqb_eq in Heq; subst p'. rewrite dict_get_set_same in Hg'.
        injection Hg' as <-. auto.
      - apply String.eqb_neq in Heq. rewrite dict_get_set_other in Hg' by exact Heq. auto. }
    destruct inp; simpl; auto.
Qed.

Lemma regexp_eval_s_ok : forall F c args k,
  cache_ok F k ->
  fst (regexp_eval_s F c args k) = regexp_eval F c args /\
  cache_ok F (snd (regexp_eval_s F c args k)).
Proof.
  intros F c args k Hk. unfold regexp_eval_s, regexp_eval.
  destruct args as [|x [|y [|z l]]].
  - simpl; auto.
  - destruct x; simpl; auto.
  - destruct x as [|a| |], y as [|b| |]; simpl; auto;
      destruct (av_isinstance a c); simpl; auto.
    destruct (av_isinstance b c); simpl; auto. apply regexp_values_s_ok; exact Hk.
  - destruct x as [|a| |], y as [|b| |]; simpl; auto.
Qed.

Lemma run_regexp_ok : forall F calls k,
  cache_ok F k ->
  fst (run_regexp F calls k) = map (fun ca => regexp_eval F (fst ca) (snd ca)) calls /\
  cache_ok F (snd (run_regexp F calls k)).
Proof.
  induction calls as [|[c args] calls IH]; intros k Hk; simpl; auto.
  destruct (regexp_eval_s_ok F c args k Hk) as [H1 H2].
  destruct (regexp_eval_s F c args k) as [r k1]. simpl in *.
  destruct (IH k1 H2) as [H3 H4]. destruct (run_regexp F calls k1) as [rs k2].
  simpl in *. split; [congruence|exact H4].
Qed.

(** ** A logic for stateful computations

    [sound S Q x P]: run from any world with a valid cache, [x] keeps the cache
    valid, extends the query log by queries satisfying [Q] and its outcome
    satisfies [P]. *)
Section Logic.
  Variable S : senv.
  Definition wok (w : world) : Prop := cache_ok (sn_fenv S) (w_cache w).

  Definition sound {A} (Q : request * designator -> Prop) (x : ST A)
    (P : res A -> Prop) : Prop :=
    forall w, wok w ->
      wok (snd (x w)) /\ P (fst (x w)) /\
      exists new, w_log (snd (x w)) = w_log w ++ new /\ Forall Q new.

  Lemma sound_ret : forall A Q (a : A) (P : res A -> Prop), P (Ok a) -> sound Q (ret_s a) P.
  Proof.
    intros A Q a P H w Hw. unfold ret_s; simpl. refine (conj _ (conj _ _)); auto.
    exists []. rewrite app_nil_r. auto.
  Qed.

  Lemma sound_raise : forall A Q e (P : res A -> Prop), P (Raise e) -> sound Q (@raise_s A e) P.
  Proof.
    intros A Q a P H w Hw. unfold raise_s; simpl. refine (conj _ (conj _ _)); auto.
    exists []. rewrite app_nil_r. auto.
  Qed.

  Lemma sound_lift : forall A Q (r : res A) (P : res A -> Prop), P r -> sound Q (lift_s r) P.
  Proof.
    intros A Q a P H w Hw. unfold lift_s; simpl. refine (conj _ (conj _ _)); auto.
    exists []. rewrite app_nil_r. auto.
  Qed.

  Lemma sound_bind : forall A B Q (x : ST A) (f : A -> ST B) (P : res A -> Prop) (R : res B -> Prop),
    sound Q x P ->
    (forall e, P (Raise e) -> R (Raise e)) ->
    (forall a, P (Ok a) -> sound Q (f a) R) ->
    sound Q (bind_s x f) R.
  Proof.
    intros A B Q x f P R Hx He Hf w Hw. unfold bind_s.
    destruct (Hx w Hw) as (H1 & H2 & new & Hn & HQ).
    destruct (x w) as [[a|e] w1]; simpl in *.
    - destruct (Hf a H2 w1 H1) as (H3 & H4 & new2 & Hn2 & HQ2).
      refine (conj _ (conj _ _)); auto. exists (new ++ new2). rewrite Hn2, Hn, app_assoc.
      split; [reflexivity|]. apply Forall_app; auto.
    - refine (conj _ (conj _ _)); eauto.
  Qed.

  Lemma sound_weaken : forall A (Q Q' : request * designator -> Prop) (x : ST A) (P P' : res A -> Prop),
    (forall q, Q q -> Q' q) -> (forall r, P r -> P' r) -> sound Q x P -> sound Q' x P'.
  Proof.
    intros A Q Q' x P P' HQ HP H w Hw. destruct (H w Hw) as (H1 & H2 & new & Hn & HF).
    refine (conj _ (conj _ _)); auto. exists new. split; [exact Hn|]. eapply Forall_impl; eauto.
  Qed.

  Lemma sound_catch : forall Q (x : ST decision) (P P' : res decision -> Prop),
    sound Q x P -> (forall r, P r -> P' (catch_exception r)) ->
    sound Q (catch_exception_s x) P'.
  Proof.
    intros Q x P P' H HP w Hw. unfold catch_exception_s.
    destruct (H w Hw) as (H1 & H2 & new & Hn & HF). destruct (x w) as [r w1]; simpl in *.
    refine (conj _ (conj _ _)); eauto.
  Qed.
End Logic.

(** ** Refinement to the pure evaluator *)

Section Refine.
  Variable S : senv.
  Hypothesis Hind : history_independent S.
  Let E := env_of S [].
  Definition anyq (q : request * designator) : Prop := True.

  Definition refines {A} (x : ST A) (r : res A) : Prop := sound S anyq x (eq r).

  Lemma refines_bind : forall A B (x : ST A) (f : A -> ST B) rx (g : A -> res B),
    refines x rx -> (forall a, rx = Ok a -> refines (f a) (g a)) ->
    refines (bind_s x f) (bind rx g).
  Proof.
    intros A B x f rx g Hx Hf. unfold refines in *. eapply sound_bind; [exact Hx| |].
    - intros e ->. reflexivity.
    - intros a ->. simpl. apply Hf. reflexivity.
  Qed.

  Lemma refines_ret : forall A (a : A), refines (ret_s a) (Ok a).
  Proof. intros. apply sound_ret. reflexivity. Qed.
  Lemma refines_raise : forall A e, refines (@raise_s A e) (Raise e).
  Proof. intros. apply sound_raise. reflexivity. Qed.
  Lemma refines_lift : forall A (r : res A), refines (lift_s r) r.
  Proof. intros. apply sound_lift. reflexivity. Qed.

  Lemma refines_mapM : forall A B (f : A -> ST B) (g : A -> res B) l,
    (forall x, In x l -> refines (f x) (g x)) -> refines (mapM_s f l) (mapM g l).
  Proof.
    induction l as [|x l IH]; intros H; [apply refines_ret|].
    simpl. apply refines_bind; [apply H; left; reflexivity|]. intros y _.
    apply refines_bind; [apply IH; intros; apply H; right; assumption|].
    intros ys _. apply refines_ret.
  Qed.

  Lemma refines_fn : forall f args, refines (fn_eval_s S f args) (fn_eval (en_fenv E) f args).
  Proof.
    intros f args w Hw. unfold fn_eval_s.
    assert (Hlog : exists new : list (request * designator),
      w_log w = w_log w ++ new /\ Forall anyq new)
      by (exists []; rewrite app_nil_r; auto).
    destruct f; simpl; auto.
    destruct (regexp_eval_s_ok (sn_fenv S) c args (w_cache w) Hw) as [H1 H2].
    destruct (regexp_eval_s (sn_fenv S) c args (w_cache w)) as [r k]. simpl in *.
    refine (conj _ (conj _ _)); eauto.
  Qed.

  Lemma refines_pip : forall r d, refines (pip_query_s S r d) (en_pip E r d).
  Proof.
    intros r d w Hw. unfold pip_query_s. simpl. refine (conj _ (conj _ _)); auto.
    exists [(r, d)]. split; [reflexivity|]. repeat constructor.
  Qed.

  Lemma refines_subjects : forall r d et subs bag,
    refines (collect_subjects_s S r d et bag subs) (collect_subjects E r d et bag subs).
  Proof.
    induction subs as [|s subs IH]; intros bag; simpl; [apply refines_ret|].
    apply refines_bind; [apply refines_lift|]. intros bag1 _.
    apply refines_bind; [|auto].
    destruct (rq_ctxHandler r); [|apply refines_ret].
    apply (refines_bind _ _ _ _ (en_pip E r d)); [apply refines_pip|].
    intros ans _. apply refines_lift.
  Qed.

  Lemma refines_designator : forall d c,
    refines (eval_designator_s S d c) (eval_designator E d c).
  Proof.
    intros d [r|]; simpl; [|apply refines_raise].
    apply refines_bind; [|intros; apply refines_lift].
    destruct (dg_kind d).
    - apply refines_subjects.
    - apply refines_lift.
    - destruct (rq_action r); [apply refines_lift|apply refines_raise].
    - destruct (rq_environment r); [apply refines_lift|apply refines_raise].
  Qed.

  Lemma refines_expr : forall c x, refines (eval_expr_s S c x) (eval_expr E c x).
  Proof.
    intros c x. induction x as [fid f args IH|v|d|s] using expr_ind'; simpl.
    - apply refines_bind.
      + apply refines_mapM. rewrite Forall_forall in IH. exact IH.
      + intros vs _. destruct f; [apply refines_fn|apply refines_raise].
    - apply refines_ret.
    - apply refines_designator.
    - apply refines_lift.
  Qed.

  Lemma refines_match : forall c m, refines (eval_match_s S c m) (eval_match E c m).
  Proof.
    intros c m. unfold eval_match_s, eval_match. apply refines_bind.
    - destruct (mt_designator m); [apply refines_designator|].
      destruct (mt_selector m); [apply refines_lift|apply refines_raise].
    - intros bag _. apply refines_bind; [|intros; apply refines_ret].
      apply refines_mapM. intros v _. unfold match_fn_apply_s, match_fn_apply.
      destruct (mt_fn m); [apply refines_fn|apply refines_raise].
  Qed.

  Lemma refines_section_loop : forall c children st,
    refines (section_loop_s S c st children) (section_loop E c st children).
  Proof.
    induction children as [|ch rest IH]; intros st; simpl; [apply refines_ret|].
    apply refines_bind; [|auto].
    unfold match_child_s, match_child. apply refines_bind; [|intros; apply refines_ret].
    apply refines_mapM. intros; apply refines_match.
  Qed.

  Lemma refines_target : forall c t, refines (target_match_s S c t) (target_match E c t).
  Proof.
    intros c t. unfold target_match_s, target_match.
    apply refines_bind; [|intros; apply refines_ret].
    apply refines_mapM. intros s _. unfold match_section_s, match_section.
    destruct s; [apply refines_ret|apply refines_section_loop].
  Qed.

  Lemma refines_catch : forall x r, refines x r -> refines (catch_exception_s x) (catch_exception r).
  Proof. intros x r H. eapply sound_catch; [exact H|]. intros r' ->. reflexivity. Qed.

  Lemma refines_rule : forall c r, refines (rule_eval_s S c r) (rule_eval E c r).
  Proof.
    intros c r. unfold rule_eval_s, rule_eval. apply refines_catch.
    unfold rule_body_s, rule_body. apply refines_bind.
    - destruct (rl_target r); [apply refines_target|apply refines_ret].
    - intros [] _; simpl; [|apply refines_ret]. apply refines_bind.
      + destruct (rl_condition r) as [[x|]|]; simpl;
          [apply refines_expr|apply refines_raise|apply refines_ret].
      + intros st _. destruct (truthy st); [|apply refines_ret].
        destruct (rl_effect r); [apply refines_ret|apply refines_raise].
  Qed.

  Lemma refines_deny_rules : forall ev ev' rules a b c,
    (forall r, In r rules -> refines (ev r) (ev' r)) ->
    refines (rules_deny_overrides_s ev a b c rules) (rules_deny_overrides ev' a b c rules).
  Proof.
    induction rules as [|r rules IH]; intros a b c H; simpl.
    - destruct b, c, a; apply refines_ret.
    - apply refines_bind; [apply H; left; reflexivity|].
      assert (H' : forall r, In r rules -> refines (ev r) (ev' r))
        by (intros; apply H; right; assumption).
      intros [] _; auto using refines_ret.
      destruct (rl_effect r) as [[|]|]; auto using refines_raise.
  Qed.

  Lemma refines_permit_rules : forall ev ev' rules a b c,
    (forall r, In r rules -> refines (ev r) (ev' r)) ->
    refines (rules_permit_overrides_s ev a b c rules) (rules_permit_overrides ev' a b c rules).
  Proof.
    induction rules as [|r rules IH]; intros a b c H; simpl.
    - destruct b, c, a; apply refines_ret.
    - apply refines_bind; [apply H; left; reflexivity|].
      assert (H' : forall r, In r rules -> refines (ev r) (ev' r))
        by (intros; apply H; right; assumption).
      intros [] _; auto using refines_ret.
      destruct (rl_effect r) as [[|]|]; auto using refines_raise.
  Qed.

  Lemma refines_first_rules : forall ev ev' rules,
    (forall r, In r rules -> refines (ev r) (ev' r)) ->
    refines (rules_first_applicable_s ev rules) (rules_first_applicable ev' rules).
  Proof.
    induction rules as [|r rules IH]; intros H; simpl; [apply refines_ret|].
    apply refines_bind; [apply H; left; reflexivity|].
    intros [] _; auto using refines_ret. apply IH. intros; apply H; right; assumption.
  Qed.

  Lemma refines_combine_rules : forall alg ev ev' rules,
    (forall r, In r rules -> refines (ev r) (ev' r)) ->
    refines (combine_rules_s alg ev rules) (combine_rules alg ev' rules).
  Proof.
    intros [] ev ev' rules H;
      [apply refines_deny_rules|apply refines_permit_rules|apply refines_first_rules]; exact H.
  Qed.

  Lemma refines_deny_policies : forall ev ev' ps a,
    (forall r, In r ps -> refines (ev r) (ev' r)) ->
    refines (policies_deny_overrides_s ev a ps) (policies_deny_overrides ev' a ps).
  Proof.
    induction ps as [|r ps IH]; intros a H; simpl.
    - destruct a; apply refines_ret.
    - apply refines_bind; [apply H; left; reflexivity|].
      assert (H' : forall r, In r ps -> refines (ev r) (ev' r))
        by (intros; apply H; right; assumption).
      intros [] _; auto using refines_ret.
  Qed.

  Lemma refines_permit_policies : forall ev ev' ps a b,
    (forall r, In r ps -> refines (ev r) (ev' r)) ->
    refines (policies_permit_overrides_s ev a b ps) (policies_permit_overrides ev' a b ps).
  Proof.
    induction ps as [|r ps IH]; intros a b H; simpl.
    - destruct b, a; apply refines_ret.
    - apply refines_bind; [apply H; left; reflexivity|].
      assert (H' : forall r, In r ps -> refines (ev r) (ev' r))
        by (intros; apply H; right; assumption).
      intros [] _; auto using refines_ret.
  Qed.

  Lemma refines_first_policies : forall ev ev' ps,
    (forall r, In r ps -> refines (ev r) (ev' r)) ->
    refines (policies_first_applicable_s ev ps) (policies_first_applicable ev' ps).
  Proof.
    induction ps as [|r ps IH]; intros H; simpl; [apply refines_ret|].
    apply refines_bind; [apply H; left; reflexivity|].
    intros [] _; auto using refines_ret. apply IH. intros; apply H; right; assumption.
  Qed.

  Lemma refines_combine_policies : forall alg ev ev' ps,
    (forall p, In p ps -> refines (ev p) (ev' p)) ->
    refines (combine_policies_s alg ev ps) (combine_policies alg ev' ps).
  Proof.
    intros [] ev ev' ps H;
      [apply refines_deny_policies|apply refines_permit_policies|apply refines_first_policies]; exact H.
  Qed.

  Lemma refines_with_target : forall c t k k',
    refines k k' -> refines (with_target_s S c t k) (with_target E c t k').
  Proof.
    intros c t k k' H. unfold with_target_s, with_target. apply refines_bind.
    - destruct t; [apply refines_target|apply refines_ret].
    - intros [] _; simpl; [exact H|apply refines_ret].
  Qed.

  Lemma refines_policy : forall c p, refines (policy_eval_s S c p) (policy_eval E c p).
  Proof.
    intros c p. induction p as [m t alg rules|m t alg ps IH] using policybase_ind'; simpl.
    - apply refines_catch, refines_with_target. destruct alg; [|apply refines_raise].
      apply refines_combine_rules. intros; apply refines_rule.
    - apply refines_catch, refines_with_target. destruct alg; [|apply refines_raise].
      apply refines_combine_policies. rewrite Forall_forall in IH. exact IH.
  Qed.

  Lemma refines_run : forall calls w, wok S w ->
    fst (run_evaluations S calls w) = map (fun pc => policy_eval E (snd pc) (fst pc)) calls.
  Proof.
    induction calls as [|[p c] calls IH]; intros w Hw; simpl; [reflexivity|].
    destruct (refines_policy c p w Hw) as (H1 & H2 & _).
    destruct (policy_eval_s S c p w) as [r w1]. simpl in *.
    specialize (IH w1 H1). destruct (run_evaluations S calls w1) as [rs w2]. simpl in *.
    rewrite <- H2, IH. reflexivity.
  Qed.
End Refine.

(** ** Query discipline and containment for any attribute source *)

Section Queries.
  Variable S : senv.

  Definition contained {A} (r : res A) : Prop :=
    forall e, r = Raise e -> is_exception e = true \/ collaborator_raises_s S e.

  Lemma contained_of_safe : forall A (r : res A) h, safe (env_of S h) r -> contained r.
  Proof.
    intros A r h H e He. destruct (H e He) as [|[(r0 & d & Hp)|[Hp|[Hp|Hp]]]]; auto; right.
    - left. exists h, r0, d. exact Hp.
    - right. left. exact Hp.
    - right. right. left. exact Hp.
    - right. right. right. exact Hp.
  Qed.

  Definition asked (r : request) (ds : list designator) (q : request * designator) : Prop :=
    fst q = r /\ In (snd q) ds /\ dg_kind (snd q) = DSubject /\ rq_ctxHandler r <> None.

  Definition ctx_asked (c : context) (ds : list designator) (q : request * designator) : Prop :=
    exists r, c = CtxRequest r /\ asked r ds q.

  Definition good {A} (c : context) (ds : list designator) (x : ST A) : Prop :=
    sound S (ctx_asked c ds) x contained.

  Lemma good_bind : forall A B c ds (x : ST A) (f : A -> ST B),
    good c ds x -> (forall a, good c ds (f a)) -> good c ds (bind_s x f).
  Proof.
    intros A B c ds x f Hx Hf. eapply sound_bind; [exact Hx| |intros; apply Hf].
    intros e He e' He'. injection He' as <-. apply He; reflexivity.
  Qed.

  Lemma good_ret : forall A c ds (a : A), good c ds (ret_s a).
  Proof. intros. apply sound_ret. intros e He; discriminate. Qed.
  Lemma good_raise : forall A c ds e, is_exception e = true -> good c ds (@raise_s A e).
  Proof. intros. apply sound_raise. intros e' He; injection He as <-; auto. Qed.
  Lemma good_lift : forall A c ds (r : res A), contained r -> good c ds (lift_s r).
  Proof. intros. apply sound_lift. assumption. Qed.

  Lemma good_mono : forall A c ds ds' (x : ST A), incl ds ds' -> good c ds x -> good c ds' x.
  Proof.
    intros A c ds ds' x Hi. apply sound_weaken; auto.
    intros q (r & Hr & H1 & H2 & H3 & H4). exists r. split; [exact Hr|].
    split; [exact H1|]. split; [apply Hi; exact H2|]. split; assumption.
  Qed.

  Lemma good_mapM : forall A B c ds (f : A -> ST B) l,
    (forall x, In x l -> good c ds (f x)) -> good c ds (mapM_s f l).
  Proof.
    induction l as [|x l IH]; intros H; [apply good_ret|]. simpl.
    apply good_bind; [apply H; left; reflexivity|]. intros y.
    apply good_bind; [apply IH; intros; apply H; right; assumption|].
    intros; apply good_ret.
  Qed.

  Lemma good_fn : forall c ds f args, good c ds (fn_eval_s S f args).
  Proof.
    intros c ds f args w Hw. unfold fn_eval_s.
    assert (Hlog : exists new : list (request * designator),
      w_log w = w_log w ++ new /\ Forall (ctx_asked c ds) new)
      by (exists []; rewrite app_nil_r; auto).
    assert (Hs := fn_eval_safe (env_of S []) f args). apply contained_of_safe in Hs. simpl in Hs.
    destruct f;
      try (refine (conj _ (conj _ _)); [exact Hw|exact Hs|exact Hlog]).
    destruct (regexp_eval_s_ok (sn_fenv S) c0 args (w_cache w) Hw) as [H1 H2].
    destruct (regexp_eval_s (sn_fenv S) c0 args (w_cache w)) as [r k]. simpl in H1, H2.
    subst r. refine (conj _ (conj _ _)); [exact H2|exact Hs|exact Hlog].
  Qed.

  Lemma good_pip : forall r d, dg_kind d = DSubject -> rq_ctxHandler r <> None ->
    good (CtxRequest r) [d] (pip_query_s S r d).
  Proof.
    intros r d Hk Hh w Hw. unfold pip_query_s. simpl. refine (conj _ (conj _ _)); auto.
    - intros e He. right. left. eauto.
    - exists [(r, d)]. split; [reflexivity|]. constructor; [|constructor].
      exists r. split; [reflexivity|]. split; [reflexivity|].
      split; [left; reflexivity|]. split; assumption.
  Qed.

  Lemma good_subjects : forall r d et subs bag, dg_kind d = DSubject ->
    good (CtxRequest r) [d] (collect_subjects_s S r d et bag subs).
  Proof.
    intros r d et subs bag Hk. revert bag.
    induction subs as [|s subs IH]; intros bag; simpl; [apply good_ret|].
    apply good_bind.
    - apply good_lift. apply (contained_of_safe _ _ []), collect_attrs_safe.
    - intros bag1. apply good_bind; [|auto].
      destruct (rq_ctxHandler r) eqn:Hh; [|apply good_ret].
      apply good_bind; [apply good_pip; auto; congruence|].
      intros ans. apply good_lift. apply (contained_of_safe _ _ []), add_pip_values_safe.
  Qed.

  Lemma good_designator : forall d c, good c [d] (eval_designator_s S d c).
  Proof.
    intros d [r|]; simpl; [|apply good_raise; reflexivity].
    apply good_bind; [|intros; apply good_lift; apply (contained_of_safe _ _ []), check_present_safe].
    destruct (dg_kind d) eqn:Hk.
    - apply good_subjects; exact Hk.
    - apply good_lift. apply (contained_of_safe _ _ []), collect_resources_safe.
    - destruct (rq_action r); [|apply good_raise; reflexivity].
      apply good_lift. apply (contained_of_safe _ _ []), collect_attrs_safe.
    - destruct (rq_environment r); [|apply good_raise; reflexivity].
      apply good_lift. apply (contained_of_safe _ _ []), collect_attrs_safe.
  Qed.

  Lemma good_selector : forall s c ds, good c ds (eval_selector_s S s c).
  Proof.
    intros. apply good_lift. apply (contained_of_safe _ _ []), eval_selector_safe.
  Qed.

  Lemma good_expr : forall c x, good c (designators_expr x) (eval_expr_s S c x).
  Proof.
    intros c x. induction x as [fid f args IH|v|d|s] using expr_ind'; simpl.
    - apply good_bind.
      + apply good_mapM. intros y Hy. rewrite Forall_forall in IH.
        eapply good_mono; [|apply IH; exact Hy].
        intros d Hd. apply in_flat_map. eauto.
      + intros vs. destruct f; [apply good_fn|apply good_raise; reflexivity].
    - apply good_ret.
    - apply good_designator.
    - apply good_selector.
  Qed.

  Lemma good_match : forall c m, good c (designators_match m) (eval_match_s S c m).
  Proof.
    intros c m. unfold eval_match_s, designators_match. apply good_bind.
    - destruct (mt_designator m); [apply good_designator|].
      destruct (mt_selector m); [apply good_selector|apply good_raise; reflexivity].
    - intros bag. apply good_bind; [|intros; apply good_ret].
      apply good_mapM. intros v _. unfold match_fn_apply_s.
      destruct (mt_fn m); [apply good_fn|apply good_raise; reflexivity].
  Qed.

  Lemma good_section_loop : forall c ds children st,
    (forall ch m, In ch children -> In m ch -> incl (designators_match m) ds) ->
    good c ds (section_loop_s S c st children).
  Proof.
    induction children as [|ch rest IH]; intros st H; simpl; [apply good_ret|].
    apply good_bind.
    - unfold match_child_s. apply good_bind; [|intros; apply good_ret].
      apply good_mapM. intros m Hm. eapply good_mono; [|apply good_match].
      eapply H; [left; reflexivity|exact Hm].
    - intros b. apply IH. intros ch' m H1 H2. eapply H; [right; exact H1|exact H2].
  Qed.

  Lemma good_target : forall c t, good c (designators_target (Some t)) (target_match_s S c t).
  Proof.
    intros c t. unfold target_match_s.
    apply good_bind; [|intros; apply good_ret].
    apply good_mapM. intros s Hs. unfold match_section_s.
    destruct s as [|ch s]; [apply good_ret|]. apply good_section_loop.
    intros ch' m Hch Hm d Hd. simpl. apply in_flat_map. exists m. split; [|exact Hd].
    unfold target_matches. apply in_concat. exists ch'. split; [|exact Hm].
    rewrite !in_app_iff.
    destruct Hs as [Hs|[Hs|[Hs|[Hs|[]]]]]; rewrite Hs; tauto.
  Qed.

  Lemma good_catch : forall c ds x, good c ds x -> good c ds (catch_exception_s x).
  Proof.
    intros c ds x H. eapply sound_catch; [exact H|]. intros r Hr e He.
    apply catch_exception_raise in He. destruct He as [He _]. apply Hr; exact He.
  Qed.

  Lemma good_rule : forall c r, good c (designators_rule r) (rule_eval_s S c r).
  Proof.
    intros c r. unfold rule_eval_s. apply good_catch. unfold rule_body_s.
    apply good_bind.
    - destruct (rl_target r) eqn:Ht; [|apply good_ret].
      eapply good_mono; [|apply good_target]. unfold designators_rule. rewrite Ht.
      intros d Hd. apply in_app_iff; left; exact Hd.
    - intros []; simpl; [|apply good_ret]. apply good_bind.
      + destruct (rl_condition r) as [[x|]|] eqn:Hc; simpl;
          [|apply good_raise; reflexivity|apply good_ret].
        eapply good_mono; [|apply good_expr]. unfold designators_rule. rewrite Hc.
        intros d Hd. apply in_app_iff; right; exact Hd.
      + intros st. destruct (truthy st); [|apply good_ret].
        destruct (rl_effect r); [apply good_ret|apply good_raise; reflexivity].
  Qed.

  Lemma good_deny_rules : forall cx ds ev rules a b c,
    (forall r, In r rules -> good cx ds (ev r)) ->
    good cx ds (rules_deny_overrides_s ev a b c rules).
  Proof.
    induction rules as [|r rules IH]; intros a b c H; simpl.
    - destruct b, c, a; apply good_ret.
    - apply good_bind; [apply H; left; reflexivity|].
      assert (H' : forall r, In r rules -> good cx ds (ev r))
        by (intros; apply H; right; assumption).
      intros []; auto using good_ret.
      destruct (rl_effect r) as [[|]|]; auto using good_raise.
  Qed.

  Lemma good_permit_rules : forall cx ds ev rules a b c,
    (forall r, In r rules -> good cx ds (ev r)) ->
    good cx ds (rules_permit_overrides_s ev a b c rules).
  Proof.
    induction rules as [|r rules IH]; intros a b c H; simpl.
    - destruct b, c, a; apply good_ret.
    - apply good_bind; [apply H; left; reflexivity|].
      assert (H' : forall r, In r rules -> good cx ds (ev r))
        by (intros; apply H; right; assumption).
      intros []; auto using good_ret.
      destruct (rl_effect r) as [[|]|]; auto using good_raise.
  Qed.

  Lemma good_first_rules : forall cx ds ev rules,
    (forall r, In r rules -> good cx ds (ev r)) ->
    good cx ds (rules_first_applicable_s ev rules).
  Proof.
    induction rules as [|r rules IH]; intros H; simpl; [apply good_ret|].
    apply good_bind; [apply H; left; reflexivity|].
    intros []; auto using good_ret. apply IH. intros; apply H; right; assumption.
  Qed.

  Lemma good_combine_rules : forall cx ds alg ev rules,
    (forall r, In r rules -> good cx ds (ev r)) ->
    good cx ds (combine_rules_s alg ev rules).
  Proof.
    intros cx ds [] ev rules H;
      [apply good_deny_rules|apply good_permit_rules|apply good_first_rules]; exact H.
  Qed.

  Lemma good_deny_policies : forall cx ds ev ps a,
    (forall r, In r ps -> good cx ds (ev r)) ->
    good cx ds (policies_deny_overrides_s ev a ps).
  Proof.
    induction ps as [|r ps IH]; intros a H; simpl.
    - destruct a; apply good_ret.
    - apply good_bind; [apply H; left; reflexivity|].
      assert (H' : forall r, In r ps -> good cx ds (ev r))
        by (intros; apply H; right; assumption).
      intros []; auto using good_ret.
  Qed.

  Lemma good_permit_policies : forall cx ds ev ps a b,
    (forall r, In r ps -> good cx ds (ev r)) ->
    good cx ds (policies_permit_overrides_s ev a b ps).
  Proof.
    induction ps as [|r ps IH]; intros a b H; simpl.
    - destruct b, a; apply good_ret.
    - apply good_bind; [apply H; left; reflexivity|].
      assert (H' : forall r, In r ps -> good cx ds (ev r))
        by (intros; apply H; right; assumption).
      intros []; auto using good_ret.
  Qed.

  Lemma good_first_policies : forall cx ds ev ps,
    (forall r, In r ps -> good cx ds (ev r)) ->
    good cx ds (policies_first_applicable_s ev ps).
  Proof.
    induction ps as [|r ps IH]; intros H; simpl; [apply good_ret|].
    apply good_bind; [apply H; left; reflexivity|].
    intros []; auto using good_ret. apply IH. intros; apply H; right; assumption.
  Qed.

  Lemma good_combine_policies : forall cx ds alg ev ps,
    (forall p, In p ps -> good cx ds (ev p)) ->
    good cx ds (combine_policies_s alg ev ps).
  Proof.
    intros cx ds [] ev ps H;
      [apply good_deny_policies|apply good_permit_policies|apply good_first_policies]; exact H.
  Qed.

  Lemma good_with_target : forall c ds t k,
    incl (designators_target t) ds -> good c ds k -> good c ds (with_target_s S c t k).
  Proof.
    intros c ds t k Hi Hk. unfold with_target_s. apply good_bind.
    - destruct t; [|apply good_ret]. eapply good_mono; [exact Hi|apply good_target].
    - intros []; simpl; [exact Hk|apply good_ret].
  Qed.

  Lemma good_policy : forall c p, good c (designators_policy p) (policy_eval_s S c p).
  Proof.
    intros c p. induction p as [m t alg rules|m t alg ps IH] using policybase_ind'; simpl.
    - apply good_catch, good_with_target.
      + intros d Hd; apply in_app_iff; left; exact Hd.
      + destruct alg; [|apply good_raise; reflexivity].
        apply good_combine_rules. intros r Hr. eapply good_mono; [|apply good_rule].
        intros d Hd. apply in_app_iff; right. apply in_flat_map; eauto.
    - apply good_catch, good_with_target.
      + intros d Hd; apply in_app_iff; left; exact Hd.
      + destruct alg; [|apply good_raise; reflexivity].
        apply good_combine_policies. intros q Hq. rewrite Forall_forall in IH.
        eapply good_mono; [|apply IH; exact Hq].
        intros d Hd. apply in_app_iff; right. apply in_flat_map; eauto.
  Qed.
End Queries.

Lemma policy_eval_s_result : forall S c p w e,
  cache_ok (sn_fenv S) (w_cache w) ->
  fst (policy_eval_s S c p w) = Raise e ->
  is_exception e = false /\ collaborator_raises_s S e.
Proof.
  intros S c p w e Hw He.
  destruct (good_policy S c p w Hw) as (_ & Hc & _).
  assert (Hx : is_exception e = false).
  { destruct p; simpl in He; unfold catch_exception_s in He;
      match type of He with fst (let '(_, _) := ?x in _) = _ => destruct x as [r' w'] end;
      simpl in He; apply catch_exception_raise in He; apply He. }
  split; [exact Hx|]. destruct (Hc e He); [congruence|assumption].
Qed.

(** ** Number of queries of a subject designator *)

Lemma collect_subjects_s_queries : forall S r d et subs bag w bag' w',
  collect_subjects_s S r d et bag subs w = (Ok bag', w') ->
  w_log w' = w_log w ++
    match rq_ctxHandler r with None => [] | Some _ => repeat (r, d) (length subs) end.
Proof.
  intros S r d et. induction subs as [|s subs IH]; intros bag w bag' w' H; simpl in H.
  - injection H as _ <-. destruct (rq_ctxHandler r); simpl; rewrite app_nil_r; reflexivity.
  - unfold bind_s at 1, lift_s at 1 in H.
    destruct (collect_attrs d et bag (sb_attributes s)) as [bag1|e]; [|discriminate].
    destruct (rq_ctxHandler r) as [n|] eqn:Hh.
    + unfold bind_s in H at 1. unfold bind_s at 1 in H. unfold pip_query_s, lift_s in H.
      destruct (sn_pip S (w_log w) r d) as [ans|e]; [|discriminate].
      destruct (add_pip_values et bag1 ans) as [bag2|e]; [|discriminate].
      apply IH in H. rewrite H. simpl. rewrite <- app_assoc. reflexivity.
    + unfold bind_s, ret_s in H. apply IH in H. exact H.
Qed.

Lemma eval_designator_s_queries : forall S d r w v w',
  eval_designator_s S d (CtxRequest r) w = (Ok v, w') ->
  w_log w' = w_log w ++
    match dg_kind d, rq_ctxHandler r with
    | DSubject, Some _ => repeat (r, d) (length (rq_subjects r))
    | _, _ => []
    end.
Proof.
  intros S d r w v w' H. unfold eval_designator_s, bind_s at 1 in H.
  destruct (dg_kind d).
  - destruct (collect_subjects_s S r d (sclass_for S (dg_dataType d)) [] (rq_subjects r) w)
      as [[bag|e] w1] eqn:Hc; [|discriminate].
    unfold lift_s in H. injection H as _ <-. apply collect_subjects_s_queries in Hc. exact Hc.
  - unfold lift_s in H.
    destruct (collect_resources d (sclass_for S (dg_dataType d)) [] (rq_resources r)); [|discriminate].
    injection H as _ <-. rewrite app_nil_r. reflexivity.
  - destruct (rq_action r); [|discriminate]. unfold lift_s in H.
    destruct (collect_attrs d (sclass_for S (dg_dataType d)) [] l); [|discriminate].
    injection H as _ <-. rewrite app_nil_r. reflexivity.
  - destruct (rq_environment r); [|discriminate]. unfold lift_s in H.
    destruct (collect_attrs d (sclass_for S (dg_dataType d)) [] l); [|discriminate].
    injection H as _ <-. rewrite app_nil_r. reflexivity.
Qed.

(** ** Trace of function applications *)

Lemma fn_eval_s_applied : forall S f args w,
  w_applied (snd (fn_eval_s S f args w)) = w_applied w ++ [(f, args)].
Proof.
  intros S f args w. unfold fn_eval_s. destruct f; try reflexivity.
  destruct (regexp_eval_s (sn_fenv S) c args (w_cache w)); reflexivity.
Qed.

Lemma collect_subjects_s_applied : forall S r d et subs bag w,
  w_applied (snd (collect_subjects_s S r d et bag subs w)) = w_applied w.
Proof.
  intros S r d et. induction subs as [|s subs IH]; intros bag w; simpl; [reflexivity|].
  unfold bind_s, lift_s. destruct (collect_attrs d et bag (sb_attributes s)); [|reflexivity].
  destruct (rq_ctxHandler r).
  - unfold pip_query_s. destruct (sn_pip S (w_log w) r d); [|reflexivity].
    destruct (add_pip_values et a a0); [|reflexivity]. rewrite IH. reflexivity.
  - unfold ret_s. apply IH.
Qed.

Lemma eval_designator_s_applied : forall S d c w,
  w_applied (snd (eval_designator_s S d c w)) = w_applied w.
Proof.
  intros S d [r|] w; [|reflexivity]. unfold eval_designator_s, bind_s at 1.
  destruct (dg_kind d).
  - destruct (collect_subjects_s S r d (sclass_for S (dg_dataType d)) [] (rq_subjects r) w)
      as [[bag|e] w1] eqn:Hc; simpl;
      rewrite <- (collect_subjects_s_applied S r d (sclass_for S (dg_dataType d)) (rq_subjects r) [] w), Hc;
      reflexivity.
  - unfold lift_s.
    destruct (collect_resources d (sclass_for S (dg_dataType d)) [] (rq_resources r)); reflexivity.
  - destruct (rq_action r); [|reflexivity]. unfold lift_s.
    destruct (collect_attrs d (sclass_for S (dg_dataType d)) [] l); reflexivity.
  - destruct (rq_environment r); [|reflexivity]. unfold lift_s.
    destruct (collect_attrs d (sclass_for S (dg_dataType d)) [] l); reflexivity.
Qed.

Section Trace.
  Variable S : senv.
  Hypothesis Hind : history_independent S.
  Let E := env_of S [].

  Lemma eval_expr_s_trace : forall c x w v w',
    wok S w -> eval_expr_s S c x w = (Ok v, w') ->
    exists tr, evals_trace E c x v tr /\ w_applied w' = w_applied w ++ tr.
  Proof.
    intros c x. induction x as [fid f args IH|a|d|s] using expr_ind'; intros w v w' Hw H.
    - simpl in H. unfold bind_s in H.
      assert (Hl : forall w vs w', wok S w -> mapM_s (eval_expr_s S c) args w = (Ok vs, w') ->
        wok S w' /\ exists tr, evals_trace_list E c args vs tr /\ w_applied w' = w_applied w ++ tr).
      { clear H Hw w v w'. induction args as [|y ys IHys]; intros w vs w' Hw H; simpl in H.
        - injection H as <- <-. split; [exact Hw|]. exists []. rewrite app_nil_r.
          split; [constructor|reflexivity].
        - inversion IH as [|? ? Hy Hys]; subst.
          unfold bind_s in H at 1. destruct (eval_expr_s S c y w) as [[v1|e] w1] eqn:H1; [|discriminate].
          unfold bind_s in H at 1.
          destruct (mapM_s (eval_expr_s S c) ys w1) as [[vs1|e] w2] eqn:H2; [|discriminate].
          injection H as <- <-.
          assert (Hw1 : wok S w1).
          { destruct (refines_expr S Hind c y w Hw) as (Hok & _). rewrite H1 in Hok. exact Hok. }
          destruct (Hy _ _ _ Hw H1) as (tr & Ht & Ha).
          destruct (IHys Hys _ _ _ Hw1 H2) as (Hw2 & trs & Hts & Has).
          split; [exact Hw2|]. exists (tr ++ trs). split; [constructor; assumption|].
          rewrite Has, Ha, app_assoc. reflexivity. }
      destruct (mapM_s (eval_expr_s S c) args w) as [[vs|e] w1] eqn:H1; [|discriminate].
      destruct (Hl _ _ _ Hw H1) as (Hw1 & tr & Ht & Ha).
      destruct f as [f|]; [|discriminate].
      assert (Hap := fn_eval_s_applied S f vs w1).
      destruct (refines_fn S f vs w1 Hw1) as (_ & Hf & _).
      rewrite H in Hap, Hf. simpl in *.
      exists (tr ++ [(f, vs)]). split.
      + econstructor; [exact Ht|exact Hf].
      + rewrite Hap, Ha, app_assoc. reflexivity.
    - simpl in H. injection H as <- <-. exists []. rewrite app_nil_r. split; [constructor|reflexivity].
    - simpl in H. exists []. rewrite app_nil_r. split.
      + constructor. destruct (refines_designator S Hind d c w Hw) as (_ & Hf & _).
        rewrite H in Hf. exact Hf.
      + assert (Ha := eval_designator_s_applied S d c w). rewrite H in Ha. exact Ha.
    - simpl in H. unfold eval_selector_s, lift_s in H. injection H as H <-.
      exists []. rewrite app_nil_r. split; [constructor; exact H|reflexivity].
  Qed.
End Trace.

Lemma run_evaluations_cache_ok : forall S calls w,
  cache_ok (sn_fenv S) (w_cache w) ->
  cache_ok (sn_fenv S) (w_cache (snd (run_evaluations S calls w))).
Proof.
  induction calls as [|[p c] calls IH]; intros w Hw; simpl; [exact Hw|].
  destruct (good_policy S c p w Hw) as (H1 & _).
  destruct (policy_eval_s S c p w) as [r w1]. simpl in H1.
  specialize (IH w1 H1). destruct (run_evaluations S calls w1) as [rs w2]. exact IH.
Qed.
