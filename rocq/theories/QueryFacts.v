(** Facts about the number of queries. *)
From Coq Require Import Lia.
From Verif Require Import EvalState SpecEval EvalFacts SpecState SpecQueries.

(** [x] asks at most [n] times. *)
Definition costs {A} (n : nat) (x : ST A) : Prop :=
  forall w, length (w_log (snd (x w))) <= length (w_log w) + n.

Lemma costs_ret : forall A n (a : A), costs n (ret_s a).
Proof. intros A n a w. simpl. lia. Qed.
Lemma costs_raise : forall A n e, costs n (@raise_s A e).
Proof. intros A n e w. simpl. lia. Qed.
Lemma costs_lift : forall A n (r : res A), costs n (lift_s r).
Proof. intros A n r w. simpl. lia. Qed.
Lemma costs_bind : forall A B n m (x : ST A) (f : A -> ST B),
  costs n x -> (forall a, costs m (f a)) -> costs (n + m) (bind_s x f).
Proof.
  intros A B n m x f Hx Hf w. unfold bind_s. specialize (Hx w). destruct (x w) as [[a|e] w1]; simpl in *.
  - specialize (Hf a w1). lia.
  - lia.
Qed.
Lemma costs_le : forall A n m (x : ST A), costs n x -> n <= m -> costs m x.
Proof. intros A n m x H Hn w. specialize (H w). lia. Qed.
Lemma costs_bind0 : forall A B n (x : ST A) (f : A -> ST B),
  costs n x -> (forall a, costs 0 (f a)) -> costs n (bind_s x f).
Proof. intros A B n x f Hx Hf. eapply costs_le; [eapply costs_bind; eassumption|lia]. Qed.
Lemma costs_catch : forall n x, costs n x -> costs n (catch_exception_s x).
Proof. intros n x H w. unfold catch_exception_s. specialize (H w). destruct (x w) as [r w1]. exact H. Qed.

(** Sum of a measure over a list. *)
Definition total {A} (m : A -> nat) (l : list A) : nat := fold_right (fun x n => m x + n) 0 l.

Lemma costs_mapM : forall A B (f : A -> ST B) (m : A -> nat) l,
  (forall x, In x l -> costs (m x) (f x)) -> costs (total m l) (mapM_s f l).
Proof.
  induction l as [|x l IH]; intros H; [apply costs_ret|]. simpl.
  apply costs_bind; [apply H; left; reflexivity|]. intros y. apply costs_bind0.
  - apply IH. intros; apply H; right; assumption.
  - intros ys. apply costs_ret.
Qed.

Lemma total_mult : forall A (m : A -> nat) k l, total (fun x => m x * k) l = total m l * k.
Proof. induction l as [|x l IH]; simpl; [reflexivity|]. rewrite IH. lia. Qed.
Lemma filter_app' : forall A (f : A -> bool) l l', filter f (l ++ l') = filter f l ++ filter f l'.
Proof. intros. apply filter_app. Qed.
Lemma total_flat : forall A (g : A -> list designator) l,
  length (filter about_subjects (flat_map g l)) = total (fun x => length (filter about_subjects (g x))) l.
Proof.
  induction l as [|x l IH]; simpl; [reflexivity|]. rewrite filter_app, app_length, IH. reflexivity.
Qed.
Lemma total_app : forall A (m : A -> nat) l l', total m (l ++ l') = total m l + total m l'.
Proof. induction l as [|x l IH]; intros l'; simpl; [reflexivity|]. rewrite IH. lia. Qed.
Lemma total_concat : forall A (m : A -> nat) ll, total m (concat ll) = total (total m) ll.
Proof. induction ll as [|l ll IH]; simpl; [reflexivity|]. rewrite total_app, IH. reflexivity. Qed.

Section Cost.
  Variable S : senv.
  Variable c : context.
  Local Notation k := (subjects_of c).
  Definition weight (l : list designator) : nat := length (filter about_subjects l).

  Lemma costs_fn : forall f args, costs 0 (fn_eval_s S f args).
  Proof.
    intros f args w. unfold fn_eval_s. destruct f; simpl; try lia.
    destruct (regexp_eval_s (sn_fenv S) c0 args (w_cache w)). simpl. lia.
  Qed.

  Lemma costs_subjects : forall r d et subs bag,
    costs (length subs) (collect_subjects_s S r d et bag subs).
  Proof.
    induction subs as [|s subs IH]; intros bag; [apply costs_ret|].
    cbn [collect_subjects_s length]. change (Datatypes.S (length subs)) with (0 + (1 + length subs)).
    apply costs_bind; [apply costs_lift|]. intros bag1. apply costs_bind; [|auto].
    destruct (rq_ctxHandler r); [|apply costs_ret].
    apply costs_bind0; [|intros; apply costs_lift]. intros w. simpl. rewrite app_length. simpl. lia.
  Qed.

  Lemma costs_designator : forall d, costs (weight [d] * k) (eval_designator_s S d c).
  Proof.
    intros d. unfold weight, subjects_of. destruct c as [r|]; [|apply costs_raise]. simpl.
    unfold about_subjects. destruct (dg_kind d); simpl.
    - apply costs_bind0; [|intros; apply costs_lift]. eapply costs_le; [apply costs_subjects|]. lia.
    - apply costs_bind0; intros; apply costs_lift.
    - apply costs_bind0; [|intros; apply costs_lift]. destruct (rq_action r); [apply costs_lift|apply costs_raise].
    - apply costs_bind0; [|intros; apply costs_lift]. destruct (rq_environment r); [apply costs_lift|apply costs_raise].
  Qed.

  Lemma costs_expr : forall x, costs (weight (designators_expr x) * k) (eval_expr_s S c x).
  Proof.
    induction x as [fid f args IH|v|d|s] using expr_ind'; simpl.
    - apply costs_bind0; [|intros; destruct f; [apply costs_fn|apply costs_raise]].
      unfold weight. rewrite total_flat, <- total_mult. apply costs_mapM. rewrite Forall_forall in IH. exact IH.
    - apply costs_ret.
    - apply costs_designator.
    - apply costs_lift.
  Qed.

  Lemma costs_match : forall m, costs (weight (designators_match m) * k) (eval_match_s S c m).
  Proof.
    intros m. unfold eval_match_s, designators_match. apply costs_bind0.
    - destruct (mt_designator m); [apply costs_designator|].
      destruct (mt_selector m); [apply costs_lift|apply costs_raise].
    - intros bag. apply costs_bind0; [|intros; apply costs_ret].
      apply (costs_le _ (total (fun _ => 0) (bag_items bag))).
      + apply costs_mapM. intros v _. unfold match_fn_apply_s. destruct (mt_fn m); [apply costs_fn|apply costs_raise].
      + induction (bag_items bag); simpl; lia.
  Qed.

  Definition mweight (m : matchel) : nat := weight (designators_match m) * k.

  Lemma costs_child : forall ch, costs (total mweight ch) (match_child_s S c ch).
  Proof.
    intros ch. unfold match_child_s. apply costs_bind0; [|intros; apply costs_ret].
    apply costs_mapM. intros m _. apply costs_match.
  Qed.
  Lemma costs_loop : forall l st, costs (total (total mweight) l) (section_loop_s S c st l).
  Proof.
    induction l as [|ch l IH]; intros st; [apply costs_ret|]. simpl.
    apply costs_bind; [apply costs_child|]. intros b. apply IH.
  Qed.
  Lemma costs_section : forall l, costs (total (total mweight) l) (match_section_s S c l).
  Proof. intros [|ch l]; [apply costs_ret|apply costs_loop]. Qed.

  Lemma costs_target : forall t, costs (weight (designators_target (Some t)) * k) (target_match_s S c t).
  Proof.
    intros t. unfold target_match_s. apply costs_bind0; [|intros; apply costs_ret].
    unfold designators_target, weight. rewrite total_flat, <- total_mult. fold mweight.
    unfold target_matches. change (fun x => _ * k) with mweight. rewrite total_concat, !total_app.
    eapply costs_le; [apply costs_mapM; intros l _; apply costs_section|]. simpl. lia.
  Qed.

  Lemma costs_otarget : forall t, costs (weight (designators_target t) * k)
    (match t with Some t => target_match_s S c t | None => ret_s true end).
  Proof. intros [t|]; [apply costs_target|apply costs_ret]. Qed.

  Lemma weight_app : forall l l', weight (l ++ l') * k = weight l * k + weight l' * k.
  Proof. intros. unfold weight. rewrite filter_app, app_length. lia. Qed.

  Lemma costs_rule : forall r, costs (weight (designators_rule r) * k) (rule_eval_s S c r).
  Proof.
    intros r. unfold rule_eval_s, rule_body_s, designators_rule. apply costs_catch. rewrite weight_app.
    apply costs_bind; [apply costs_otarget|]. intros []; simpl; [|apply costs_ret].
    apply costs_bind0.
    - destruct (rl_condition r) as [[x|]|]; simpl; [apply costs_expr|apply costs_raise|apply costs_ret].
    - intros st. destruct (truthy st); [|apply costs_ret]. destruct (rl_effect r); [apply costs_ret|apply costs_raise].
  Qed.

  Lemma costs_rules : forall alg rules,
    costs (total (fun r => weight (designators_rule r) * k) rules) (combine_rules_s alg (rule_eval_s S c) rules).
  Proof.
    intros alg rules. destruct alg; simpl.
    - generalize false at 1. generalize false at 1. generalize false.
      induction rules as [|r rules IH]; intros b1 b2 b3; simpl; [destruct b1, b2, b3; apply costs_ret|].
      apply costs_bind; [apply costs_rule|]. intros []; auto using costs_ret.
      destruct (rl_effect r) as [[|]|]; auto using costs_raise.
    - generalize false at 1. generalize false at 1. generalize false.
      induction rules as [|r rules IH]; intros b1 b2 b3; simpl; [destruct b1, b2, b3; apply costs_ret|].
      apply costs_bind; [apply costs_rule|]. intros []; auto using costs_ret.
      destruct (rl_effect r) as [[|]|]; auto using costs_raise.
    - induction rules as [|r rules IH]; simpl; [apply costs_ret|].
      apply costs_bind; [apply costs_rule|]. intros []; auto using costs_ret.
  Qed.

  Lemma costs_policies : forall alg ps (m : policybase -> nat),
    Forall (fun p => costs (m p) (policy_eval_s S c p)) ps ->
    costs (total m ps) (combine_policies_s alg (policy_eval_s S c) ps).
  Proof.
    intros alg ps m H. destruct alg; simpl.
    - generalize false. induction H as [|p ps Hp _ IH]; intros b1; simpl; [destruct b1; apply costs_ret|].
      apply costs_bind; [exact Hp|]. intros []; auto using costs_ret.
    - generalize false at 1. generalize false.
      induction H as [|p ps Hp _ IH]; intros b1 b2; simpl; [destruct b1, b2; apply costs_ret|].
      apply costs_bind; [exact Hp|]. intros []; auto using costs_ret.
    - induction H as [|p ps Hp _ IH]; simpl; [apply costs_ret|].
      apply costs_bind; [exact Hp|]. intros []; auto using costs_ret.
  Qed.

  Lemma costs_policy : forall p, costs (subject_designators p * k) (policy_eval_s S c p).
  Proof.
    unfold subject_designators. fold (weight).
    induction p as [m t alg rules|m t alg ps IH] using policybase_ind'; cbn [policy_eval_s designators_policy];
      apply costs_catch; unfold with_target_s; fold (weight (designators_target t ++ flat_map designators_rule rules))
      || fold (weight (designators_target t ++ flat_map designators_policy ps)); rewrite weight_app;
      (apply costs_bind; [apply costs_otarget|]); intros []; simpl; try apply costs_ret;
      (destruct alg as [a|]; [|apply costs_raise]); unfold weight; rewrite total_flat, <- total_mult.
    - apply costs_rules.
    - apply costs_policies. exact IH.
  Qed.
End Cost.

(** ** The bound is attained *)

Definition quiet : senv := mkSenv (mkFenv (fun _ => None) (fun _ _ => false) (fun _ _ => Raise ETypeError))
  STD_CLASS_MAP (fun _ _ _ => Ok None) (fun _ _ => Ok []).
Definition role : designator := mkDesignator DSubject (Some "role") (Some (xs "string")) None false.
Definition one_match : matchel := mkMatch None None None (Some role) None.
Definition n_policy (n : nat) : policybase :=
  PPolicy (mkMeta None None None None None) (Some (mkTarget [repeat one_match n] [] [] [])) None [].
Definition m_request (m : nat) : request :=
  mkRequest (repeat (mkSubject None []) m) [] None None (Some 0%N) None.

Lemma one_match_asks : forall m w, exists w',
  eval_match_s quiet (CtxRequest (m_request m)) one_match w = (Ok false, w') /\
  length (w_log w') = length (w_log w) + m.
Proof.
  intros m w.
  assert (H : forall r et subs, rq_ctxHandler r = Some 0%N -> Forall (fun s => sb_attributes s = []) subs -> forall w,
    exists w', collect_subjects_s quiet r role et [] subs w = (Ok [], w') /\
      length (w_log w') = length (w_log w) + length subs).
  { intros r et subs Hr HF. induction HF as [|s subs Hs _ IH]; intros w1; [exists w1; split; [reflexivity|simpl; lia]|].
    simpl. rewrite Hr, Hs. unfold bind_s, lift_s, pip_query_s. simpl.
    destruct (IH (mkWorld (w_log w1 ++ [(r, role)]) (w_cache w1) (w_applied w1))) as (w' & H1 & H2).
    exists w'. split; [exact H1|]. rewrite H2. cbn [w_log]. rewrite app_length. simpl. lia. }
  destruct (H (m_request m) (sclass_for quiet (dg_dataType role)) (repeat (mkSubject None []) m)) with (w := w) as (w' & H1 & H2).
  - reflexivity.
  - apply Forall_forall. intros s Hs. apply repeat_spec in Hs. subst. reflexivity.
  - exists w'. split; [|rewrite H2, repeat_length; reflexivity].
    unfold eval_match_s, one_match, mt_designator, eval_designator_s. change (dg_kind role) with DSubject. cbv iota.
    change (rq_subjects (m_request m)) with (repeat (mkSubject None []) m).
    unfold bind_s at 1 2. rewrite H1. reflexivity.
Qed.

Lemma n_policy_asks : forall n m w,
  length (w_log (snd (policy_eval_s quiet (CtxRequest (m_request m)) (n_policy n) w))) = length (w_log w) + n * m.
Proof.
  intros n m w.
  assert (H : forall w, exists bs w', mapM_s (eval_match_s quiet (CtxRequest (m_request m))) (repeat one_match n) w = (Ok bs, w') /\
    length (w_log w') = length (w_log w) + n * m).
  { induction n as [|n IH]; intros w1; [exists [], w1; split; [reflexivity|simpl; lia]|].
    cbn [repeat mapM_s]. destruct (one_match_asks m w1) as (w2 & H1 & H2). destruct (IH w2) as (bs & w3 & H3 & H4).
    exists (false :: bs), w3. unfold bind_s. rewrite H1. cbn [mapM_s] in H3. rewrite H3. split; [reflexivity|]. lia. }
  destruct (H w) as (bs & w' & H1 & H2).
  cbn [policy_eval_s n_policy]. unfold catch_exception_s, with_target_s, target_match_s. cbn [mapM_s tg_subjects tg_resources tg_actions tg_environments].
  unfold match_section_s at 1. cbn [section_loop_s]. unfold match_child_s.
  unfold bind_s at 1 2 3 4 5. rewrite H1. cbn -[forallb w_log mult plus].
  destruct (forallb (fun b => b) bs); cbn -[mult plus]; exact H2.
Qed.

Lemma n_policy_size : forall n m, subject_designators (n_policy n) = n /\ subjects_of (CtxRequest (m_request m)) = m.
Proof.
  intros n m. split; [|simpl; apply repeat_length].
  unfold subject_designators. cbn [designators_policy n_policy designators_target target_matches tg_subjects tg_resources tg_actions tg_environments app concat flat_map].
  rewrite !app_nil_r. induction n as [|n IH]; simpl; [reflexivity|]. simpl in IH. rewrite IH. reflexivity.
Qed.
