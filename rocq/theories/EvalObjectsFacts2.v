(** Evaluation looks at the objects reached from the policy and the request only. *)
From Verif Require Import SpecEvalObjects EvalFacts.
Local Open Scope string_scope.

Lemma bind_cong : forall A B (x y : res A) (f g : A -> res B),
  x = y -> (forall v, x = Ok v -> f v = g v) -> bind x f = bind y g.
Proof. intros A B x y f g <- H. destruct x; [apply H; reflexivity | reflexivity]. Qed.

Section Seen.
Variable O : oenv.
Variables h h' : heap.
Variable S : nat -> Prop.
Hypothesis Hsame : forall a, S a -> nth_error h' a = nth_error h a.
Hypothesis Hclosed : forall a b, S a -> refers h a b -> S b.

Definition seen (v : pval) : Prop := forall a, v = PRef a -> S a.

Lemma seen_ref : forall a, S a -> seen (PRef a).
Proof. intros a H b E. injection E as <-. exact H. Qed.
Lemma get_same : forall a name, S a -> get_attr h' a name = get_attr h a name.
Proof. intros a name H. unfold get_attr. rewrite (Hsame a H). reflexivity. Qed.
Lemma get_seen : forall a name v, S a -> get_attr h a name = Ok v -> seen v.
Proof. intros a name v H G b ->. eapply Hclosed; [exact H|]. eapply refers_attribute; exact G. Qed.
Lemma attr_same : forall v name, seen v -> attr h' v name = attr h v name.
Proof. intros [| a | | | | |] name H; try reflexivity. apply get_same, H; reflexivity. Qed.
Lemma attr_seen : forall v name w, seen v -> attr h v name = Ok w -> seen w.
Proof.
  intros [| a | | | | |] name w H G; try discriminate G. eapply get_seen; [apply H; reflexivity | exact G].
Qed.
Lemma items_same : forall v, seen v -> list_items h' v = list_items h v.
Proof. intros [| a | | | | |] H; try reflexivity. cbn. rewrite (Hsame a (H a eq_refl)). reflexivity. Qed.
Lemma items_seen : forall v items, seen v -> list_items h v = Ok items -> Forall seen items.
Proof.
  intros [| a | | | | |] items H G; try discriminate G. cbn in G.
  destruct (nth_error h a) as [[|t its| |]|] eqn:N; try discriminate G. injection G as ->.
  apply Forall_forall. intros w I b ->. eapply Hclosed; [apply H; reflexivity|]. eapply refers_item; eassumption.
Qed.
Lemma pyval_same : forall v, seen v -> as_pyval h' v = as_pyval h v.
Proof. intros [| a | | | | |] H; try reflexivity. cbn. rewrite (Hsame a (H a eq_refl)). reflexivity. Qed.
Lemma request_same : forall v, seen v -> is_request h' v = is_request h v.
Proof. intros [| a | | | | |] H; try reflexivity. cbn. rewrite (Hsame a (H a eq_refl)). reflexivity. Qed.
Lemma request_seen : forall v r, seen v -> is_request h v = Some r -> S r.
Proof.
  intros [| a | | | | |] r H G; try discriminate G. cbn in G.
  destruct (nth_error h a) as [[[]| | |]|]; try discriminate G. injection G as <-. apply H; reflexivity.
Qed.

Lemma attr_match_same : forall id dt issuer v, seen v ->
  o_attr_match h' id dt issuer v = o_attr_match h id dt issuer v.
Proof. intros. unfold o_attr_match. rewrite !attr_same by assumption. reflexivity. Qed.

Lemma typed_values_same : forall dt items, Forall seen items ->
  o_typed_values h' dt items = o_typed_values h dt items.
Proof.
  intros dt items F. induction F as [|v items V F IH]; [reflexivity|].
  cbn [o_typed_values]. rewrite (attr_same v _ V), IH, (pyval_same v V). reflexivity.
Qed.

Lemma collect_attrs_same : forall id dt issuer et items, Forall seen items -> forall bag,
  o_collect_attrs h' id dt issuer et bag items = o_collect_attrs h id dt issuer et bag items.
Proof.
  intros id dt issuer et items F. induction F as [|v items V F IH]; intro bag; [reflexivity|].
  cbn [o_collect_attrs]. rewrite (attr_match_same _ _ _ v V). apply bind_cong; [reflexivity|].
  intros [|] _; [|apply IH]. rewrite (attr_same v _ V). apply bind_cong; [reflexivity|]. intros l L.
  pose proof (attr_seen _ _ _ V L) as SL. rewrite (items_same l SL). apply bind_cong; [reflexivity|]. intros its I.
  rewrite (typed_values_same dt its (items_seen _ _ SL I)). apply bind_cong; [reflexivity|]. intros vs _.
  apply bind_cong; [reflexivity|]. intros bag' _. apply IH.
Qed.

Lemma section_same : forall id dt issuer et v bag, seen v ->
  bind (attr h' v "attributes") (fun l => bind (list_items h' l) (fun attrs =>
    o_collect_attrs h' id dt issuer et bag attrs)) =
  bind (attr h v "attributes") (fun l => bind (list_items h l) (fun attrs =>
    o_collect_attrs h id dt issuer et bag attrs)).
Proof.
  intros id dt issuer et v bag V. rewrite (attr_same v _ V). apply bind_cong; [reflexivity|]. intros l L.
  pose proof (attr_seen _ _ _ V L) as SL. rewrite (items_same l SL). apply bind_cong; [reflexivity|]. intros its I.
  apply collect_attrs_same. exact (items_seen _ _ SL I).
Qed.

Lemma collect_subjects_same : forall r d id dt issuer et items, S r ->
  oe_pip O h' r d = oe_pip O h r d -> Forall seen items -> forall bag,
  o_collect_subjects O h' r d id dt issuer et bag items = o_collect_subjects O h r d id dt issuer et bag items.
Proof.
  intros r d id dt issuer et items R HP F. induction F as [|v items V F IH]; intro bag; [reflexivity|].
  cbn [o_collect_subjects]. rewrite (attr_same v _ V). apply bind_cong; [reflexivity|]. intros l L.
  pose proof (attr_seen _ _ _ V L) as SL. rewrite (items_same l SL). apply bind_cong; [reflexivity|]. intros its I.
  rewrite (collect_attrs_same _ _ _ _ its (items_seen _ _ SL I)). apply bind_cong; [reflexivity|]. intros bag1 _.
  rewrite (get_same r _ R). apply bind_cong; [reflexivity|]. intros hd _.
  rewrite HP. apply bind_cong; [reflexivity|]. intros bag2 _. apply IH.
Qed.

Lemma collect_resources_same : forall id dt issuer et items, Forall seen items -> forall bag,
  o_collect_resources h' id dt issuer et bag items = o_collect_resources h id dt issuer et bag items.
Proof.
  intros id dt issuer et items F. induction F as [|v items V F IH]; intro bag; [reflexivity|].
  cbn [o_collect_resources]. rewrite (attr_same v _ V). apply bind_cong; [reflexivity|]. intros l L.
  pose proof (attr_seen _ _ _ V L) as SL. rewrite (items_same l SL). apply bind_cong; [reflexivity|]. intros its I.
  rewrite (collect_attrs_same _ _ _ _ its (items_seen _ _ SL I)). apply bind_cong; [reflexivity|]. intros bag1 _.
  apply IH.
Qed.

Variable c : pval.
Hypothesis Hc : seen c.
Hypothesis HP : forall r d, c = PRef r -> oe_pip O h' r d = oe_pip O h r d.
Hypothesis HX : forall r v, c = PRef r -> oe_xpath O h' r v = oe_xpath O h r v.

Lemma request_address : forall r, is_request h c = Some r -> c = PRef r.
Proof.
  intros r G. destruct c as [| a | | | | |]; try discriminate G. cbn in G.
  destruct (nth_error h a) as [[[]| | |]|]; try discriminate G. injection G as <-. reflexivity.
Qed.

Lemma designator_same : forall k d, S d -> o_eval_designator O h' k d c = o_eval_designator O h k d c.
Proof.
  intros k d D. unfold o_eval_designator. rewrite (request_same c Hc).
  destruct (is_request h c) as [r|] eqn:R; [|reflexivity]. pose proof (request_seen c r Hc R) as Sr.
  rewrite !(get_same d _ D). apply bind_cong; [reflexivity|]. intros dt _.
  apply bind_cong; [reflexivity|]. intros id _. apply bind_cong; [reflexivity|]. intros issuer _.
  assert (Sec : forall name et, bind (get_attr h' r name) (fun x =>
      bind (attr h' x "attributes") (fun l => bind (list_items h' l) (fun attrs =>
        o_collect_attrs h' id dt issuer et [] attrs))) =
    bind (get_attr h r name) (fun x =>
      bind (attr h x "attributes") (fun l => bind (list_items h l) (fun attrs =>
        o_collect_attrs h id dt issuer et [] attrs)))).
  { intros name et. rewrite (get_same r _ Sr). apply bind_cong; [reflexivity|]. intros x X.
    apply section_same. exact (get_seen _ _ _ Sr X). }
  apply bind_cong; [|reflexivity].
  destruct k; [| |apply Sec|apply Sec]; rewrite (get_same r _ Sr); (apply bind_cong; [reflexivity|]); intros l L;
    pose proof (get_seen _ _ _ Sr L) as SL; rewrite (items_same l SL); (apply bind_cong; [reflexivity|]); intros its I.
  - apply collect_subjects_same; [exact Sr | apply HP, request_address, R | exact (items_seen _ _ SL I)].
  - apply collect_resources_same. exact (items_seen _ _ SL I).
Qed.

Lemma selector_same : forall s, S s -> o_eval_selector O h' s c = o_eval_selector O h s c.
Proof.
  intros s D. unfold o_eval_selector. rewrite (request_same c Hc).
  destruct (is_request h c) as [r|] eqn:R; [|reflexivity]. pose proof (request_seen c r Hc R) as Sr.
  rewrite (get_same r _ Sr), !(get_same s _ D). apply bind_cong; [reflexivity|]. intros sel _.
  destruct sel as [[]| | | | | |]; try reflexivity; (apply bind_cong; [reflexivity|]); intros dt _;
    (destruct dt as [[]| | | | | |]; try reflexivity);
    (match goal with |- context [dict_get ?s (oe_classes O)] => destruct (dict_get s (oe_classes O)) end; [|reflexivity]);
    (apply bind_cong; [reflexivity|]); intros path _; rewrite (HX _ _ (request_address r R)); reflexivity.
Qed.

Lemma mapM_seen : forall A (f g : pval -> res A) items, Forall seen items ->
  (forall v, seen v -> f v = g v) -> mapM f items = mapM g items.
Proof.
  intros A f g items F H. apply mapM_ext_in. intros x I. apply H. rewrite Forall_forall in F. apply F, I.
Qed.

Lemma expr_same : forall n v, seen v -> o_eval_expr O h' n c v = o_eval_expr O h n c v.
Proof.
  induction n as [|n IH]; intros [| a | | | | |] V; try reflexivity. cbn [o_eval_expr].
  pose proof (V a eq_refl) as Sa. rewrite (Hsame a Sa).
  destruct (nth_error h a) as [[cl attrs| | |]|]; try reflexivity. destruct cl; try reflexivity.
  - apply designator_same; exact Sa.
  - apply selector_same; exact Sa.
  - rewrite !(get_same a _ Sa). apply bind_cong; [reflexivity|]. intros l L.
    pose proof (get_seen _ _ _ Sa L) as SL. rewrite (items_same l SL). apply bind_cong; [reflexivity|]. intros its I.
    apply bind_cong; [|reflexivity]. apply mapM_seen; [exact (items_seen _ _ SL I) | exact IH].
Qed.

Lemma match_same : forall v, seen v -> o_eval_match O h' c v = o_eval_match O h c v.
Proof.
  intros v V. unfold o_eval_match. rewrite !(attr_same v _ V). apply bind_cong; [reflexivity|]. intros d D.
  apply bind_cong.
  - destruct d as [[]| a | | | | |]; try reflexivity.
    + apply bind_cong; [reflexivity|]. intros s Q. destruct s as [[]| a | | | | |]; try reflexivity.
      pose proof (attr_seen _ _ _ V Q a eq_refl) as Sa. rewrite (Hsame a Sa).
      destruct (nth_error h a) as [[[]| | |]|]; try reflexivity. apply selector_same; exact Sa.
    + pose proof (attr_seen _ _ _ V D a eq_refl) as Sa. rewrite (Hsame a Sa).
      destruct (nth_error h a) as [[[]| | |]|]; try reflexivity. apply designator_same; exact Sa.
  - intros bag _. apply bind_cong; [reflexivity|]. intros f _. apply bind_cong; [reflexivity|]. intros x X.
    rewrite (pyval_same x (attr_seen _ _ _ V X)). reflexivity.
Qed.

Lemma child_same : forall v, seen v -> o_match_child O h' c v = o_match_child O h c v.
Proof.
  intros v V. unfold o_match_child. rewrite (attr_same v _ V). apply bind_cong; [reflexivity|]. intros l L.
  pose proof (attr_seen _ _ _ V L) as SL. rewrite (items_same l SL). apply bind_cong; [reflexivity|]. intros its I.
  apply bind_cong; [|reflexivity]. apply mapM_seen; [exact (items_seen _ _ SL I) | exact match_same].
Qed.

Lemma loop_same : forall items, Forall seen items -> forall b,
  o_section_loop O h' c b items = o_section_loop O h c b items.
Proof.
  intros items F. induction F as [|v items V F IH]; intro b; [reflexivity|]. cbn [o_section_loop].
  rewrite (child_same v V). apply bind_cong; [reflexivity|]. intros x _. apply IH.
Qed.

Lemma target_same : forall v, seen v -> o_target_match O h' c v = o_target_match O h c v.
Proof.
  intros v V. unfold o_target_match. apply bind_cong; [|reflexivity].
  apply mapM_ext_in. intros name _. unfold o_match_section. rewrite (attr_same v _ V).
  apply bind_cong; [reflexivity|]. intros l L.
  pose proof (attr_seen _ _ _ V L) as SL. rewrite (items_same l SL). apply bind_cong; [reflexivity|]. intros its I.
  destruct its; [reflexivity|]. apply loop_same. exact (items_seen _ _ SL I).
Qed.

Lemma check_same : forall v, seen v -> o_check_target O h' c v = o_check_target O h c v.
Proof.
  intros v V. unfold o_check_target. rewrite (attr_same v _ V). apply bind_cong; [reflexivity|]. intros t T.
  pose proof (attr_seen _ _ _ V T) as ST. rewrite (target_same t ST). reflexivity.
Qed.

Lemma effect_same : forall v, seen v -> o_effect_value h' v = o_effect_value h v.
Proof.
  intros v V. unfold o_effect_value. rewrite (attr_same v _ V). apply bind_cong; [reflexivity|]. intros e Q.
  apply attr_same. exact (attr_seen _ _ _ V Q).
Qed.

Lemma rule_same : forall n v, seen v -> o_rule_eval O h' n c v = o_rule_eval O h n c v.
Proof.
  intros n v V. unfold o_rule_eval. f_equal. unfold o_rule_body. rewrite (check_same v V), (effect_same v V).
  apply bind_cong; [reflexivity|]. intros b _. destruct (negb b); [reflexivity|].
  rewrite (attr_same v _ V). apply bind_cong; [reflexivity|]. intros cond C.
  pose proof (attr_seen _ _ _ V C) as SC. apply bind_cong; [|reflexivity].
  assert (Q : o_eval_condition O h' n c cond = o_eval_condition O h n c cond).
  { unfold o_eval_condition. rewrite (attr_same cond _ SC). apply bind_cong; [reflexivity|]. intros x X.
    apply expr_same. exact (attr_seen _ _ _ SC X). }
  rewrite Q. reflexivity.
Qed.

Lemma rules_same : forall n alg items, Forall seen items ->
  o_combine_rules h' alg (o_rule_eval O h' n c) items = o_combine_rules h alg (o_rule_eval O h n c) items.
Proof.
  intros n alg items F. destruct alg; cbn [o_combine_rules].
  - generalize false at 1 4. generalize false at 1 3. generalize false.
    induction F as [|v items V F IH]; intros x y z; [reflexivity|]. cbn [o_rules_deny_overrides].
    rewrite (rule_same n v V). apply bind_cong; [reflexivity|]. intros [] _; try reflexivity; try apply IH.
    unfold o_effect_is_deny. rewrite (effect_same v V). apply bind_cong; [reflexivity|]. intros b _. apply IH.
  - generalize false at 1 4. generalize false at 1 3. generalize false.
    induction F as [|v items V F IH]; intros x y z; [reflexivity|]. cbn [o_rules_permit_overrides].
    rewrite (rule_same n v V). apply bind_cong; [reflexivity|]. intros [] _; try reflexivity; try apply IH.
    unfold o_effect_is_permit. rewrite (effect_same v V). apply bind_cong; [reflexivity|]. intros b _. apply IH.
  - induction F as [|v items V F IH]; [reflexivity|]. cbn [o_first_applicable].
    rewrite (rule_same n v V). apply bind_cong; [reflexivity|]. intros [] _; try reflexivity; apply IH.
Qed.

Lemma policies_same : forall ev ev' alg items, Forall seen items ->
  (forall v, seen v -> ev' v = ev v) -> o_combine_policies alg ev' items = o_combine_policies alg ev items.
Proof.
  intros ev ev' alg items F H. destruct alg; cbn [o_combine_policies].
  - generalize false. induction F as [|v items V F IH]; intros x; [reflexivity|]. cbn [o_policies_deny_overrides].
    rewrite (H v V). apply bind_cong; [reflexivity|]. intros [] _; try reflexivity; apply IH.
  - generalize false at 1 3. generalize false. induction F as [|v items V F IH]; intros x y; [reflexivity|].
    cbn [o_policies_permit_overrides]. rewrite (H v V). apply bind_cong; [reflexivity|].
    intros [] _; try reflexivity; apply IH.
  - induction F as [|v items V F IH]; [reflexivity|]. cbn [o_first_applicable].
    rewrite (H v V). apply bind_cong; [reflexivity|]. intros [] _; try reflexivity; apply IH.
Qed.

Lemma policy_same : forall n v, seen v -> o_policy_eval O h' n c v = o_policy_eval O h n c v.
Proof.
  induction n as [|n IH]; intros [| a | | | | |] V; try reflexivity. cbn [o_policy_eval].
  pose proof (V a eq_refl) as Sa. rewrite (Hsame a Sa).
  destruct (nth_error h a) as [[cl attrs| | |]|]; try reflexivity. destruct cl; try reflexivity;
    f_equal; rewrite (check_same _ V), !(get_same a _ Sa); (apply bind_cong; [reflexivity|]); intros b _;
    (destruct (negb b); [reflexivity|]); (apply bind_cong; [reflexivity|]); intros alg _;
    (destruct alg; try reflexivity); (apply bind_cong; [reflexivity|]); intros l L;
    pose proof (get_seen _ _ _ Sa L) as SL; rewrite (items_same l SL); (apply bind_cong; [reflexivity|]); intros its I.
  - apply rules_same. exact (items_seen _ _ SL I).
  - apply policies_same; [exact (items_seen _ _ SL I) | exact IH].
Qed.
End Seen.

Lemma policy_local : forall O h h' n p c, same_objects h h' p c -> same_collaborators O h h' c ->
  o_policy_eval O h' n c p = o_policy_eval O h n c p.
Proof.
  intros O h h' n p c A [HP HX].
  apply (policy_same O h h' (fun b => exists a, (p = PRef a \/ c = PRef a) /\ reaches h a b)); try assumption.
  - intros b (a & Q & R). exact (A a b Q R).
  - intros b b' (a & Q & R) F. exists a. split; [exact Q|]. eapply rt_trans; [exact R | apply rt_step, F].
  - intros a ->. exists a. split; [right; reflexivity | apply rt_refl].
  - intros a ->. exists a. split; [left; reflexivity | apply rt_refl].
Qed.
