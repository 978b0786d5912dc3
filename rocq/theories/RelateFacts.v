(** Lemmas for C56 and C57. *)
From Verif Require Import Eval SpecEval SpecRelate EvalFacts EvalFacts2 EvalFacts3 FunFacts.
From Coq Require Import Permutation.

(** ** Evaluations that agree on designators and selectors *)

Lemma combine_rules_ext : forall alg ev ev' rules,
  (forall r, In r rules -> ev r = ev' r) -> combine_rules alg ev rules = combine_rules alg ev' rules.
Proof.
  intros alg ev ev' rules H. destruct alg; cbn [combine_rules].
  - enough (K : forall a b d, rules_deny_overrides ev a b d rules = rules_deny_overrides ev' a b d rules)
      by apply K.
    induction rules as [|r rules IH]; intros a b d; [reflexivity|].
    cbn [rules_deny_overrides]. rewrite <- (H r (or_introl eq_refl)).
    specialize (IH (fun x Hx => H x (or_intror Hx))).
    destruct (ev r) as [[]|]; cbn [bind]; try reflexivity; try apply IH.
    destruct (rl_effect r) as [[]|]; try reflexivity; apply IH.
  - enough (K : forall a b d, rules_permit_overrides ev a b d rules = rules_permit_overrides ev' a b d rules)
      by apply K.
    induction rules as [|r rules IH]; intros a b d; [reflexivity|].
    cbn [rules_permit_overrides]. rewrite <- (H r (or_introl eq_refl)).
    specialize (IH (fun x Hx => H x (or_intror Hx))).
    destruct (ev r) as [[]|]; cbn [bind]; try reflexivity; try apply IH.
    destruct (rl_effect r) as [[]|]; try reflexivity; apply IH.
  - induction rules as [|r rules IH]; [reflexivity|].
    cbn [rules_first_applicable]. rewrite <- (H r (or_introl eq_refl)).
    specialize (IH (fun x Hx => H x (or_intror Hx))).
    destruct (ev r) as [[]|]; cbn [bind]; try reflexivity; apply IH.
Qed.

Lemma combine_policies_ext : forall alg ev ev' ps,
  (forall p, In p ps -> ev p = ev' p) -> combine_policies alg ev ps = combine_policies alg ev' ps.
Proof.
  intros alg ev ev' ps H. destruct alg; cbn [combine_policies].
  - enough (K : forall a, policies_deny_overrides ev a ps = policies_deny_overrides ev' a ps) by apply K.
    induction ps as [|p ps IH]; intros a; [reflexivity|].
    cbn [policies_deny_overrides]. rewrite <- (H p (or_introl eq_refl)).
    specialize (IH (fun x Hx => H x (or_intror Hx))).
    destruct (ev p) as [[]|]; cbn [bind]; try reflexivity; apply IH.
  - enough (K : forall a d, policies_permit_overrides ev a d ps = policies_permit_overrides ev' a d ps)
      by apply K.
    induction ps as [|p ps IH]; intros a d; [reflexivity|].
    cbn [policies_permit_overrides]. rewrite <- (H p (or_introl eq_refl)).
    specialize (IH (fun x Hx => H x (or_intror Hx))).
    destruct (ev p) as [[]|]; cbn [bind]; try reflexivity; apply IH.
  - induction ps as [|p ps IH]; [reflexivity|].
    cbn [policies_first_applicable]. rewrite <- (H p (or_introl eq_refl)).
    specialize (IH (fun x Hx => H x (or_intror Hx))).
    destruct (ev p) as [[]|]; cbn [bind]; try reflexivity; apply IH.
Qed.

(** The parts of a tree are parts of every tree around it. *)
Lemma subtree_trans : forall q m t alg children p,
  In p children -> subtree q p -> subtree q (PPolicySet m t alg children).
Proof. intros. econstructor 2; eassumption. Qed.

Lemma tree_target_up : forall m t alg children p x,
  In p children -> tree_target p x -> tree_target (PPolicySet m t alg children) x.
Proof.
  intros m t alg children p x Hp [m' a' rs H|m' a' ps H|m' pt a' rs r H Hr Ht].
  - eapply tt_policy, subtree_trans; eassumption.
  - eapply tt_set, subtree_trans; eassumption.
  - eapply tt_rule; [eapply subtree_trans; eassumption|exact Hr|exact Ht].
Qed.

Lemma tree_match_up : forall m t alg children p x,
  In p children -> tree_match p x -> tree_match (PPolicySet m t alg children) x.
Proof.
  intros m t alg children p x Hp (t' & Ht & Hx). exists t'.
  split; [eapply tree_target_up; eassumption|exact Hx].
Qed.

Lemma tree_expr_up : forall m t alg children p x,
  In p children -> tree_expr p x -> tree_expr (PPolicySet m t alg children) x.
Proof.
  intros m t alg children p x Hp (m' & t' & a' & rs & r & y & H & H1 & H2 & H3).
  exists m', t', a', rs, r, y. split; [eapply subtree_trans; eassumption|auto].
Qed.

(** Matches of a target, section by section. *)
Lemma in_sections : forall t s ch m,
  In s [tg_subjects t; tg_resources t; tg_actions t; tg_environments t] ->
  In ch s -> In m ch -> In m (target_matches t).
Proof.
  intros t s ch m Hs Hc Hm. unfold target_matches. apply in_concat. exists ch.
  split; [|exact Hm]. rewrite !in_app_iff. cbn [In] in Hs.
  destruct Hs as [<-|[<-|[<-|[<-|[]]]]]; auto.
Qed.

Lemma target_ext : forall E c E' c' t,
  (forall m, In m (target_matches t) -> eval_match E c m = eval_match E' c' m) ->
  target_match E c t = target_match E' c' t.
Proof.
  intros E c E' c' t H. unfold target_match. f_equal. apply mapM_ext_in. intros s Hs.
  rewrite !match_section_mapM. f_equal. apply mapM_ext_in. intros ch Hc.
  unfold match_child. f_equal. apply mapM_ext_in. intros m Hm.
  apply H. eapply in_sections; eassumption.
Qed.

(** A whole tree, given its matches and conditions. *)
Lemma tree_ext : forall E c E' c' p,
  (forall t, tree_target p t ->
     outcome_alike eq (target_match E c t) (target_match E' c' t) \/
     target_match E c t = target_match E' c' t) ->
  (forall m t alg rules r x, subtree (PPolicy m t alg rules) p -> In r rules ->
     rl_condition r = Some (Some x) ->
     outcome_alike (fun v v' => truthy v = truthy v') (eval_expr E c x) (eval_expr E' c' x) \/
     eval_expr E c x = eval_expr E' c' x) ->
  policy_eval E c p = policy_eval E' c' p.
Proof.
  intros E c E' c' p. 
  assert (catch_alike : forall x y : res decision, outcome_alike eq x y \/ x = y ->
            catch_exception x = catch_exception y).
  { intros x y [[a b <-|e e' He He']|<-]; [reflexivity| |reflexivity].
    cbn [catch_exception]. rewrite He, He'. reflexivity. }
  assert (with_alike : forall t k k' , k = k' ->
            (forall t', t = Some t' ->
               outcome_alike eq (target_match E c t') (target_match E' c' t') \/
               target_match E c t' = target_match E' c' t') ->
            catch_exception (with_target E c t k) = catch_exception (with_target E' c' t k')).
  { intros t k k' <- H. unfold with_target. destruct t as [t|]; [|reflexivity].
    specialize (H t eq_refl). destruct H as [H|H].
    - destruct H as [a b <-|e e' He He']; [reflexivity|].
      cbn [bind catch_exception]. rewrite He, He'. reflexivity.
    - rewrite H. reflexivity. }
  induction p as [m t alg rules|m t alg children IH] using policybase_ind'; intros HT HX;
    cbn [policy_eval].
  - apply with_alike.
    + destruct alg as [alg|]; [|reflexivity]. apply combine_rules_ext. intros r Hr.
      unfold rule_eval. apply catch_alike. unfold rule_body.
      assert (K : forall tm, 
        (outcome_alike eq
          (if negb tm then Ok NotApplicable else
           let* status := match rl_condition r with
                          | Some cond => eval_condition E c cond
                          | None => Ok (py_bool true) end in
           if truthy status then match rl_effect r with
                                 | Some e => Ok (decision_of_effect e)
                                 | None => Raise EAttributeError end
           else Ok NotApplicable)
          (if negb tm then Ok NotApplicable else
           let* status := match rl_condition r with
                          | Some cond => eval_condition E' c' cond
                          | None => Ok (py_bool true) end in
           if truthy status then match rl_effect r with
                                 | Some e => Ok (decision_of_effect e)
                                 | None => Raise EAttributeError end
           else Ok NotApplicable)) \/
          (if negb tm then Ok NotApplicable else
           let* status := match rl_condition r with
                          | Some cond => eval_condition E c cond
                          | None => Ok (py_bool true) end in
           if truthy status then match rl_effect r with
                                 | Some e => Ok (decision_of_effect e)
                                 | None => Raise EAttributeError end
           else Ok NotApplicable) =
          (if negb tm then Ok NotApplicable else
           let* status := match rl_condition r with
                          | Some cond => eval_condition E' c' cond
                          | None => Ok (py_bool true) end in
           if truthy status then match rl_effect r with
                                 | Some e => Ok (decision_of_effect e)
                                 | None => Raise EAttributeError end
           else Ok NotApplicable)).
      { intros [|]; cbn [negb]; [|right; reflexivity].
        destruct (rl_condition r) as [[x|]|] eqn:Hc; cbn [eval_condition]; [|right; reflexivity..].
        destruct (HX m t (Some alg) rules r x (subtree_self _) Hr Hc) as [H|H];
          [|right; rewrite H; reflexivity].
        destruct H as [v v' Hv|e e' He He']; cbn [bind].
        - rewrite Hv. right. reflexivity.
        - left. constructor; assumption. }
      destruct (rl_target r) as [rt|] eqn:Ht; [|exact (K true)].
      destruct (HT rt (tt_rule _ _ m t (Some alg) rules r (subtree_self _) Hr Ht)) as [H|H].
      * destruct H as [a b <-|e e' He He']; cbn [bind]; [apply K|].
        left. constructor; assumption.
      * rewrite H. destruct (target_match E' c' rt) as [b|e]; cbn [bind]; [apply K|].
        right. reflexivity.
    + intros t' ->. apply HT. eapply tt_policy, subtree_self.
  - apply with_alike.
    + destruct alg as [alg|]; [|reflexivity]. apply combine_policies_ext. intros p Hp.
      rewrite Forall_forall in IH. apply IH; [exact Hp| |].
      * intros t' Ht'. apply HT. eapply tree_target_up; eassumption.
      * intros m' t' alg' rules r x Hs. apply (HX m' t' alg' rules r x).
        eapply subtree_trans; eassumption.
    + intros t' ->. apply HT. eapply tt_set, subtree_self.
Qed.

Lemma expr_agree : forall E c c' x,
  (forall d, part_of (XDesignator d) x -> eval_designator E d c = eval_designator E d c') ->
  (forall s, part_of (XSelector s) x -> eval_selector E s c = eval_selector E s c') ->
  eval_expr E c x = eval_expr E c' x.
Proof.
  intros E c c' x. induction x as [id f args IH|v|d|s] using expr_ind'; intros HD HS;
    cbn [eval_expr].
  - f_equal. apply mapM_ext_in. intros a Ha. rewrite Forall_forall in IH.
    apply IH; [exact Ha| |].
    + intros d Hd. apply HD. econstructor 2; eassumption.
    + intros s Hs. apply HS. econstructor 2; eassumption.
  - reflexivity.
  - apply HD, part_self.
  - apply HS, part_self.
Qed.

Lemma policy_agree : forall E c c' p,
  (forall d, tree_designator p d -> eval_designator E d c = eval_designator E d c') ->
  (forall s, tree_selector p s -> eval_selector E s c = eval_selector E s c') ->
  policy_eval E c p = policy_eval E c' p.
Proof.
  intros E c c' p HD HS. apply tree_ext.
  - intros t Ht. right. apply target_ext. intros m Hm. unfold eval_match. f_equal.
    assert (tree_match p m) as Htm by (exists t; auto).
    destruct (mt_designator m) as [d|] eqn:Hd; [apply HD; left; eauto|].
    destruct (mt_selector m) as [s|] eqn:Hs; [apply HS; left; eauto|reflexivity].
  - intros m t alg rules r x Hs Hr Hc. right. apply expr_agree.
    + intros d Hd. apply HD. right. exists m, t, alg, rules, r, x. auto.
    + intros s Hsel. apply HS. right. exists m, t, alg, rules, r, x. auto.
Qed.

(** ** C56 *)

Lemma selector_self : forall E s r r', rq_selector r = None -> rq_selector r' = None ->
  eval_selector E s (CtxRequest r) = eval_selector E s (CtxRequest r').
Proof. intros E s r r' H H'. cbn [eval_selector]. rewrite H, H'. reflexivity. Qed.

Lemma wanted_selection : forall d attrs l,
  selection (asks_for d) attrs l -> wanted d attrs = wanted d l.
Proof.
  intros d attrs l H. unfold wanted. induction H as [|x l l' Hx H IH|x l l' Hx H IH]; [reflexivity| |].
  - cbn [flat_map]. rewrite IH. reflexivity.
  - cbn [flat_map]. destruct (attr_match d x) eqn:E; [|exact IH].
    apply attr_match_iff in E. contradiction.
Qed.

Lemma only_requested : forall E p r r',
  self_contained r -> self_contained r' ->
  (forall d, tree_designator p d ->
     match section_attributes (dg_kind d) r, section_attributes (dg_kind d) r' with
     | Some l, Some l' => exists m, selection (asks_for d) l m /\ selection (asks_for d) l' m
     | None, None => True
     | _, _ => False
     end) ->
  policy_eval E (CtxRequest r) p = policy_eval E (CtxRequest r') p.
Proof.
  intros E p r r' [Hh Hx] [Hh' Hx'] H. apply policy_agree.
  - intros d Hd. specialize (H d Hd).
    destruct (section_attributes (dg_kind d) r) as [l|] eqn:S;
      destruct (section_attributes (dg_kind d) r') as [l'|] eqn:S'; try contradiction.
    + destruct H as (m & H1 & H2).
      rewrite (eval_designator_plain E d r l), (eval_designator_plain E d r' l'); auto.
      rewrite (wanted_selection d l m H1), (wanted_selection d l' m H2). reflexivity.
    + rewrite !eval_designator_no_section; auto.
  - intros s _. apply selector_self; assumption.
Qed.

Lemma selection_filter : forall d l, selection (asks_for d) l (filter (attr_match d) l).
Proof.
  intros d l. induction l as [|a l IH]; [constructor|]. cbn [filter].
  destruct (attr_match d a) eqn:E.
  - apply sel_take; [apply attr_match_iff, E|exact IH].
  - apply sel_skip; [|exact IH]. intros H. apply attr_match_iff in H. congruence.
Qed.

Lemma filter_put_in : forall d a l l', ~ asks_for d a -> put_in a l l' ->
  filter (attr_match d) l = filter (attr_match d) l'.
Proof.
  intros d a l l' Ha (l1 & l2 & -> & ->). rewrite !filter_app. f_equal. cbn [filter].
  destruct (attr_match d a) eqn:E; [|reflexivity]. apply attr_match_iff in E. contradiction.
Qed.

Lemma filter_section : forall d k a r r', (dg_kind d = k -> ~ asks_for d a) -> with_attribute a k r r' ->
  option_map (filter (attr_match d)) (section_attributes (dg_kind d) r) =
  option_map (filter (attr_match d)) (section_attributes (dg_kind d) r').
Proof.
  intros d k a r r' Ha H.
  destruct H as [s1 s2 cat l l' rs act en h x Hl|ss r1 r2 content l l' act en h x Hl
                |ss rs l l' en h x Hl|ss rs act l l' h x Hl];
    destruct (dg_kind d); try reflexivity; specialize (Ha eq_refl);
    pose proof (filter_put_in d a l l' Ha Hl) as F;
    cbn [section_attributes rq_subjects rq_resources rq_action rq_environment option_map];
    rewrite ?map_app, ?concat_app, ?filter_app; cbn [map concat sb_attributes rs_attributes];
    rewrite ?filter_app, ?F; reflexivity.
Qed.

Lemma irrelevant_attribute : forall E p r r' k a,
  self_contained r -> with_attribute a k r r' ->
  (forall d, tree_designator p d -> dg_kind d = k -> ~ asks_for d a) ->
  policy_eval E (CtxRequest r') p = policy_eval E (CtxRequest r) p.
Proof.
  intros E p r r' k a Hr Hw H. symmetry. apply only_requested; [exact Hr| |].
  - destruct Hr. destruct Hw; split; assumption.
  - intros d Hd. pose proof (filter_section d k a r r' (H d Hd) Hw) as F.
    destruct (section_attributes (dg_kind d) r) as [l|];
      destruct (section_attributes (dg_kind d) r') as [l'|]; cbn [option_map] in F;
      try discriminate F; [|exact I].
    injection F as F. exists (filter (attr_match d) l). split; [apply selection_filter|].
    rewrite F. apply selection_filter.
Qed.

(** ** C57: functions on values that are alike *)

Definition custom (f : fn) : Prop := exists n, f = FnCustom n.

Lemma alike_refl_list : forall l, Forall2 alike l l.
Proof. induction l; constructor; [constructor|assumption]. Qed.

Lemma alike_bool : forall v v', alike v v' -> as_bool v = as_bool v'.
Proof. intros v v' []; reflexivity. Qed.

Lemma alike_truthy : forall v v', alike v v' -> truthy v = truthy v'.
Proof.
  intros v v' [w|et l l' H]; [reflexivity|]. cbn [truthy].
  destruct l as [|x l]; [apply Permutation_nil in H; subst; reflexivity|].
  destruct l' as [|y l']; [|reflexivity].
  symmetry in H. apply Permutation_nil in H. discriminate H.
Qed.

(** Alike values that are no bags are equal. *)
Lemma alike_cases : forall v v', alike v v' ->
  v = v' \/ exists et l l', v = PBag et l /\ v' = PBag et l' /\ Permutation l l'.
Proof. intros v v' [w|et l l' H]; [left; reflexivity|right; eauto 6]. Qed.

Lemma oa_refl : forall A (R : A -> A -> Prop) (x : res A), (forall a, R a a) ->
  (forall e, x = Raise e -> is_exception e = true) -> outcome_alike R x x.
Proof. intros A R [a|e] H He; constructor; auto. Qed.

Lemma oa_bind : forall A B (R : A -> A -> Prop) (S : B -> B -> Prop) x y f g,
  outcome_alike R x y -> (forall a b, R a b -> outcome_alike S (f a) (g b)) ->
  outcome_alike S (bind x f) (bind y g).
Proof. intros A B R S x y f g [a b H|e e' H H'] K; cbn [bind]; [apply K, H|constructor; assumption]. Qed.

Lemma oa_mapM : forall A B (R : B -> B -> Prop) (f g : A -> res B) l,
  (forall x, In x l -> outcome_alike R (f x) (g x)) ->
  outcome_alike (Forall2 R) (mapM f l) (mapM g l).
Proof.
  intros A B R f g l. induction l as [|x l IH]; intros H; [repeat constructor|].
  rewrite !mapM_cons. eapply oa_bind; [apply H; left; reflexivity|]. intros a b Hab.
  eapply oa_bind; [apply IH; intros y Hy; apply H; right; exact Hy|]. intros l1 l2 Hl.
  repeat constructor; assumption.
Qed.

Lemma and_check_alike : forall args args', Forall2 alike args args' -> and_check args = and_check args'.
Proof.
  intros args args' H. induction H as [|v v' l l' Hv Hl IH]; [reflexivity|].
  cbn [and_check]. rewrite (alike_bool v v' Hv), IH. reflexivity.
Qed.

Lemma bag_loop_alike : forall c args args', Forall2 alike args args' ->
  forall bag, bag_loop c bag args = bag_loop c bag args'.
Proof.
  intros c args args' H. induction H as [|v v' l l' Hv Hl IH]; intros bag; [reflexivity|].
  destruct Hv as [w|et b b' Hb]; cbn [bag_loop]; [|reflexivity].
  destruct w; try reflexivity. destruct (av_isinstance a c); [apply IH|reflexivity].
Qed.

Lemma concat_rest_alike : forall args args', Forall2 alike args args' -> concat_rest args = concat_rest args'.
Proof.
  intros args args' H. induction H as [|v v' l l' Hv Hl IH]; [reflexivity|].
  destruct Hv as [w|et b b' Hb]; cbn [concat_rest]; [|reflexivity].
  rewrite IH. reflexivity.
Qed.

Lemma at_least_one_alike : forall F c et l1 l1' et2 l2 l2',
  Permutation l1 l1' -> Permutation l2 l2' ->
  fn_eval F (FnAtLeastOne c) [PBag et l1; PBag et2 l2] =
  fn_eval F (FnAtLeastOne c) [PBag et l1'; PBag et2 l2'].
Proof.
  intros F c et l1 l1' et2 l2 l2' H1 H2.
  destruct (opt_eqb class_eqb et (Some c)) eqn:K1;
    [|cbn [fn_eval at_least_one_eval]; rewrite K1; reflexivity].
  destruct (opt_eqb class_eqb et2 (Some c)) eqn:K2;
    [|cbn [fn_eval at_least_one_eval]; rewrite K1, K2; reflexivity].
  apply opt_class_eqb in K1. apply opt_class_eqb in K2.
  destruct K1 as (c1 & -> & K1). destruct K2 as (c2 & -> & K2).
  destruct (at_least_one_ok F c c1 c2 l1 l2 K1 K2) as (b & -> & Hb).
  destruct (at_least_one_ok F c c1 c2 l1' l2' K1 K2) as (b' & -> & Hb').
  assert (b = true <-> b' = true) as Heq.
  { rewrite Hb, Hb'. split; intros (v1 & v2 & I1 & I2 & Hv); exists v1, v2.
    - split; [eapply Permutation_in; eassumption|]. split; [eapply Permutation_in; eassumption|exact Hv].
    - symmetry in H1, H2.
      split; [eapply Permutation_in; eassumption|]. split; [eapply Permutation_in; eassumption|exact Hv]. }
  destruct b, b'; try reflexivity; exfalso; [apply proj1 in Heq|apply proj2 in Heq];
    specialize (Heq eq_refl); discriminate Heq.
Qed.

(** Every built in function has the same outcome on alike arguments. *)
Lemma builtin_alike : forall F f args args', ~ custom f -> Forall2 alike args args' ->
  fn_eval F f args = fn_eval F f args'.
Proof.
  intros F f args args' Hf H.
  destruct f; cbn [fn_eval].
  - unfold and_eval. pose proof (and_check_alike _ _ H) as K.
    destruct H; [reflexivity|]. rewrite K. reflexivity.
  - destruct H as [|v v' l l' Hv Hl]; [reflexivity|]. destruct Hl as [|w w' l l' Hw Hl]; [|reflexivity].
    cbn [not_eval]. rewrite (alike_bool v v' Hv). reflexivity.
  - destruct H as [|v v' l l' Hv Hl]; [reflexivity|]. destruct Hl as [|w w' l l' Hw Hl].
    + destruct Hv; reflexivity.
    + destruct Hv as [u|et b b' Hb]; destruct Hw; try reflexivity;
        destruct u as [[]| | |]; try reflexivity; destruct v; reflexivity.
  - destruct H as [|v v' l l' Hv Hl]; [reflexivity|]. destruct Hl as [|w w' l l' Hw Hl]; [reflexivity|].
    destruct Hl as [|u u' l l' Hu Hl]; [|reflexivity]. 
    destruct Hv; [|reflexivity]. destruct Hw; [reflexivity|]. reflexivity.
  - destruct H as [|v v' l l' Hv Hl]; [reflexivity|]. destruct Hl as [|w w' l l' Hw Hl]; [reflexivity|].
    destruct Hl as [|u u' l l' Hu Hl]; [|reflexivity]. 
    destruct Hv; [|reflexivity]. destruct Hw; [reflexivity|]. reflexivity.
  - unfold bag_eval. rewrite (bag_loop_alike c _ _ H). reflexivity.
  - destruct H as [|v v' l l' Hv Hl]; [reflexivity|]. destruct Hl as [|w w' l l' Hw Hl]; [|reflexivity].
    destruct Hv as [u|et b b' Hb]; [reflexivity|]. cbn [one_and_only_eval].
    destruct (opt_eqb class_eqb et (Some c)); [|reflexivity].
    destruct b as [|x [|y b]].
    + apply Permutation_nil in Hb. subst. reflexivity.
    + apply Permutation_length_1_inv in Hb. subst. reflexivity.
    + apply Permutation_length in Hb. destruct b' as [|x' [|y' b']]; try discriminate Hb. reflexivity.
  - destruct H as [|v v' l l' Hv Hl]; [reflexivity|]. destruct Hl as [|w w' l l' Hw Hl]; [reflexivity|].
    destruct Hl as [|u u' l l' Hu Hl]; [|reflexivity].
    destruct (alike_cases _ _ Hv) as [->|(et & b & b' & -> & -> & Hb)];
      destruct (alike_cases _ _ Hw) as [->|(et2 & b2 & b2' & -> & -> & Hb2)].
    + reflexivity.
    + destruct v' as [| |et1 l1|]; try reflexivity. apply (at_least_one_alike F); [apply Permutation_refl|exact Hb2].
    + destruct w' as [| |et1 l1|]; try reflexivity; [..|apply (at_least_one_alike F); [exact Hb|apply Permutation_refl]];
        cbn [at_least_one_eval]; destruct (opt_eqb class_eqb et (Some c)); reflexivity.
    + apply (at_least_one_alike F); assumption.
  - destruct H as [|v v' l l' Hv Hl]; [reflexivity|]. destruct Hl as [|w w' l l' Hw Hl]; [reflexivity|].
    destruct Hl as [|u u' l l' Hu Hl]; [|reflexivity]. 
    destruct Hv; [|reflexivity]. destruct Hw; [reflexivity|]. reflexivity.
  - destruct H as [|v v' l l' Hv Hl]; [reflexivity|]. destruct Hl as [|w w' l l' Hw Hl].
    + reflexivity.
    + destruct Hv as [u|et b b' Hb]; [|reflexivity]. cbn [concat_eval].
      rewrite (concat_rest_alike (w :: l) (w' :: l')) by (constructor; assumption). reflexivity.
  - exfalso. apply Hf. exists name. reflexivity.
Qed.

(** A built in function raises only Exceptions. *)
Lemma builtin_raises : forall E f args e, compile_well_behaved E -> ~ custom f ->
  fn_eval (en_fenv E) f args = Raise e -> is_exception e = true.
Proof.
  intros E f args e HE Hf H.
  set (E' := mkEnv (mkFenv (fe_compile (en_fenv E)) (fe_match (en_fenv E))
                     (fun _ _ => Ok (PNat NNone))) [] (fun _ _ => Ok None) (fun _ _ => Ok [])).
  assert (fn_eval (en_fenv E') f args = Raise e) as H'.
  { rewrite <- H. destruct f; try reflexivity. exfalso. apply Hf. exists name. reflexivity. }
  destruct (fn_eval_safe E' f args e H') as [K|[(r & d & K)|[(r & d & K)|[(r & d & K)|(p & K)]]]];
    [exact K|discriminate K..|]. exact (HE p e K).
Qed.

Lemma fn_alike : forall E f args args', compile_well_behaved E ->
  (forall n, f = FnCustom n -> order_blind E n) -> Forall2 alike args args' ->
  outcome_alike alike (fn_eval (en_fenv E) f args) (fn_eval (en_fenv E) f args').
Proof.
  intros E f args args' HE Hf H.
  assert (custom f \/ ~ custom f) as [(n & ->)|K].
  { destruct f; try (right; intros (n & K); discriminate K). left. exists name. reflexivity. }
  - cbn [fn_eval]. apply (Hf n eq_refl), H.
  - rewrite <- (builtin_alike (en_fenv E) f args args' K H). apply oa_refl; [intros; constructor|].
    intros e He. eapply builtin_raises; eassumption.
Qed.

(** ** Bags in another order *)

Lemma Permutation_filter : forall A (f : A -> bool) l l',
  Permutation l l' -> Permutation (filter f l) (filter f l').
Proof.
  intros A f l l' H. induction H as [|x l l' H IH|x y l|l l' l'' H IH H' IH']; cbn [filter].
  - constructor.
  - destruct (f x); [constructor|]; exact IH.
  - destruct (f x), (f y); try apply Permutation_refl. apply perm_swap.
  - eapply perm_trans; eassumption.
Qed.

Lemma wanted_perm : forall d l l', Permutation l l' -> Permutation (wanted d l) (wanted d l').
Proof. intros d l l' H. unfold wanted. apply Permutation_flat_map, H. Qed.

Lemma wanted_reordered : forall d l l', reordered_attributes l l' ->
  Permutation (wanted d l) (wanted d l').
Proof.
  intros d l l' (m & Hm & H). eapply perm_trans; [apply wanted_perm, Hm|]. clear l Hm.
  induction H as [|a a' l l' Ha H IH]; [constructor|].
  unfold wanted in *. cbn [flat_map]. apply Permutation_app; [|exact IH].
  destruct Ha as (H1 & H2 & H3 & H4).
  replace (attr_match d a) with (attr_match d a') by (unfold attr_match; rewrite H1, H2, H3; reflexivity).
  destruct (attr_match d a'); [|constructor]. apply Permutation_filter, H4.
Qed.

Lemma wanted_parts : forall A (f : A -> list attribute) d l l',
  reordered (fun s s' => reordered_attributes (f s) (f s')) l l' ->
  Permutation (wanted d (concat (map f l))) (wanted d (concat (map f l'))).
Proof.
  intros A f d l l' (m & Hm & H). eapply perm_trans.
  { apply wanted_perm. rewrite <- !flat_map_concat_map. apply Permutation_flat_map, Hm. }
  clear l Hm. rewrite flat_map_concat_map.
  induction H as [|a a' l l' Ha H IH]; [constructor|].
  cbn [map concat]. rewrite !wanted_app. apply Permutation_app; [|exact IH].
  apply wanted_reordered, Ha.
Qed.

Lemma instances_perm : forall et l l', Permutation l l' -> instances et l = instances et l'.
Proof.
  intros et l l' H. unfold instances.
  induction H as [|x l l' H IH|x y l|l l' l'' H IH H' IH']; cbn [forallb].
  - reflexivity.
  - rewrite IH. reflexivity.
  - rewrite !Bool.andb_assoc. f_equal. apply Bool.andb_comm.
  - congruence.
Qed.

Lemma designator_alike : forall E d r r', rq_ctxHandler r = None -> rq_ctxHandler r' = None ->
  reordered_request r r' ->
  outcome_alike alike (eval_designator E d (CtxRequest r)) (eval_designator E d (CtxRequest r')).
Proof.
  intros E d r r' Hh Hh' (HS & HR & HA & HN).
  assert (K : forall l l', section_attributes (dg_kind d) r = Some l ->
            section_attributes (dg_kind d) r' = Some l' -> Permutation (wanted d l) (wanted d l') ->
            outcome_alike alike (eval_designator E d (CtxRequest r)) (eval_designator E d (CtxRequest r'))).
  { intros l l' Hl Hl' P.
    rewrite (eval_designator_plain E d r l), (eval_designator_plain E d r' l'); auto.
    rewrite (instances_perm _ _ _ P).
    destruct (instances (class_for E (dg_dataType d)) (wanted d l')); [|constructor; reflexivity].
    destruct (wanted d l) as [|x w].
    - apply Permutation_nil in P. rewrite P. cbn [check_present].
      destruct (dg_mustBePresent d); constructor; constructor. 
    - destruct (wanted d l') as [|x' w'];
        [symmetry in P; apply Permutation_nil in P; discriminate P|].
      cbn [check_present]. constructor. constructor. exact P. }
  assert (N : section_attributes (dg_kind d) r = None -> section_attributes (dg_kind d) r' = None ->
            outcome_alike alike (eval_designator E d (CtxRequest r)) (eval_designator E d (CtxRequest r'))).
  { intros H1 H2. rewrite !eval_designator_no_section by assumption. constructor; reflexivity. }
  destruct (dg_kind d); cbn [section_attributes] in K, N.
  - eapply K; [reflexivity..|]. apply wanted_parts, HS.
  - eapply K; [reflexivity..|]. apply wanted_parts, HR.
  - destruct (rq_action r) as [l|], (rq_action r') as [l'|]; try contradiction.
    + eapply K; [reflexivity..|]. apply wanted_reordered, HA.
    + apply N; reflexivity.
  - destruct (rq_environment r) as [l|], (rq_environment r') as [l'|]; try contradiction.
    + eapply K; [reflexivity..|]. apply wanted_reordered, HN.
    + apply N; reflexivity.
Qed.

Lemma oa_mapM_perm : forall A B (f : A -> res B) l l',
  (forall x e, f x = Raise e -> is_exception e = true) -> Permutation l l' ->
  outcome_alike (@Permutation B) (mapM f l) (mapM f l').
Proof.
  intros A B f l l' Hf H.
  assert (R : forall k, outcome_alike (@Permutation B) (mapM f k) (mapM f k)).
  { intros k. apply oa_refl; [apply Permutation_refl|]. intros e He. apply mapM_raise in He.
    destruct He as (pre & x & post & ys & -> & Hx & _). eapply Hf, Hx. }
  induction H as [|x l l' H IH|x y l|l l' l'' H IH H' IH'].
  - apply R.
  - rewrite !mapM_cons. destruct (f x) as [b|e] eqn:E; cbn [bind].
    + eapply oa_bind; [exact IH|]. intros k k' P. constructor. constructor. exact P.
    + constructor; eapply Hf, E.
  - rewrite !mapM_cons. destruct (f x) as [b|e] eqn:Ex, (f y) as [b'|e'] eqn:Ey; cbn [bind];
      rewrite ?mapM_cons, ?Ex, ?Ey; cbn [bind].
    + specialize (R l). destruct (mapM f l) as [k|e]; cbn [bind].
      * constructor. apply perm_swap.
      * inversion R. constructor; assumption.
    + constructor; eapply Hf; eassumption.
    + constructor; eapply Hf; eassumption.
    + constructor; eapply Hf; eassumption.
  - destruct IH as [a b P|e e' He He']; inversion IH' as [c d P' Hc Hd|e1 e1' He1 He1' Hc Hd]; subst.
    + constructor. eapply perm_trans; eassumption.
    + constructor; assumption.
Qed.

Lemma existsb_perm : forall A (f : A -> bool) l l', Permutation l l' -> existsb f l = existsb f l'.
Proof.
  intros A f l l' H.
  induction H as [|x l l' H IH|x y l|l l' l'' H IH H' IH']; cbn [existsb].
  - reflexivity.
  - rewrite IH. reflexivity.
  - rewrite !Bool.orb_assoc. f_equal. apply Bool.orb_comm.
  - congruence.
Qed.

Section Reordered.
Variables (E : env) (r r' : request).
Hypothesis HE : compile_well_behaved E.
Hypothesis Hr : self_contained r.
Hypothesis Hr' : self_contained r'.
Hypothesis HR : reordered_request r r'.

Lemma selector_alike : forall s,
  outcome_alike alike (eval_selector E s (CtxRequest r)) (eval_selector E s (CtxRequest r')).
Proof.
  intros s. destruct Hr as [_ H], Hr' as [_ H']. cbn [eval_selector]. rewrite H, H'.
  constructor; reflexivity.
Qed.

Lemma expr_alike : forall x,
  (forall n id args, part_of (XApply id (Some (FnCustom n)) args) x -> order_blind E n) ->
  outcome_alike alike (eval_expr E (CtxRequest r) x) (eval_expr E (CtxRequest r') x).
Proof.
  intros x. induction x as [id f args IH|v|d|s] using expr_ind'; intros HF; cbn [eval_expr].
  - eapply oa_bind.
    + apply oa_mapM. intros a Ha. rewrite Forall_forall in IH. apply IH; [exact Ha|].
      intros n id' args' Hp. eapply HF. econstructor 2; eassumption.
    + intros vs vs' Hv. destruct f as [f|]; [|constructor; reflexivity].
      apply fn_alike; [exact HE| |exact Hv]. intros n ->. eapply HF, part_self.
  - constructor. constructor.
  - apply designator_alike; [apply Hr|apply Hr'|exact HR].
  - apply selector_alike.
Qed.

Lemma match_alike : forall m, (forall n, mt_fn m = Some (FnCustom n) -> order_blind E n) ->
  outcome_alike eq (eval_match E (CtxRequest r) m) (eval_match E (CtxRequest r') m).
Proof.
  intros m HF. unfold eval_match.
  assert (K : outcome_alike alike
    (match mt_designator m with
     | Some d => eval_designator E d (CtxRequest r)
     | None => match mt_selector m with
               | Some s => eval_selector E s (CtxRequest r)
               | None => Raise EXacmlContextError end end)
    (match mt_designator m with
     | Some d => eval_designator E d (CtxRequest r')
     | None => match mt_selector m with
               | Some s => eval_selector E s (CtxRequest r')
               | None => Raise EXacmlContextError end end)).
  { destruct (mt_designator m) as [d|]; [apply designator_alike; [apply Hr|apply Hr'|exact HR]|].
    destruct (mt_selector m) as [s|]; [apply selector_alike|constructor; reflexivity]. }
  eapply oa_bind; [exact K|]. intros v v' Hv.
  assert (Permutation (bag_items v) (bag_items v')) as P.
  { destruct Hv as [w|et l l' H]; [apply Permutation_refl|exact H]. }
  eapply oa_bind; [apply oa_mapM_perm; [|exact P]|].
  - intros x e He. unfold match_fn_apply in He. destruct (mt_fn m) as [f|] eqn:Hf.
    + pose proof (fn_alike E f
        [match mt_value m with Some a => PAttr a | None => PNat NNone end; PAttr x]
        [match mt_value m with Some a => PAttr a | None => PNat NNone end; PAttr x] HE) as A.
      rewrite He in A. specialize (A (fun n Hn => HF n (f_equal Some Hn)) (alike_refl_list _)).
      inversion A; assumption.
    + injection He as <-. reflexivity.
  - intros l l' Hl. constructor. apply existsb_perm, Hl.
Qed.

Lemma Forall2_eq : forall A (l l' : list A), Forall2 eq l l' -> l = l'.
Proof. intros A l l' H. induction H; congruence. Qed.

Lemma target_alike : forall t,
  (forall m n, In m (target_matches t) -> mt_fn m = Some (FnCustom n) -> order_blind E n) ->
  outcome_alike eq (target_match E (CtxRequest r) t) (target_match E (CtxRequest r') t).
Proof.
  intros t HF. unfold target_match. eapply oa_bind.
  - apply oa_mapM. intros s Hs. rewrite !match_section_mapM. eapply oa_bind.
    + apply oa_mapM. intros ch Hc. unfold match_child. eapply oa_bind.
      * apply oa_mapM. intros m Hm. apply match_alike. intros n Hn.
        eapply HF; [eapply in_sections; eassumption|exact Hn].
      * intros l l' Hl. apply Forall2_eq in Hl. subst. constructor. reflexivity.
    + intros l l' Hl. apply Forall2_eq in Hl. subst. constructor. reflexivity.
  - intros l l' Hl. apply Forall2_eq in Hl. subst. constructor. reflexivity.
Qed.

Lemma reordered_same : forall p, (forall n, tree_function p (FnCustom n) -> order_blind E n) ->
  policy_eval E (CtxRequest r) p = policy_eval E (CtxRequest r') p.
Proof.
  intros p HF. apply tree_ext.
  - intros t Ht. left. apply target_alike. intros m n Hm Hn. apply HF. left.
    exists m. split; [exists t; auto|exact Hn].
  - intros m t alg rules q x Hs Hq Hc. left.
    assert (outcome_alike alike (eval_expr E (CtxRequest r) x) (eval_expr E (CtxRequest r') x)) as K.
    { apply expr_alike. intros n id args Hp. apply HF. right. exists id, args.
      exists m, t, alg, rules, q, x. auto. }
    destruct K as [v v' Hv|e e' He He']; constructor; auto. apply alike_truthy, Hv.
Qed.
End Reordered.
