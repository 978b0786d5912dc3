(** Lemmas about the part of a policy that is about given values. *)
From Verif Require Import Eval SpecEval SpecStandard SpecTighten SpecSplit EvalFacts EvalFacts4 AlgebraFacts StandardFacts
  MonotoneFacts TightenFacts.

Section Split.
  Variables (E : env) (c : context) (d : designator) (values : list string).
  Hypothesis Hd : carries E c d values.

  Lemma other_match : forall m b, asks_other d values m -> eval_match E c m = Ok b -> b = false.
  Proof.
    intros m b (ty & a & s & Hf & Hm & Ha & Hs & Hn) H. destruct Hd as (et & vs & Hr & Hv).
    assert (R : retrieves E c m (Ok (PBag et vs))) by (unfold retrieves; rewrite Hm; symmetry; exact Hr).
    apply (eval_match_ok E c m et vs b R) in H. destruct H as (_ & Hb).
    destruct b; [exfalso|reflexivity]. destruct (proj1 Hb eq_refl) as (v & x & Hi & Hx & T).
    destruct (Hv v Hi) as (s' & Hs' & Ev).
    unfold applied_to in Hx. rewrite Hf, Ha in Hx. cbn [fn_eval equal_eval] in Hx. symmetry in Hx. rename Hx into X.
    unfold equal_eval in X.
    destruct (av_isinstance a ty); [|discriminate]. destruct (av_isinstance v ty); [|discriminate].
    injection X as <-. rewrite Hs, Ev in T. cbn [truthy py_bool] in T.
    assert (s = s') by (apply FunFacts.native_eqb_str; destruct (native_eqb (NStr s) (NStr s')); [reflexivity|discriminate T]).
    congruence.
  Qed.
  Lemma elsewhere_target : forall t b, elsewhere d values t -> target_of E c t = Ok b -> b = false.
  Proof.
    intros t b (tg & sec & -> & Hi & Hn & Ha) H. cbn [target_of] in H.
    destruct (target_match_inv E c tg b H) as (b1 & b2 & b3 & b4 & K1 & K2 & K3 & K4 & K).
    destruct b; [exfalso|reflexivity]. destruct (proj1 K eq_refl) as (-> & -> & -> & ->).
    assert (S : match_section E c sec = Ok true) by (destruct Hi as [<-|[<-|[<-|[<-|[]]]]]; assumption).
    destruct (match_section_inv _ _ _ _ S) as (B & _). destruct (proj1 B eq_refl) as [|(ch & Hc & T)]; [contradiction|].
    destruct (Ha ch Hc) as (m & Hm & O). destruct (match_child_inv _ _ _ _ T) as (_ & M).
    pose proof (other_match m true O (proj1 M eq_refl m Hm)). discriminate.
  Qed.
  Lemma elsewhere_rule : forall r, elsewhere d values (rl_target r) -> good_rule E c r ->
    rule_eval E c r = Ok NotApplicable.
  Proof.
    intros r He ((b & Hb) & _). unfold rule_eval. rewrite body_of, Hb, (elsewhere_target _ b He Hb). reflexivity.
  Qed.
  Lemma elsewhere_policy : forall p, elsewhere d values (target_of_policy p) -> without_errors E c p ->
    policy_eval E c p = Ok NotApplicable.
  Proof.
    intros p He W. pose proof He as (tg & _ & Ht & _).
    destruct (clean_target E c p tg W) as (b & Hb).
    { destruct p as [m t a l|m t a l]; cbn [target_of_policy] in Ht; subst t; cbn; auto. }
    assert (b = false) as -> by (apply (elsewhere_target (target_of_policy p)); [exact He|rewrite Ht; exact Hb]).
    destruct p as [m t a l|m t a l]; cbn [target_of_policy] in Ht; subst t;
      cbn [policy_eval]; unfold with_target; rewrite Hb; reflexivity.
  Qed.

  Lemma rules_part : forall al rules rules',
    edited eq (fun r => elsewhere d values (rl_target r)) (fun _ => False) rules rules' ->
    (forall r, In r rules -> good_rule E c r) -> forall l,
    combine_rules al (rule_eval E c) (l ++ rules) = combine_rules al (rule_eval E c) (l ++ rules').
  Proof.
    induction 1 as [|x y l9 l9' -> _ IH|x l9 l9' Hr _ IH|y l9 l9' [] _ IH]; intros G l.
    - reflexivity.
    - change (y :: l9) with ([y] ++ l9). change (y :: l9') with ([y] ++ l9'). rewrite !app_assoc.
      apply IH. intros r Hi. apply G. right. exact Hi.
    - rewrite (rules_skip _ al l x l9); [|apply elsewhere_rule; [exact Hr|apply G; left; reflexivity]].
      apply IH. intros r Hi. apply G. right. exact Hi.
  Qed.
  Lemma set_children : forall m t a ps p, In p ps -> without_errors E c (PPolicySet m t a ps) -> without_errors E c p.
  Proof.
    intros m t a ps p Hi (W1 & W2 & W3 & W4). split; [|split; [|split]].
    - intros x [(tg & H & Hx)|(r & tg & H & Hx)]; apply W1.
      + left. exists tg. split; [|exact Hx]. cbn. apply in_or_app. right. apply in_flat_map. eauto.
      + right. exists r, tg. split; [|exact Hx]. cbn. apply in_flat_map. eauto.
    - intros x (r & H & Hx). apply W2. exists r. split; [|exact Hx]. cbn. apply in_flat_map. eauto.
    - intros r H. apply W3. cbn. apply in_flat_map. eauto.
    - intro H. apply W4. cbn. right. apply in_flat_map. eauto.
  Qed.
  Lemma policies_part : forall al ps ps',
    edited (fun p p' => policy_eval E c p = policy_eval E c p')
      (fun p => policy_eval E c p = Ok NotApplicable) (fun _ => False) ps ps' ->
    combine_policies al (policy_eval E c) ps = combine_policies al (policy_eval E c) ps'.
  Proof.
    induction 1 as [|x y l9 l9' Hk _ IH|x l9 l9' Hr _ IH|y l9 l9' [] _ IH]; [reflexivity| |].
    - change (x :: l9) with ([x] ++ l9). change (y :: l9') with ([y] ++ l9').
      rewrite !policies_join, !combine_one, Hk, IH. reflexivity.
    - change (x :: l9) with ([x] ++ l9). rewrite policies_join, combine_one, Hr, <- IH. destruct al; apply join_na_l.
  Qed.
  Lemma part_eval : forall p p', part d values p p' -> without_errors E c p ->
    policy_eval E c p = policy_eval E c p'.
  Proof.
    induction p as [m t a rules|m t a ps IH] using policybase_ind'; intros p' Hp W; inversion Hp; subst.
    - apply policy_same_rules. intros al _.
      exact (rules_part al rules rules' H4 (fun r Hi => clean_rule _ _ _ _ _ _ r W Hi) []).
    - apply set_same_children. intros al _. apply policies_part.
      refine (edited_impl _ _ _ _ _ _ _ _ _ H4 _ _ _).
      + intros x y Hx Hk. rewrite Forall_forall in IH. apply (IH x Hx); [exact Hk|]. exact (set_children _ _ _ _ _ Hx W).
      + intros x Hx He. apply elsewhere_policy; [exact He|exact (set_children _ _ _ _ _ Hx W)].
      + intros y [].
  Qed.
End Split.
