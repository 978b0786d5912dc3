(** Decision tables. *)
From Verif Require Import Eval SpecEval EvalFacts EvalFacts2 EvalFacts3.

Lemma override_table : forall win weff lose os r,
  win <> lose -> win <> Indeterminate -> win <> NotApplicable ->
  lose <> Indeterminate -> lose <> NotApplicable ->
  (forall o, In o os -> ~ rule_faulty o) ->
  rules_override_spec win weff lose os r ->
  (r = Ok win <-> exists eff, In (eff, Ok win) os) /\
  (r = Ok lose <-> (exists eff, In (eff, Ok lose) os) /\
                   ~ (exists eff, In (eff, Ok win) os) /\
                   ~ In (Some weff, Ok Indeterminate) os) /\
  (r = Ok Indeterminate <->
     ~ (exists eff, In (eff, Ok win) os) /\
     (In (Some weff, Ok Indeterminate) os \/
      (exists eff, In (eff, Ok Indeterminate) os) /\ ~ exists eff, In (eff, Ok lose) os)) /\
  (r = Ok NotApplicable <-> forall o, In o os -> snd o = Ok NotApplicable).
Proof.
  intros win weff lose os r H1 H2 H3 H4 H5 Hq Hs.
  assert (Hnw : forall (P : (forall o, In o os -> ~ rule_faulty o /\ snd o <> Ok win)),
    ~ exists eff, In (eff, Ok win) os).
  { intros P (eff & Hin). apply (P _ Hin). reflexivity. }
  assert (Hna : forall o d, In o os -> snd o = Ok d -> d <> NotApplicable ->
    ~ forall o, In o os -> snd o = Ok NotApplicable).
  { intros o d Hin Hd Hne Hall. specialize (Hall o Hin). congruence. }
  destruct Hs as [pre eff post Heq Hpre|pre o post Heq Hf Hpre|Hall Hin|eff Hall Hni Hin
                 |eff Hall Hni Hnl Hin|Hall].
  - assert (Hin : In (eff, Ok win) os) by (rewrite Heq; apply in_elt).
    assert (Hna' := Hna _ win Hin eq_refl H3).
    assert (Hw : exists eff, In (eff, Ok win) os) by eauto.
    repeat split; intros; try congruence; try tauto; exfalso;
      repeat match goal with H : _ /\ _ |- _ => destruct H end; auto.
  - exfalso. apply (Hq o); [rewrite Heq; apply in_elt|exact Hf].
  - assert (Hna' := Hna _ Indeterminate Hin eq_refl ltac:(discriminate)).
    assert (Hnw' := Hnw Hall).
    repeat split; intros; try congruence; try tauto.
  - assert (Hna' := Hna _ lose Hin eq_refl H5). assert (Hnw' := Hnw Hall).
    assert (Hl : exists eff, In (eff, Ok lose) os) by eauto.
    split; [|split; [|split]]; split; intros H; try congruence; try tauto.
  - assert (Hna' := Hna _ Indeterminate Hin eq_refl ltac:(discriminate)).
    assert (Hnw' := Hnw Hall).
    assert (Hnl' : ~ exists eff, In (eff, Ok lose) os).
    { intros (ef & Hin'). apply (Hnl _ Hin'). reflexivity. }
    assert (Hi : exists eff, In (eff, Ok Indeterminate) os) by eauto.
    split; [|split; [|split]]; split; intros H; try congruence; try tauto.
  - assert (Hno : forall d eff, d <> NotApplicable -> ~ In (eff, Ok d) os).
    { intros d eff Hd Hin. specialize (Hall _ Hin). simpl in Hall. congruence. }
    split; [|split; [|split]]; split; intros H; try congruence; try tauto.
    + destruct H as (eff & Hin). destruct (Hno _ _ H3 Hin).
    + destruct H as ((eff & Hin) & _). destruct (Hno _ _ H5 Hin).
    + exfalso. destruct H as (_ & [Hin|((eff & Hin) & _)]);
        apply (Hno Indeterminate _ ltac:(discriminate) Hin).
Qed.

Lemma outcome_in : forall E c rules eff d,
  (exists r, In r rules /\ rl_effect r = eff /\ rule_eval E c r = Ok d) <->
  In (eff, Ok d) (map (fun r => (rl_effect r, rule_eval E c r)) rules).
Proof.
  intros. rewrite in_map_iff. split.
  - intros (r & Hin & <- & Hd). exists r. rewrite Hd. auto.
  - intros (r & Heq & Hin). injection Heq as <- Hd. eauto.
Qed.

Lemma outcome_in_any : forall E c rules d,
  (exists r, In r rules /\ rule_eval E c r = Ok d) <->
  exists eff, In (eff, Ok d) (map (fun r => (rl_effect r, rule_eval E c r)) rules).
Proof.
  intros. split.
  - intros (r & Hin & Hd). exists (rl_effect r). apply outcome_in. eauto.
  - intros (eff & Hin). apply outcome_in in Hin. destruct Hin as (r & H1 & _ & H2). eauto.
Qed.

Lemma outcome_all : forall E c rules,
  (forall r, In r rules -> rule_eval E c r = Ok NotApplicable) <->
  (forall o, In o (map (fun r => (rl_effect r, rule_eval E c r)) rules) ->
     snd o = Ok NotApplicable).
Proof.
  intros. split.
  - intros H o Ho. apply in_map_iff in Ho. destruct Ho as (r & <- & Hin). simpl. auto.
  - intros H r Hin. specialize (H (rl_effect r, rule_eval E c r)). apply H.
    apply in_map_iff. eauto.
Qed.

Lemma deny_rules_table : forall E c m t rules,
  target_accepts E c t ->
  (forall r, In r rules -> rl_effect r <> None /\ is_ok (rule_eval E c r) = true) ->
  let dec := policy_eval E c (PPolicy m t (Some DenyOverrides) rules) in
  let some_rule d := exists r, In r rules /\ rule_eval E c r = Ok d in
  let deny_in_doubt := exists r, In r rules /\ rl_effect r = Some EffDeny /\
                                 rule_eval E c r = Ok Indeterminate in
  (dec = Ok Deny <-> some_rule Deny) /\
  (dec = Ok Permit <-> some_rule Permit /\ ~ some_rule Deny /\ ~ deny_in_doubt) /\
  (dec = Ok Indeterminate <-> ~ some_rule Deny /\
     (deny_in_doubt \/ some_rule Indeterminate /\ ~ some_rule Permit)) /\
  (dec = Ok NotApplicable <-> forall r, In r rules -> rule_eval E c r = Ok NotApplicable).
Proof.
  intros E c m t rules Ht Hq. cbv zeta.
  assert (H := override_table Deny EffDeny Permit _ _
    ltac:(discriminate) ltac:(discriminate) ltac:(discriminate) ltac:(discriminate) ltac:(discriminate)
    (quiet_not_faulty E c rules Hq) (rules_deny_overrides_spec E c m t rules Ht)).
  rewrite <- !outcome_in_any, <- !outcome_in, <- outcome_all in H. exact H.
Qed.

Lemma permit_rules_table : forall E c m t rules,
  target_accepts E c t ->
  (forall r, In r rules -> rl_effect r <> None /\ is_ok (rule_eval E c r) = true) ->
  let dec := policy_eval E c (PPolicy m t (Some PermitOverrides) rules) in
  let some_rule d := exists r, In r rules /\ rule_eval E c r = Ok d in
  let permit_in_doubt := exists r, In r rules /\ rl_effect r = Some EffPermit /\
                                 rule_eval E c r = Ok Indeterminate in
  (dec = Ok Permit <-> some_rule Permit) /\
  (dec = Ok Deny <-> some_rule Deny /\ ~ some_rule Permit /\ ~ permit_in_doubt) /\
  (dec = Ok Indeterminate <-> ~ some_rule Permit /\
     (permit_in_doubt \/ some_rule Indeterminate /\ ~ some_rule Deny)) /\
  (dec = Ok NotApplicable <-> forall r, In r rules -> rule_eval E c r = Ok NotApplicable).
Proof.
  intros E c m t rules Ht Hq. cbv zeta.
  assert (H := override_table Permit EffPermit Deny _ _
    ltac:(discriminate) ltac:(discriminate) ltac:(discriminate) ltac:(discriminate) ltac:(discriminate)
    (quiet_not_faulty E c rules Hq) (rules_permit_overrides_spec E c m t rules Ht)).
  rewrite <- !outcome_in_any, <- !outcome_in, <- outcome_all in H. exact H.
Qed.

(** ** Policies *)

Lemma in_evals : forall E c ps d,
  In (Ok d) (map (policy_eval E c) ps) <-> exists p, In p ps /\ policy_eval E c p = Ok d.
Proof.
  intros. rewrite in_map_iff. split; intros (p & H1 & H2); eauto.
Qed.

Lemma oks : forall E c ps,
  (forall p, In p ps -> is_ok (policy_eval E c p) = true) ->
  forall o, In o (map (policy_eval E c) ps) -> is_ok o = true.
Proof.
  intros E c ps H o Ho. apply in_map_iff in Ho. destruct Ho as (p & <- & Hin). auto.
Qed.

Lemma deny_policies_table : forall E c m t ps,
  target_accepts E c t ->
  (forall p, In p ps -> is_ok (policy_eval E c p) = true) ->
  let dec := policy_eval E c (PPolicySet m t (Some DenyOverrides) ps) in
  let some_child d := exists p, In p ps /\ policy_eval E c p = Ok d in
  (dec = Ok Deny <-> some_child Deny \/ some_child Indeterminate) /\
  (dec = Ok Permit <-> some_child Permit /\ ~ some_child Deny /\ ~ some_child Indeterminate) /\
  (dec <> Ok Indeterminate) /\
  (dec = Ok NotApplicable <-> forall p, In p ps -> policy_eval E c p = Ok NotApplicable).
Proof.
  intros E c m t ps Ht Hq. cbv zeta.
  rewrite <- !in_evals.
  assert (Hall : (forall p, In p ps -> policy_eval E c p = Ok NotApplicable) <->
    forall o, In o (map (policy_eval E c) ps) -> o = Ok NotApplicable).
  { split; intros H.
    - intros o Ho. apply in_map_iff in Ho. destruct Ho as (p & <- & Hin). auto.
    - intros p Hin. apply H. apply in_map. exact Hin. }
  rewrite Hall.
  assert (Hoks := oks E c ps Hq).
  assert (Hs := policies_deny_overrides_spec E c m t ps Ht).
  set (os := map (policy_eval E c) ps) in *. clearbody os.
  set (dec := policy_eval E c (PPolicySet m t (Some DenyOverrides) ps)) in *. clearbody dec.
  destruct Hs as [pre o post Heq Ho Hpre|pre e post Heq Hpre|Hin Hp|Hin].
  - assert (Hin : In o os) by (rewrite Heq; apply in_elt).
    refine (conj (conj _ _) (conj (conj _ _) (conj _ (conj _ _)))); intros H; try congruence.
    + destruct Ho; subst o; auto.
    + destruct H as (_ & H2 & H3). destruct Ho; subst o; contradiction.
    + specialize (H _ Hin). destruct Ho; congruence.
  - assert (Hin : In (Raise e) os) by (rewrite Heq; apply in_elt).
    specialize (Hoks _ Hin). discriminate.
  - assert (Hd : ~ In (Ok Deny) os) by (intros X; destruct (Hin _ X); congruence).
    assert (Hi : ~ In (Ok Indeterminate) os) by (intros X; destruct (Hin _ X); congruence).
    refine (conj (conj _ _) (conj (conj _ _) (conj _ (conj _ _)))); intros H; try congruence; try tauto.
    specialize (H _ Hp). congruence.
  - assert (Hd : ~ In (Ok Deny) os) by (intros X; specialize (Hin _ X); congruence).
    assert (Hi : ~ In (Ok Indeterminate) os) by (intros X; specialize (Hin _ X); congruence).
    assert (Hp : ~ In (Ok Permit) os) by (intros X; specialize (Hin _ X); congruence).
    refine (conj (conj _ _) (conj (conj _ _) (conj _ (conj _ _)))); intros H; try congruence; tauto.
Qed.

Lemma permit_policies_table : forall E c m t ps,
  target_accepts E c t ->
  (forall p, In p ps -> is_ok (policy_eval E c p) = true) ->
  let dec := policy_eval E c (PPolicySet m t (Some PermitOverrides) ps) in
  let some_child d := exists p, In p ps /\ policy_eval E c p = Ok d in
  (dec = Ok Permit <-> some_child Permit) /\
  (dec = Ok Deny <-> some_child Deny /\ ~ some_child Permit) /\
  (dec = Ok Indeterminate <->
     some_child Indeterminate /\ ~ some_child Permit /\ ~ some_child Deny) /\
  (dec = Ok NotApplicable <-> forall p, In p ps -> policy_eval E c p = Ok NotApplicable).
Proof.
  intros E c m t ps Ht Hq. cbv zeta.
  rewrite <- !in_evals.
  assert (Hall : (forall p, In p ps -> policy_eval E c p = Ok NotApplicable) <->
    forall o, In o (map (policy_eval E c) ps) -> o = Ok NotApplicable).
  { split; intros H.
    - intros o Ho. apply in_map_iff in Ho. destruct Ho as (p & <- & Hin). auto.
    - intros p Hin. apply H. apply in_map. exact Hin. }
  rewrite Hall.
  assert (Hoks := oks E c ps Hq).
  assert (Hs := policies_permit_overrides_spec E c m t ps Ht).
  set (os := map (policy_eval E c) ps) in *. clearbody os.
  set (dec := policy_eval E c (PPolicySet m t (Some PermitOverrides) ps)) in *. clearbody dec.
  destruct Hs as [pre post Heq Hpre|pre e post Heq Hpre|Hin Hd|Hin Hi|Hin].
  - assert (Hin : In (Ok Permit) os) by (rewrite Heq; apply in_elt).
    refine (conj (conj _ _) (conj (conj _ _) (conj (conj _ _) (conj _ _)))); intros H; try congruence; try tauto.
    specialize (H _ Hin). congruence.
  - assert (Hin : In (Raise e) os) by (rewrite Heq; apply in_elt).
    specialize (Hoks _ Hin). discriminate.
  - assert (Hp : ~ In (Ok Permit) os) by (intros X; destruct (Hin _ X); congruence).
    refine (conj (conj _ _) (conj (conj _ _) (conj (conj _ _) (conj _ _)))); intros H; try congruence; try tauto.
    specialize (H _ Hd). congruence.
  - assert (Hp : ~ In (Ok Permit) os) by (intros X; destruct (Hin _ X); congruence).
    assert (Hd : ~ In (Ok Deny) os) by (intros X; destruct (Hin _ X); congruence).
    refine (conj (conj _ _) (conj (conj _ _) (conj (conj _ _) (conj _ _)))); intros H; try congruence; try tauto.
    specialize (H _ Hi). congruence.
  - assert (Hd : ~ In (Ok Deny) os) by (intros X; specialize (Hin _ X); congruence).
    assert (Hi : ~ In (Ok Indeterminate) os) by (intros X; specialize (Hin _ X); congruence).
    assert (Hp : ~ In (Ok Permit) os) by (intros X; specialize (Hin _ X); congruence).
    refine (conj (conj _ _) (conj (conj _ _) (conj (conj _ _) (conj _ _)))); intros H; try congruence; tauto.
Qed.

(** ** First applicable: later elements are irrelevant *)

Lemma first_applicable_rules_suffix : forall E c m t pre r post post',
  (forall r', In r' pre -> rule_eval E c r' = Ok NotApplicable) ->
  rule_eval E c r <> Ok NotApplicable ->
  policy_eval E c (PPolicy m t (Some FirstApplicable) (pre ++ r :: post)) =
  policy_eval E c (PPolicy m t (Some FirstApplicable) (pre ++ r :: post')).
Proof.
  intros E c m t pre r post post' Hpre Hr. simpl.
  destruct (with_target_cases E c t (rules_first_applicable (rule_eval E c) (pre ++ r :: post)))
    as [[Ht _]|[x Hx]]; [|rewrite !Hx; reflexivity].
  rewrite !with_target_accepts by exact Ht.
  do 1 f_equal.
  induction pre as [|p pre IH]; simpl.
  - destruct (rule_eval E c r) as [[]|]; try reflexivity. congruence.
  - rewrite (Hpre p (or_introl eq_refl)). simpl. apply IH.
    intros r' Hr'. apply Hpre. right; exact Hr'.
Qed.

Lemma first_applicable_policies_suffix : forall E c m t pre p post post',
  (forall p', In p' pre -> policy_eval E c p' = Ok NotApplicable) ->
  policy_eval E c p <> Ok NotApplicable ->
  policy_eval E c (PPolicySet m t (Some FirstApplicable) (pre ++ p :: post)) =
  policy_eval E c (PPolicySet m t (Some FirstApplicable) (pre ++ p :: post')).
Proof.
  intros E c m t pre r post post' Hpre Hr. cbn [policy_eval combine_policies].
  destruct (with_target_cases E c t (policies_first_applicable (policy_eval E c) (pre ++ r :: post)))
    as [[Ht _]|[x Hx]]; [|rewrite !Hx; reflexivity].
  rewrite !with_target_accepts by exact Ht.
  f_equal.
  induction pre as [|p pre IH]; cbn [app policies_first_applicable].
  - destruct (policy_eval E c r) as [[]|]; try reflexivity. congruence.
  - rewrite (Hpre p (or_introl eq_refl)). cbn [bind]. apply IH.
    intros r' Hr'. apply Hpre. right; exact Hr'.
Qed.

(** ** Rules *)

Lemma rule_body_cases : forall E c r,
  (exists t, rl_target r = Some t /\ exists e, target_match E c t = Raise e /\ rule_body E c r = Raise e) \/
  (exists t, rl_target r = Some t /\ target_match E c t = Ok false /\ rule_body E c r = Ok NotApplicable) \/
  (target_accepts E c (rl_target r) /\
   ((exists e, condition_raises E c (rl_condition r) e /\ rule_body E c r = Raise e) \/
    (condition_false E c (rl_condition r) /\ rule_body E c r = Ok NotApplicable) \/
    (condition_holds E c (rl_condition r) /\
     rule_body E c r = match rl_effect r with Some e => Ok (decision_of_effect e)
                                            | None => Raise EAttributeError end))).
Proof.
  intros E c r. unfold rule_body.
  assert (Hc : (exists e, condition_raises E c (rl_condition r) e /\
                 match rl_condition r with Some cond => eval_condition E c cond | None => Ok (py_bool true) end = Raise e) \/
               (exists v, match rl_condition r with Some cond => eval_condition E c cond | None => Ok (py_bool true) end = Ok v /\
                 (truthy v = true -> condition_holds E c (rl_condition r)) /\
                 (truthy v = false -> condition_false E c (rl_condition r)))).
  { destruct (rl_condition r) as [[x|]|]; simpl.
    - destruct (eval_expr E c x) as [v|e] eqn:Hx.
      + right. exists v. repeat split; eauto.
      + left. eauto.
    - left. eauto.
    - right. exists (py_bool true). repeat split; auto; discriminate. }
  assert (Hk : forall k, k = (let* status := match rl_condition r with Some cond => eval_condition E c cond | None => Ok (py_bool true) end in
            if truthy status then match rl_effect r with Some e => Ok (decision_of_effect e) | None => Raise EAttributeError end
            else Ok NotApplicable) ->
    ((exists e, condition_raises E c (rl_condition r) e /\ k = Raise e) \/
    (condition_false E c (rl_condition r) /\ k = Ok NotApplicable) \/
    (condition_holds E c (rl_condition r) /\
     k = match rl_effect r with Some e => Ok (decision_of_effect e)
                              | None => Raise EAttributeError end))).
  { intros k ->. destruct Hc as [(e & Hr & He)|(v & Hv & H1 & H2)].
    - left. exists e. rewrite He. auto.
    - right. rewrite Hv. simpl. destruct (truthy v); [right|left]; auto. }
  destruct (rl_target r) as [t|]; simpl.
  - destruct (target_match E c t) as [[]|e] eqn:Ht; simpl.
    + right; right. split; [intros t' H; injection H as <-; exact Ht|]. apply Hk; reflexivity.
    + right; left. eauto.
    + left. eauto.
  - right; right. split; [intros t' H; discriminate|]. apply Hk; reflexivity.
Qed.

Lemma rule_body_fails_iff : forall E c r e,
  rule_body E c r = Raise e <-> rule_fails E c r e.
Proof.
  intros E c r e. split.
  - intros H. destruct (rule_body_cases E c r) as [(t & Ht & e' & Hm & Hb)|[(t & Ht & Hm & Hb)|
      (Ha & [(e' & Hc & Hb)|[(Hc & Hb)|(Hc & Hb)]])]]; rewrite Hb in H.
    + injection H as ->. eapply RFtarget; eauto.
    + discriminate.
    + injection H as ->. apply RFcondition; auto.
    + discriminate.
    + destruct (rl_effect r) eqn:He; [discriminate|]. injection H as <-. apply RFeffect; auto.
  - intros [t Ht Hm|Ha Hc|Ha Hc He ->]; unfold rule_body.
    + rewrite Ht, Hm. reflexivity.
    + assert (Htm : match rl_target r with Some t => target_match E c t | None => Ok true end = Ok true).
      { destruct (rl_target r) as [t|]; [apply Ha|]; reflexivity. }
      rewrite Htm. simpl. destruct (rl_condition r) as [[x|]|]; simpl in *; subst; try contradiction; auto.
      rewrite Hc. reflexivity.
    + assert (Htm : match rl_target r with Some t => target_match E c t | None => Ok true end = Ok true).
      { destruct (rl_target r) as [t|]; [apply Ha|]; reflexivity. }
      rewrite Htm. simpl. destruct (rl_condition r) as [[x|]|]; simpl in *; try contradiction.
      * destruct Hc as (v & Hv & Hvt). rewrite Hv. simpl. rewrite Hvt, He. reflexivity.
      * rewrite He. reflexivity.
Qed.

Lemma rule_body_excluded_iff : forall E c r,
  rule_body E c r = Ok NotApplicable <-> rule_excluded E c r.
Proof.
  intros E c r. split.
  - intros H. destruct (rule_body_cases E c r) as [(t & Ht & e' & Hm & Hb)|[(t & Ht & Hm & Hb)|
      (Ha & [(e' & Hc & Hb)|[(Hc & Hb)|(Hc & Hb)]])]]; rewrite Hb in H; try discriminate.
    + eapply REtarget; eauto.
    + apply REcondition; auto.
    + destruct (rl_effect r) as [[|]|]; discriminate.
  - intros [t Ht Hm|Ha Hc]; unfold rule_body.
    + rewrite Ht, Hm. reflexivity.
    + assert (Htm : match rl_target r with Some t => target_match E c t | None => Ok true end = Ok true).
      { destruct (rl_target r) as [t|]; [apply Ha|]; reflexivity. }
      rewrite Htm. simpl. destruct (rl_condition r) as [[x|]|]; simpl in *; try contradiction.
      destruct Hc as (v & Hv & Hvt). rewrite Hv. simpl. rewrite Hvt. reflexivity.
Qed.

Lemma rule_eval_indeterminate_iff : forall E c r,
  rule_eval E c r = Ok Indeterminate <-> exists e, is_exception e = true /\ rule_fails E c r e.
Proof.
  intros E c r. unfold rule_eval, catch_exception. split.
  - destruct (rule_body E c r) as [d|e] eqn:Hb; intros H.
    + exfalso. destruct (rule_body_cases E c r) as [(t & Ht & e' & Hm & Hb')|[(t & Ht & Hm & Hb')|
      (Ha & [(e' & Hc & Hb')|[(Hc & Hb')|(Hc & Hb')]])]]; rewrite Hb' in Hb; try congruence.
      destruct (rl_effect r) as [[|]|]; simpl in Hb; congruence.
    + destruct (is_exception e) eqn:He; [|discriminate]. exists e. split; [exact He|].
      apply rule_body_fails_iff; exact Hb.
  - intros (e & He & Hf). apply rule_body_fails_iff in Hf. rewrite Hf, He. reflexivity.
Qed.

Lemma rule_eval_not_applicable_iff : forall E c r,
  rule_eval E c r = Ok NotApplicable <-> rule_excluded E c r.
Proof.
  intros E c r. rewrite <- rule_body_excluded_iff. unfold rule_eval, catch_exception.
  destruct (rule_body E c r) as [d|e]; [tauto|].
  destruct (is_exception e); split; discriminate.
Qed.

Lemma rule_eval_raise_iff : forall E c r e,
  rule_eval E c r = Raise e <-> is_exception e = false /\ rule_fails E c r e.
Proof.
  intros E c r e. rewrite <- rule_body_fails_iff. unfold rule_eval, catch_exception.
  destruct (rule_body E c r) as [d|e'].
  - split; [discriminate|intros []; discriminate].
  - destruct (is_exception e') eqn:He.
    + split; [discriminate|]. intros (H1 & H2). injection H2 as ->. congruence.
    + split.
      * intros H; injection H as ->. auto.
      * intros (_ & H); injection H as ->. reflexivity.
Qed.

(** ** Matches *)

Lemma match_fn_apply_applied : forall E m v, applied_to E m v (match_fn_apply E m v).
Proof.
  intros E m v. unfold applied_to, match_fn_apply.
  destruct (mt_fn m); [|reflexivity]. destruct (mt_value m); reflexivity.
Qed.
Lemma applied_functional : forall E m v r, applied_to E m v r -> r = match_fn_apply E m v.
Proof.
  intros E m v r. unfold applied_to, match_fn_apply.
  destruct (mt_fn m); [|auto]. destruct (mt_value m); auto.
Qed.

Lemma eval_match_retrieve : forall E c m r,
  retrieves E c m r ->
  eval_match E c m = let* bag := r in
    let* results := mapM (match_fn_apply E m) (bag_items bag) in Ok (existsb truthy results).
Proof.
  intros E c m r. unfold retrieves, eval_match.
  destruct (mt_designator m), (mt_selector m); intros ->; reflexivity.
Qed.

Lemma eval_match_retrieve_raise : forall E c m e,
  retrieves E c m (Raise e) -> eval_match E c m = Raise e.
Proof. intros E c m e H. rewrite (eval_match_retrieve _ _ _ _ H). reflexivity. Qed.

Lemma retrieves_bag : forall E c m v,
  retrieves E c m (Ok v) -> exists et vs, v = PBag et vs.
Proof.
  intros E c m v. unfold retrieves.
  destruct (mt_designator m) as [d|]; [|destruct (mt_selector m) as [s|]].
  - intros H. symmetry in H. apply eval_designator_ok_bag in H.
    destruct H as (bag & -> & _). eauto.
  - intros H. symmetry in H. apply eval_selector_ok_inv in H.
    destruct H as (r & n & dt & cls & texts & H). decompose [and] H. subst v. eauto.
  - discriminate.
Qed.

Lemma eval_match_ok : forall E c m et vs b,
  retrieves E c m (Ok (PBag et vs)) ->
  eval_match E c m = Ok b <->
  (forall v, In v vs -> exists x, applied_to E m v (Ok x)) /\
  (b = true <-> exists v x, In v vs /\ applied_to E m v (Ok x) /\ truthy x = true).
Proof.
  intros E c m et vs b Hr. rewrite (eval_match_retrieve _ _ _ _ Hr). simpl.
  rewrite bind_ok. split.
  - intros (xs & Hm & Hb). injection Hb as <-. apply mapM_ok in Hm. split.
    + intros v Hv. destruct (Forall2_In_l _ _ _ _ _ _ Hm Hv) as (x & _ & Hx).
      exists x. rewrite <- Hx. apply match_fn_apply_applied.
    + rewrite existsb_exists. split.
      * intros (x & Hx & Ht). destruct (Forall2_In_r _ _ _ _ _ _ Hm Hx) as (v & Hv & Hvx).
        exists v, x. repeat split; auto. rewrite <- Hvx. apply match_fn_apply_applied.
      * intros (v & x & Hv & Hx & Ht). apply applied_functional in Hx.
        destruct (Forall2_In_l _ _ _ _ _ _ Hm Hv) as (x' & Hin & Hx').
        rewrite <- Hx in Hx'. injection Hx' as <-. eauto.
  - intros (Hall & Hb).
    destruct (mapM (match_fn_apply E m) vs) as [xs|e] eqn:Hm.
    + exists xs. split; [reflexivity|]. f_equal. apply mapM_ok in Hm.
      apply Bool.eq_iff_eq_true. rewrite Hb, existsb_exists. split.
      * intros (x & Hx & Ht). destruct (Forall2_In_r _ _ _ _ _ _ Hm Hx) as (v & Hv & Hvx).
        exists v, x. repeat split; auto. rewrite <- Hvx. apply match_fn_apply_applied.
      * intros (v & x & Hv & Hx & Ht). apply applied_functional in Hx.
        destruct (Forall2_In_l _ _ _ _ _ _ Hm Hv) as (x' & Hin & Hx').
        rewrite <- Hx in Hx'. injection Hx' as <-. eauto.
    + exfalso. apply mapM_raise in Hm. destruct Hm as (pre & v & post & ys & -> & Hv & _).
      destruct (Hall v (in_elt v pre post)) as (x & Hx). apply applied_functional in Hx. congruence.
Qed.

Lemma eval_match_raise : forall E c m et vs e,
  retrieves E c m (Ok (PBag et vs)) ->
  eval_match E c m = Raise e <->
  exists pre v post, vs = pre ++ v :: post /\ applied_to E m v (Raise e) /\
    forall v', In v' pre -> exists x, applied_to E m v' (Ok x).
Proof.
  intros E c m et vs e Hr. rewrite (eval_match_retrieve _ _ _ _ Hr). simpl.
  rewrite bind_raise. split.
  - intros [H|(xs & _ & H)]; [|discriminate]. apply mapM_raise in H.
    destruct H as (pre & v & post & ys & -> & Hv & Hpre). exists pre, v, post.
    split; [reflexivity|]. split; [rewrite <- Hv; apply match_fn_apply_applied|].
    intros v' Hv'. destruct (Forall2_In_l _ _ _ _ _ _ Hpre Hv') as (x & _ & Hx).
    exists x. rewrite <- Hx. apply match_fn_apply_applied.
  - intros (pre & v & post & -> & Hv & Hpre). left. apply mapM_raise.
    apply applied_functional in Hv.
    assert (Hys : exists ys, Forall2 (fun a b => match_fn_apply E m a = Ok b) pre ys).
    { clear -Hpre. induction pre as [|p pre IH]; [exists []; constructor|].
      destruct (Hpre p (or_introl eq_refl)) as (x & Hx). apply applied_functional in Hx.
      destruct IH as (ys & Hys); [intros; apply Hpre; right; assumption|].
      exists (x :: ys). constructor; auto. }
    destruct Hys as (ys & Hys). exists pre, v, post, ys. auto.
Qed.

(** ** Conditions *)

Lemma truthy_false : forall v, truthy v = false <-> false_in_python v.
Proof.
  intros v. unfold false_in_python. split.
  - destruct v as [[| x | z | b | [] | | z |]| a | et [|]| n []]; cbn; intros H; try discriminate H;
      try (apply negb_false_iff in H; try apply String.eqb_eq in H; try apply Z.eqb_eq in H); subst; eauto 12.
  - intros [->|[->|[->|[->|[[e ->]|[->|[[et ->]|[n ->]]]]]]]]; reflexivity.
Qed.

Lemma condition_value_rule : forall E c id eff t x desc v,
  target_accepts E c t -> eval_expr E c x = Ok v ->
  rule_eval E c (mkRule id (Some eff) t (Some (Some x)) desc) =
  Ok (if truthy v then decision_of_effect eff else NotApplicable).
Proof.
  intros E c id eff t x desc v Ht Hx. unfold rule_eval, rule_body. simpl.
  assert (Htm : match t with Some t => target_match E c t | None => Ok true end = Ok true).
  { destruct t as [t|]; [apply Ht|]; reflexivity. }
  rewrite Htm. simpl. rewrite Hx. simpl. destruct (truthy v); reflexivity.
Qed.

(** ** Values of the wrong class from the attribute source *)

Lemma bag_extend_type_error : forall et bag items e,
  bag_extend et bag items = Raise e -> e = ETypeError.
Proof.
  intros et bag items e H. unfold bag_extend in H. apply bind_raise in H.
  destruct H as [H|(ys & _ & H)]; [|discriminate].
  apply mapM_raise in H. destruct H as (pre & y & post & ys & _ & Hy & _).
  unfold bag_check in Hy. destruct et as [cl|]; [|injection Hy as <-; reflexivity].
  destruct y as [| a | |]; try (injection Hy as <-; reflexivity).
  destruct (av_isinstance a cl); [discriminate|injection Hy as <-; reflexivity].
Qed.

Lemma av_eq_type_error : forall a b e, av_eq a b = Raise e -> e = ETypeError.
Proof.
  intros a b e. unfold av_eq, av_dunder_eq.
  destruct (_ && _); [destruct (av_isinstance a (av_class b))|destruct (av_isinstance b (av_class a))];
    intros H; try discriminate; injection H as <-; reflexivity.
Qed.

Lemma bag_contains_type_error : forall bag x e, bag_contains bag x = Raise e -> e = ETypeError.
Proof.
  induction bag as [|i bag IH]; intros x e H; [discriminate|]. cbn [bag_contains] in H.
  destruct x as [| a | |]; try (injection H as <-; reflexivity).
  apply bind_raise in H. destruct H as [H|(b & _ & H)]; [eapply av_eq_type_error; eauto|].
  destruct b; [discriminate|eauto].
Qed.

Lemma filter_new_type_error : forall bag vs e, filter_new bag vs = Raise e -> e = ETypeError.
Proof.
  induction vs as [|v vs IH]; intros e H; [discriminate|]. cbn [filter_new] in H.
  apply bind_raise in H. destruct H as [H|(b & _ & H)]; [eapply bag_contains_type_error; eauto|].
  apply bind_raise in H. destruct H as [H|(ys & _ & H)]; [auto|discriminate].
Qed.

Lemma bag_extend_bad : forall E dt bag l x,
  In x l -> (forall v, x = PAttr v -> ~ all_of_type E dt [v]) ->
  bag_extend (class_for E dt) bag l = Raise ETypeError.
Proof.
  intros E dt bag l x Hx Hbad.
  destruct (bag_extend (class_for E dt) bag l) as [b|e] eqn:He.
  - exfalso. apply bag_extend_ok in He. destruct He as (vs & -> & _ & Hi).
    apply in_map_iff in Hx. destruct Hx as (v & <- & Hv). apply (Hbad v eq_refl).
    apply instances_all_of_type. unfold instances in *. rewrite forallb_forall in Hi.
    simpl. rewrite (Hi v Hv). reflexivity.
  - apply bag_extend_type_error in He. congruence.
Qed.

Lemma eval_designator_source_rejected : forall E d r l x,
  dg_kind d = DSubject -> rq_ctxHandler r <> None -> rq_subjects r <> [] ->
  en_pip E r d = Ok (Some l) -> In x l ->
  (forall v, x = PAttr v -> ac_bases (av_class v) = [] /\
                            ~ all_of_type E (dg_dataType d) [v]) ->
  (forall s a v, In s (rq_subjects r) -> In a (sb_attributes s) -> In v (at_values a) ->
                 ac_bases (av_class v) = []) ->
  eval_designator E d (CtxRequest r) = Raise ETypeError.
Proof.
  intros E d r l x Hk Hh Hs Hp Hx Hbad Hreq. unfold eval_designator. rewrite Hk.
  destruct (rq_subjects r) as [|s subs]; [contradiction|]. cbn [collect_subjects].
  rewrite collect_attrs_wanted.
  destruct (instances (class_for E (dg_dataType d)) (wanted d (sb_attributes s))) eqn:Hi;
    [|reflexivity]. cbn [bind app].
  destruct (rq_ctxHandler r); [|contradiction]. rewrite Hp. cbn [bind].
  assert (Hadd : add_pip_values (class_for E (dg_dataType d)) (wanted d (sb_attributes s)) (Some l)
                 = Raise ETypeError); [|rewrite Hadd; reflexivity].
  unfold add_pip_values.
  destruct (wanted d (sb_attributes s)) as [|i w] eqn:Hw.
  - cbn [bind]. eapply bag_extend_bad; eauto. intros v Hv. apply (Hbad v Hv).
  - destruct (filter_new (i :: w) l) as [ys|e] eqn:Hf;
      [|apply filter_new_type_error in Hf; subst e; reflexivity].
    exfalso.
    assert (Hib : ac_bases (av_class i) = []).
    { assert (Hin : In i (wanted d (sb_attributes s))) by (rewrite Hw; left; reflexivity).
      apply (requested_in d _ _ i (wanted_requested d _)) in Hin.
      destruct Hin as (a & Ha & Hv & _). eapply Hreq; [left; reflexivity|exact Ha|exact Hv]. }
    clear Hw Hp. revert ys Hf. induction l as [|y l IH]; intros ys Hf; [contradiction|].
    cbn [filter_new] in Hf. apply bind_ok in Hf. destruct Hf as (b & Hb & Hf).
    destruct Hx as [->|Hx].
    + cbn [bag_contains] in Hb. destruct x as [| v | |]; try discriminate.
      destruct (Hbad v eq_refl) as [Hvb Hvt].
      assert (Hne : ac_name (av_class i) <> ac_name (av_class v)).
      { intros Heq. apply Hvt. apply instances_all_of_type. unfold instances in *. simpl in *.
        apply andb_prop in Hi. destruct Hi as [Hi _].
        destruct (class_for E (dg_dataType d)) as [cl|]; [|discriminate].
        unfold av_isinstance, issubclass, class_eqb in *. rewrite Hib in Hi. rewrite <- Heq, Hvb.
        simpl in *. rewrite Hi. reflexivity. }
      assert (He : av_eq i v = Raise ETypeError).
      { unfold av_eq, av_dunder_eq, av_isinstance, issubclass, class_eqb. rewrite Hib, Hvb. simpl.
        rewrite !orb_false_r.
        apply String.eqb_neq in Hne.
        assert (Hne2 : String.eqb (ac_name (av_class v)) (ac_name (av_class i)) = false)
          by (rewrite String.eqb_sym; exact Hne).
        rewrite Hne, Hne2. reflexivity. }
      rewrite He in Hb. discriminate.
    + apply bind_ok in Hf. destruct Hf as (zs & Hz & _).
      apply (IH Hx zs Hz).
Qed.
