(** Proofs about evaluation, continued: order independence, reasons for
    decisions, rule table, containment of faults, targets and matches. *)
From Verif Require Import Eval SpecEval EvalFacts.
From Coq Require Import Lia Permutation.

(** ** The policy specifications are functional *)

Fixpoint pdo (per : bool) (os : list (res decision)) : res decision :=
  match os with
  | [] => if per then Ok Permit else Ok NotApplicable
  | Raise e :: _ => Raise e
  | Ok Permit :: rest => pdo true rest
  | Ok NotApplicable :: rest => pdo per rest
  | Ok _ :: _ => Ok Deny
  end.

Lemma policies_deny_overrides_pdo : forall ev ps per,
  policies_deny_overrides ev per ps = pdo per (map ev ps).
Proof.
  induction ps as [|p ps IH]; intros per; [reflexivity|].
  simpl. destruct (ev p) as [[]|]; simpl; auto.
Qed.

Lemma pdo_spec : forall os r, deny_overrides_policies_spec os r -> r = pdo false os.
Proof.
  intros os r H.
  assert (H1 : forall pre o post per, (o = Ok Deny \/ o = Ok Indeterminate) ->
     (forall o', In o' pre -> is_ok o' = true) -> pdo per (pre ++ o :: post) = Ok Deny).
  { induction pre as [|[[]|] pre IH]; intros o post per Ho Hpre; simpl; auto.
    - destruct Ho; subst; reflexivity.
    - apply IH; auto. intros; apply Hpre; right; assumption.
    - apply IH; auto. intros; apply Hpre; right; assumption.
    - specialize (Hpre _ (or_introl eq_refl)). discriminate. }
  assert (H2 : forall pre e post per,
     (forall o', In o' pre -> o' = Ok Permit \/ o' = Ok NotApplicable) ->
     pdo per (pre ++ Raise e :: post) = Raise e).
  { induction pre as [|o pre IH]; intros e post per Hpre; simpl; auto.
    destruct (Hpre _ (or_introl eq_refl)); subst o; apply IH;
      intros; apply Hpre; right; assumption. }
  assert (H3 : forall os per,
     (forall o', In o' os -> o' = Ok Permit \/ o' = Ok NotApplicable) ->
     (per = true \/ In (Ok Permit) os) -> pdo per os = Ok Permit).
  { clear. induction os as [|o os IH]; intros per Hall Hor; simpl.
    - destruct Hor as [->|[]]; reflexivity.
    - destruct (Hall _ (or_introl eq_refl)); subst o.
      + apply IH; auto. intros; apply Hall; right; assumption.
      + apply IH. { intros; apply Hall; right; assumption. }
        destruct Hor as [H|[H|H]]; auto. discriminate. }
  assert (H4 : forall os, (forall o', In o' os -> o' = Ok NotApplicable) ->
     pdo false os = Ok NotApplicable).
  { clear. induction os as [|o os IH]; intros Hall; simpl; auto.
    rewrite (Hall _ (or_introl eq_refl)). apply IH; intros; apply Hall; right; assumption. }
  destruct H as [pre o post -> Ho Hpre|pre e post -> Hpre|Hall Hin|Hall]; symmetry; auto.
Qed.

Lemma deny_overrides_policies_functional : forall os r1 r2,
  deny_overrides_policies_spec os r1 -> deny_overrides_policies_spec os r2 -> r1 = r2.
Proof. intros os r1 r2 H1 H2. rewrite (pdo_spec _ _ H1), (pdo_spec _ _ H2). reflexivity. Qed.

Fixpoint ppo (err den : bool) (os : list (res decision)) : res decision :=
  match os with
  | [] => if den then Ok Deny else if err then Ok Indeterminate else Ok NotApplicable
  | Raise e :: _ => Raise e
  | Ok Permit :: _ => Ok Permit
  | Ok NotApplicable :: rest => ppo err den rest
  | Ok Deny :: rest => ppo err true rest
  | Ok Indeterminate :: rest => ppo true den rest
  end.

Lemma policies_permit_overrides_ppo : forall ev ps err den,
  policies_permit_overrides ev err den ps = ppo err den (map ev ps).
Proof.
  induction ps as [|p ps IH]; intros err den; [reflexivity|].
  simpl. destruct (ev p) as [[]|]; simpl; auto.
Qed.

Lemma ppo_spec : forall os r, permit_overrides_policies_spec os r -> r = ppo false false os.
Proof.
  intros os r H.
  assert (H1 : forall pre post err den,
     (forall o', In o' pre -> is_ok o' = true) -> ppo err den (pre ++ Ok Permit :: post) = Ok Permit).
  { induction pre as [|[[]|] pre IH]; intros post err den Hpre; simpl; auto;
      try (apply IH; intros; apply Hpre; right; assumption).
    specialize (Hpre _ (or_introl eq_refl)). discriminate. }
  assert (H2 : forall pre e post err den,
     (forall o', In o' pre -> is_ok o' = true /\ o' <> Ok Permit) ->
     ppo err den (pre ++ Raise e :: post) = Raise e).
  { induction pre as [|o pre IH]; intros e post err den Hpre; simpl; auto.
    destruct (Hpre _ (or_introl eq_refl)) as [Ha Hb].
    destruct o as [[]|]; try congruence; try discriminate;
      apply IH; intros; apply Hpre; right; assumption. }
  assert (H3 : forall os err den,
     (forall o', In o' os -> is_ok o' = true /\ o' <> Ok Permit) ->
     (den = true \/ In (Ok Deny) os) -> ppo err den os = Ok Deny).
  { clear. induction os as [|o os IH]; intros err den Hall Hor; simpl.
    - destruct Hor as [->|[]]; reflexivity.
    - destruct (Hall _ (or_introl eq_refl)) as [Ha Hb].
      assert (Hall' : forall o', In o' os -> is_ok o' = true /\ o' <> Ok Permit)
        by (intros; apply Hall; right; assumption).
      destruct o as [[]|]; try congruence; try discriminate; apply IH; auto;
        destruct Hor as [H|[H|H]]; auto; discriminate. }
  assert (H4 : forall os err,
     (forall o', In o' os -> o' = Ok Indeterminate \/ o' = Ok NotApplicable) ->
     (err = true \/ In (Ok Indeterminate) os) -> ppo err false os = Ok Indeterminate).
  { clear. induction os as [|o os IH]; intros per Hall Hor; simpl.
    - destruct Hor as [->|[]]; reflexivity.
    - destruct (Hall _ (or_introl eq_refl)); subst o.
      + apply IH; auto. intros; apply Hall; right; assumption.
      + apply IH. { intros; apply Hall; right; assumption. }
        destruct Hor as [H|[H|H]]; auto. discriminate. }
  assert (H5 : forall os, (forall o', In o' os -> o' = Ok NotApplicable) ->
     ppo false false os = Ok NotApplicable).
  { clear. induction os as [|o os IH]; intros Hall; simpl; auto.
    rewrite (Hall _ (or_introl eq_refl)). apply IH; intros; apply Hall; right; assumption. }
  destruct H as [pre post -> Hpre|pre e post -> Hpre|Hall Hin|Hall Hin|Hall]; symmetry; auto.
Qed.

Lemma permit_overrides_policies_functional : forall os r1 r2,
  permit_overrides_policies_spec os r1 -> permit_overrides_policies_spec os r2 -> r1 = r2.
Proof. intros os r1 r2 H1 H2. rewrite (ppo_spec _ _ H1), (ppo_spec _ _ H2). reflexivity. Qed.

(** Never Indeterminate under deny-overrides over policies. *)
Lemma deny_overrides_policies_never_indeterminate : forall E c m t ps,
  target_accepts E c t ->
  policy_eval E c (PPolicySet m t (Some DenyOverrides) ps) <> Ok Indeterminate.
Proof.
  intros E c m t ps Ht H.
  assert (Hs := policies_deny_overrides_spec E c m t ps Ht).
  rewrite H in Hs. inversion Hs.
Qed.

(** ** Order independence *)

Definition quiet_rule (E : env) (c : context) (r : rule) : Prop :=
  rl_effect r <> None /\ is_ok (rule_eval E c r) = true.

Lemma override_spec_perm : forall win win_eff lose os os' r,
  (forall o, In o os -> ~ rule_faulty o) ->
  Permutation os os' ->
  rules_override_spec win win_eff lose os r ->
  rules_override_spec win win_eff lose os' r.
Proof.
  intros win win_eff lose os os' r Hnf Hp H.
  assert (Hback : forall o, In o os' -> In o os)
    by (intros o; apply Permutation_in; apply Permutation_sym; exact Hp).
  assert (Hfwd : forall o, In o os -> In o os') by (intros o; apply Permutation_in; exact Hp).
  destruct H as [pre eff post -> Hpre|pre o post -> Ho Hpre
      |Hq Hin|eff Hq Hnin Hin|eff Hq Hnin Hnl Hin|Hall].
  - assert (Hin : In (eff, Ok win) os').
    { apply Hfwd. apply in_app_iff; right; left; reflexivity. }
    apply in_split in Hin. destruct Hin as (l1 & l2 & ->).
    eapply ROwin; [reflexivity|]. intros o Ho. apply Hnf, Hback.
    apply in_app_iff; left; exact Ho.
  - exfalso. apply (Hnf o); [|exact Ho]. apply in_app_iff; right; left; reflexivity.
  - apply ROpotential; auto.
  - eapply ROlose; eauto.
  - eapply ROerror; eauto.
  - apply ROnone; auto.
Qed.

Lemma with_target_cases : forall E c t k,
  (target_accepts E c t /\ with_target E c t k = k) \/
  (exists r, forall k', with_target E c t k' = r).
Proof.
  intros E c [t|] k; unfold with_target; simpl.
  - destruct (target_match E c t) as [[]|e] eqn:Ht; simpl.
    + left. split; [|reflexivity]. intros t' Heq; injection Heq as <-; exact Ht.
    + right. eauto.
    + right. eauto.
  - left. split; [|reflexivity]. intros t' Heq; discriminate.
Qed.

Lemma quiet_not_faulty : forall E c rules,
  (forall r, In r rules -> quiet_rule E c r) ->
  forall o, In o (map (fun r => (rl_effect r, rule_eval E c r)) rules) -> ~ rule_faulty o.
Proof.
  intros E c rules H o Ho. apply in_map_iff in Ho. destruct Ho as (r & <- & Hr).
  destruct (H r Hr) as [H1 H2]. intros [Hf|(e & o' & Hf)].
  - injection Hf; intros; congruence.
  - injection Hf as _ Hf. rewrite Hf in H2. discriminate.
Qed.

Lemma rules_order_independent : forall E c m t alg rules rules',
  alg <> FirstApplicable ->
  (forall r, In r rules -> quiet_rule E c r) ->
  Permutation rules rules' ->
  policy_eval E c (PPolicy m t (Some alg) rules) =
  policy_eval E c (PPolicy m t (Some alg) rules').
Proof.
  intros E c m t alg rules rules' Halg Hq Hp.
  assert (Hp' := Permutation_map (fun r => (rl_effect r, rule_eval E c r)) Hp).
  assert (Hnf := quiet_not_faulty E c rules Hq).
  destruct (with_target_cases E c t (Raise EAttributeError)) as [[Ht _]|[r Hr]].
  - destruct alg; [| |congruence].
    + assert (H1 := rules_deny_overrides_spec E c m t rules Ht).
      assert (H2 := rules_deny_overrides_spec E c m t rules' Ht).
      eapply deny_overrides_rules_functional; [|exact H2].
      eapply override_spec_perm; eauto.
    + assert (H1 := rules_permit_overrides_spec E c m t rules Ht).
      assert (H2 := rules_permit_overrides_spec E c m t rules' Ht).
      eapply permit_overrides_rules_functional; [|exact H2].
      eapply override_spec_perm; eauto.
  - simpl. rewrite !Hr. reflexivity.
Qed.

Lemma in_split_perm : forall A (x : A) l l',
  Permutation l l' -> In x l -> exists pre post, l' = pre ++ x :: post.
Proof.
  intros A x l l' Hp Hin. apply (Permutation_in _ Hp) in Hin.
  apply in_split in Hin. destruct Hin as (a & b & ->). eauto.
Qed.

Lemma deny_policies_perm : forall os os' r,
  (forall o, In o os -> is_ok o = true) -> Permutation os os' ->
  deny_overrides_policies_spec os r -> deny_overrides_policies_spec os' r.
Proof.
  intros os os' r Hok Hp H.
  assert (Hback : forall o, In o os' -> In o os)
    by (intros o; apply Permutation_in; apply Permutation_sym; exact Hp).
  assert (Hfwd : forall o, In o os -> In o os') by (intros o; apply Permutation_in; exact Hp).
  destruct H as [pre o post -> Ho Hpre|pre e post -> Hpre|Hall Hin|Hall].
  - destruct (in_split_perm _ o _ _ Hp) as (a & b & ->).
    { apply in_app_iff; right; left; reflexivity. }
    eapply PDdeny; [reflexivity|exact Ho|]. intros o' Ho'. apply Hok, Hback.
    apply in_app_iff; left; exact Ho'.
  - assert (H : is_ok (@Raise decision e) = true)
      by (apply Hok, in_app_iff; right; left; reflexivity). discriminate.
  - apply PDpermit; auto.
  - apply PDnone; auto.
Qed.

Lemma permit_policies_perm : forall os os' r,
  (forall o, In o os -> is_ok o = true) -> Permutation os os' ->
  permit_overrides_policies_spec os r -> permit_overrides_policies_spec os' r.
Proof.
  intros os os' r Hok Hp H.
  assert (Hback : forall o, In o os' -> In o os)
    by (intros o; apply Permutation_in; apply Permutation_sym; exact Hp).
  assert (Hfwd : forall o, In o os -> In o os') by (intros o; apply Permutation_in; exact Hp).
  destruct H as [pre post -> Hpre|pre e post -> Hpre|Hall Hin|Hall Hin|Hall].
  - destruct (in_split_perm _ (Ok Permit) _ _ Hp) as (a & b & ->).
    { apply in_app_iff; right; left; reflexivity. }
    eapply PPpermit; [reflexivity|]. intros o' Ho'. apply Hok, Hback.
    apply in_app_iff; left; exact Ho'.
  - assert (H : is_ok (@Raise decision e) = true)
      by (apply Hok, in_app_iff; right; left; reflexivity). discriminate.
  - apply PPdeny; auto.
  - apply PPerror; auto.
  - apply PPnone; auto.
Qed.

Lemma policies_order_independent : forall E c m t alg ps ps',
  alg <> FirstApplicable ->
  (forall p, In p ps -> is_ok (policy_eval E c p) = true) ->
  Permutation ps ps' ->
  policy_eval E c (PPolicySet m t (Some alg) ps) =
  policy_eval E c (PPolicySet m t (Some alg) ps').
Proof.
  intros E c m t alg ps ps' Halg Hq Hp.
  assert (Hp' := Permutation_map (policy_eval E c) Hp).
  assert (Hok : forall o, In o (map (policy_eval E c) ps) -> is_ok o = true).
  { intros o Ho. apply in_map_iff in Ho. destruct Ho as (p & <- & H); auto. }
  destruct (with_target_cases E c t (Raise EAttributeError)) as [[Ht _]|[r Hr]].
  - destruct alg; [| |congruence].
    + eapply deny_overrides_policies_functional.
      * eapply deny_policies_perm; [exact Hok|exact Hp'|].
        apply policies_deny_overrides_spec; exact Ht.
      * apply policies_deny_overrides_spec; exact Ht.
    + eapply permit_overrides_policies_functional.
      * eapply permit_policies_perm; [exact Hok|exact Hp'|].
        apply policies_permit_overrides_spec; exact Ht.
      * apply policies_permit_overrides_spec; exact Ht.
  - simpl. rewrite !Hr. reflexivity.
Qed.

(** ** Rule table *)

Lemma rule_body_effect : forall E c r d,
  rule_body E c r = Ok d -> d <> NotApplicable ->
  exists e, d = decision_of_effect e /\ rule_applies E c e r.
Proof.
  intros E c r d H Hd. unfold rule_body in H.
  apply bind_ok in H. destruct H as (tm & Htm & H).
  destruct tm; simpl in H; [|congruence].
  apply bind_ok in H. destruct H as (st & Hst & H).
  destruct (truthy st) eqn:Htr; [|congruence].
  destruct (rl_effect r) as [e|] eqn:He; [|discriminate].
  injection H as <-. exists e. split; [reflexivity|].
  split; [exact He|]. split.
  - intros t Ht. rewrite Ht in Htm. exact Htm.
  - unfold condition_holds. destruct (rl_condition r) as [[x|]|]; simpl in *; eauto.
    discriminate.
Qed.

Lemma rule_eval_ok_iff : forall E c r e,
  rule_eval E c r = Ok (decision_of_effect e) <-> rule_applies E c e r.
Proof.
  intros E c r e. split.
  - intros H. unfold rule_eval in H. destruct (rule_body E c r) as [d|ex] eqn:Hb.
    + simpl in H. injection H as ->.
      destruct (rule_body_effect _ _ _ _ Hb) as (e' & Heq & Happ); [destruct e; discriminate|].
      destruct e, e'; try discriminate; exact Happ.
    + simpl in H. destruct (is_exception ex); destruct e; discriminate.
  - intros (He & Ht & Hc). unfold rule_eval, rule_body.
    destruct (rl_target r) as [t|].
    + rewrite (Ht t eq_refl). simpl. unfold condition_holds in Hc.
      destruct (rl_condition r) as [[x|]|]; simpl in *.
      * destruct Hc as (v & -> & Hv). simpl. rewrite Hv, He. reflexivity.
      * contradiction.
      * rewrite He. reflexivity.
    + simpl. unfold condition_holds in Hc.
      destruct (rl_condition r) as [[x|]|]; simpl in *.
      * destruct Hc as (v & -> & Hv). simpl. rewrite Hv, He. reflexivity.
      * contradiction.
      * rewrite He. reflexivity.
Qed.

Lemma rule_eval_permit_iff : forall E c r,
  rule_eval E c r = Ok Permit <-> rule_applies E c EffPermit r.
Proof. intros. apply (rule_eval_ok_iff E c r EffPermit). Qed.
Lemma rule_eval_deny_iff : forall E c r,
  rule_eval E c r = Ok Deny <-> rule_applies E c EffDeny r.
Proof. intros. apply (rule_eval_ok_iff E c r EffDeny). Qed.

(** ** Reasons *)

Lemma rules_win_in : forall win win_eff lose os d,
  rules_override_spec win win_eff lose os (Ok d) ->
  d <> Indeterminate -> d <> NotApplicable ->
  exists eff, In (eff, Ok d) os.
Proof.
  intros win win_eff lose os d H H1 H2. inversion H; subst; try congruence.
  - exists eff. apply in_app_iff; right; left; reflexivity.
  - destruct o as [eff [d0|e]]; unfold fault_result in *; simpl in *; congruence.
  - eauto.
Qed.

Lemma policy_rule_reason : forall E c m t alg rules d,
  policy_eval E c (PPolicy m t alg rules) = Ok d ->
  d <> Indeterminate -> d <> NotApplicable ->
  target_accepts E c t /\ exists r, In r rules /\ rule_eval E c r = Ok d.
Proof.
  intros E c m t alg rules d H H1 H2.
  destruct (with_target_cases E c t (Ok Permit)) as [[Ht _]|[r Hr]].
  - split; [exact Ht|].
    destruct alg as [[| |]|].
    + assert (Hs := rules_deny_overrides_spec E c m t rules Ht). rewrite H in Hs.
      destruct (rules_win_in _ _ _ _ _ Hs H1 H2) as [eff Hin].
      apply in_map_iff in Hin. destruct Hin as (r & Heq & Hr). injection Heq as _ Heq. eauto.
    + assert (Hs := rules_permit_overrides_spec E c m t rules Ht). rewrite H in Hs.
      destruct (rules_win_in _ _ _ _ _ Hs H1 H2) as [eff Hin].
      apply in_map_iff in Hin. destruct Hin as (r & Heq & Hr). injection Heq as _ Heq. eauto.
    + assert (Hs := rules_first_applicable_spec E c m t rules Ht). rewrite H in Hs.
      inversion Hs; [|congruence].
      assert (Hin : In (Ok d) (map (rule_eval E c) rules))
        by (rewrite H0; apply in_app_iff; right; left; reflexivity).
      apply in_map_iff in Hin. destruct Hin as (r & Heq & Hr). eauto.
    + simpl in H. rewrite with_target_accepts in H by exact Ht. simpl in H. congruence.
  - exfalso. simpl in H. rewrite Hr in H. unfold with_target in Hr.
    assert (Hr1 := Hr (Ok Indeterminate)).
    destruct (match t with Some t0 => target_match E c t0 | None => Ok true end) as [[]|e];
      simpl in Hr1; subst r; simpl in H; try congruence.
    destruct (is_exception e); [congruence|discriminate].
Qed.

Lemma policyset_child_reason : forall E c m t alg ps d,
  policy_eval E c (PPolicySet m t alg ps) = Ok d ->
  d <> Indeterminate -> d <> NotApplicable ->
  target_accepts E c t /\
  exists p, In p ps /\ (policy_eval E c p = Ok d \/
    (d = Deny /\ alg = Some DenyOverrides /\ policy_eval E c p = Ok Indeterminate)).
Proof.
  intros E c m t alg ps d H H1 H2.
  assert (Hin : forall o, In o (map (policy_eval E c) ps) ->
                  exists p, In p ps /\ policy_eval E c p = o).
  { intros o Ho. apply in_map_iff in Ho. destruct Ho as (p & Heq & Hp). eauto. }
  destruct (with_target_cases E c t (Ok Permit)) as [[Ht _]|[r Hr]].
  - split; [exact Ht|].
    destruct alg as [[| |]|].
    + assert (Hs := policies_deny_overrides_spec E c m t ps Ht). rewrite H in Hs.
      inversion Hs; subst; try congruence.
      * destruct (Hin o) as (p & Hp & Heq).
        { match goal with Hx : map _ _ = _ |- _ => rewrite Hx end; apply in_app_iff; right; left; reflexivity. }
        exists p. split; [exact Hp|]. match goal with Hx : _ \/ _ |- _ => destruct Hx; subst; auto end.
      * match goal with Hx : In _ (map _ _) |- _ => destruct (Hin _ Hx) as (p & Hp & Heq) end. eauto.
    + assert (Hs := policies_permit_overrides_spec E c m t ps Ht). rewrite H in Hs.
      inversion Hs; subst; try congruence.
      * destruct (Hin (Ok Permit)) as (p & Hp & Heq).
        { match goal with Hx : map _ _ = _ |- _ => rewrite Hx end; apply in_app_iff; right; left; reflexivity. }
        eauto.
      * match goal with Hx : In _ (map _ _) |- _ => destruct (Hin _ Hx) as (p & Hp & Heq) end. eauto.
    + assert (Hs := policies_first_applicable_spec E c m t ps Ht). rewrite H in Hs.
      inversion Hs; [|congruence].
      destruct (Hin (Ok d)) as (p & Hp & Heq).
      { match goal with Hx : map _ _ = _ |- _ => rewrite Hx end; apply in_app_iff; right; left; reflexivity. }
      eauto.
    + simpl in H. rewrite with_target_accepts in H by exact Ht. simpl in H. congruence.
  - exfalso. simpl in H. rewrite Hr in H. unfold with_target in Hr.
    assert (Hr1 := Hr (Ok Indeterminate)).
    destruct (match t with Some t0 => target_match E c t0 | None => Ok true end) as [[]|e];
      simpl in Hr1; subst r; simpl in H; try congruence.
    destruct (is_exception e); [congruence|discriminate].
Qed.

Lemma permit_has_reason : forall E c p,
  policy_eval E c p = Ok Permit -> permit_reason E c p.
Proof.
  intros E c p. induction p as [m t alg rules|m t alg ps IH] using policybase_ind'; intros H.
  - destruct (policy_rule_reason _ _ _ _ _ _ _ H) as [Ht (r & Hr & Hd)]; try discriminate.
    eapply PRrule; eauto. apply rule_eval_permit_iff; exact Hd.
  - destruct (policyset_child_reason _ _ _ _ _ _ _ H) as [Ht (p & Hp & [Hd|(Hd & _)])];
      try discriminate.
    eapply PRchild; eauto. rewrite Forall_forall in IH. auto.
Qed.

Lemma deny_has_reason : forall E c p,
  policy_eval E c p = Ok Deny -> deny_reason E c p.
Proof.
  intros E c p. induction p as [m t alg rules|m t alg ps IH] using policybase_ind'; intros H.
  - destruct (policy_rule_reason _ _ _ _ _ _ _ H) as [Ht (r & Hr & Hd)]; try discriminate.
    eapply DRrule; eauto. apply rule_eval_deny_iff; exact Hd.
  - destruct (policyset_child_reason _ _ _ _ _ _ _ H)
      as [Ht (p & Hp & [Hd|(_ & -> & Hd)])]; try discriminate.
    + eapply DRchild; eauto. rewrite Forall_forall in IH. auto.
    + eapply DRindet; eauto.
Qed.

(** ** Targets and matches *)

Lemma target_match_flat : forall E c t,
  target_match E c t =
  let* s := match_section E c (tg_subjects t) in
  let* r := match_section E c (tg_resources t) in
  let* a := match_section E c (tg_actions t) in
  let* e := match_section E c (tg_environments t) in
  Ok (s && (r && (a && (e && true)))).
Proof.
  intros E c t. unfold target_match. simpl.
  destruct (match_section E c (tg_subjects t)); simpl; [|reflexivity].
  destruct (match_section E c (tg_resources t)); simpl; [|reflexivity].
  destruct (match_section E c (tg_actions t)); simpl; [|reflexivity].
  destruct (match_section E c (tg_environments t)); simpl; reflexivity.
Qed.

(** Evaluate all matches of a list of children in order. *)
Lemma section_loop_mapM : forall E c children st,
  section_loop E c st children =
  let* bss := mapM (match_child E c) children in Ok (st || existsb (fun b => b) bss).
Proof.
  induction children as [|ch rest IH]; intros st.
  - simpl. rewrite orb_false_r. reflexivity.
  - simpl section_loop. rewrite mapM_cons. destruct (match_child E c ch) as [b|e]; simpl; [|reflexivity].
    rewrite IH. destruct (mapM (match_child E c) rest) as [bs|e]; simpl; [|reflexivity].
    destruct b, st; reflexivity.
Qed.

Lemma match_section_mapM : forall E c children,
  match_section E c children =
  let* bss := mapM (match_child E c) children in
  Ok (match children with [] => true | _ => existsb (fun b => b) bss end).
Proof.
  intros E c [|ch rest]; [reflexivity|]. unfold match_section.
  rewrite section_loop_mapM. reflexivity.
Qed.

Lemma mapM_concat_raise : forall A (f : A -> res bool) (ls : list (list A)) (g : list bool -> bool) e,
  mapM (fun l => let* bs := mapM f l in Ok (g bs)) ls = Raise e <-> mapM f (concat ls) = Raise e.
Proof.
  intros A f ls g e. induction ls as [|l ls IH]; [reflexivity|].
  rewrite mapM_cons. simpl concat. rewrite mapM_app.
  destruct (mapM f l) as [bs|e']; simpl.
  - rewrite !bind_raise. rewrite IH. split.
    + intros [H|(a & _ & H)]; [left; exact H|discriminate].
    + intros [H|(a & _ & H)]; [left; exact H|discriminate].
  - split; auto.
Qed.

Lemma match_section_raise : forall E c s e,
  match_section E c s = Raise e <-> mapM (eval_match E c) (concat s) = Raise e.
Proof.
  intros E c s e. rewrite match_section_mapM, bind_raise.
  rewrite <- (mapM_concat_raise _ (eval_match E c) s (forallb (fun b => b)) e).
  split.
  - intros [H|(a & _ & H)]; [exact H|discriminate].
  - intros H; left; exact H.
Qed.

Lemma match_section_total : forall E c s bs,
  mapM (eval_match E c) (concat s) = Ok bs -> exists b, match_section E c s = Ok b.
Proof.
  intros E c s bs H. destruct (match_section E c s) as [b|e] eqn:Hs; [eauto|].
  apply match_section_raise in Hs. congruence.
Qed.

Lemma target_match_raise_mapM : forall E c t e,
  target_match E c t = Raise e <-> mapM (eval_match E c) (target_matches t) = Raise e.
Proof.
  intros E c t e. rewrite target_match_flat. unfold target_matches.
  rewrite !concat_app, !mapM_app.
  assert (Haux : forall s,
    (exists e, match_section E c s = Raise e /\ mapM (eval_match E c) (concat s) = Raise e) \/
    (exists b bs, match_section E c s = Ok b /\ mapM (eval_match E c) (concat s) = Ok bs)).
  { intros s. destruct (mapM (eval_match E c) (concat s)) as [bs|e0] eqn:Hm.
    - right. destruct (match_section_total _ _ _ _ Hm) as [b Hb]. eauto.
    - left. exists e0. split; [apply match_section_raise; exact Hm|reflexivity]. }
  destruct (Haux (tg_subjects t)) as [(e1 & -> & ->)|(b1 & bs1 & -> & ->)]; simpl; [split; intros H; injection H as ->; reflexivity|].
  destruct (Haux (tg_resources t)) as [(e2 & -> & ->)|(b2 & bs2 & -> & ->)]; simpl; [split; intros H; injection H as ->; reflexivity|].
  destruct (Haux (tg_actions t)) as [(e3 & -> & ->)|(b3 & bs3 & -> & ->)]; simpl; [split; intros H; injection H as ->; reflexivity|].
  destruct (Haux (tg_environments t)) as [(e4 & -> & ->)|(b4 & bs4 & -> & ->)]; simpl; [split; intros H; injection H as ->; reflexivity|].
  split; discriminate.
Qed.

Lemma target_match_raise : forall E c t e,
  target_match E c t = Raise e <->
  exists pre m post, target_matches t = pre ++ m :: post /\
    eval_match E c m = Raise e /\
    forall m', In m' pre -> is_ok (eval_match E c m') = true.
Proof.
  intros E c t e. rewrite target_match_raise_mapM, mapM_raise. split.
  - intros (pre & m & post & ys & Heq & Hm & Hpre).
    exists pre, m, post. repeat split; auto.
    intros m' Hm'. destruct (Forall2_In_l _ _ _ _ _ _ Hpre Hm') as (y & _ & ->). reflexivity.
  - intros (pre & m & post & Heq & Hm & Hpre).
    assert (Hys : exists ys, Forall2 (fun a b => eval_match E c a = Ok b) pre ys).
    { clear Heq. induction pre as [|x xs IH]; [exists []; constructor|].
      destruct IH as [ys Hys]; [intros; apply Hpre; right; assumption|].
      specialize (Hpre x (or_introl eq_refl)). destruct (eval_match E c x) as [b|] eqn:Hx; [|discriminate].
      exists (b :: ys). constructor; assumption. }
    destruct Hys as [ys Hys]. exists pre, m, post, ys. auto.
Qed.

Lemma match_child_ok : forall E c child b,
  match_child E c child = Ok b ->
  (b = true <-> forall m, In m child -> eval_match E c m = Ok true).
Proof.
  intros E c child b H. unfold match_child in H. apply bind_ok in H.
  destruct H as (bs & Hbs & H). injection H as <-. apply mapM_ok in Hbs.
  rewrite forallb_forall. split.
  - intros Hall m Hm. destruct (Forall2_In_l _ _ _ _ _ _ Hbs Hm) as (y & Hy & ->).
    rewrite (Hall y Hy). reflexivity.
  - intros Hall y Hy. destruct (Forall2_In_r _ _ _ _ _ _ Hbs Hy) as (m & Hm & Heq).
    rewrite (Hall m Hm) in Heq. injection Heq as <-. reflexivity.
Qed.

Lemma match_section_ok : forall E c s b,
  match_section E c s = Ok b -> (b = true <-> section_satisfied E c s).
Proof.
  intros E c s b H. rewrite match_section_mapM in H. apply bind_ok in H.
  destruct H as (bs & Hbs & H). injection H as <-. apply mapM_ok in Hbs.
  unfold section_satisfied. destruct s as [|ch s]; [split; auto|].
  rewrite existsb_exists. split.
  - intros (y & Hy & ->). right. destruct (Forall2_In_r _ _ _ _ _ _ Hbs Hy) as (m & Hm & Heq).
    exists m. split; [exact Hm|]. apply (match_child_ok _ _ _ _ Heq). reflexivity.
  - intros [H|(child & Hin & Hall)]; [discriminate|].
    destruct (Forall2_In_l _ _ _ _ _ _ Hbs Hin) as (y & Hy & Heq).
    exists y. split; [exact Hy|]. apply (match_child_ok _ _ _ _ Heq). exact Hall.
Qed.

Lemma target_match_ok : forall E c t b,
  target_match E c t = Ok b ->
  (b = true <-> section_satisfied E c (tg_subjects t) /\ section_satisfied E c (tg_resources t) /\
                section_satisfied E c (tg_actions t) /\ section_satisfied E c (tg_environments t)).
Proof.
  intros E c t b H. rewrite target_match_flat in H.
  apply bind_ok in H; destruct H as (b1 & H1 & H).
  apply bind_ok in H; destruct H as (b2 & H2 & H).
  apply bind_ok in H; destruct H as (b3 & H3 & H).
  apply bind_ok in H; destruct H as (b4 & H4 & H). injection H as <-.
  rewrite <- (match_section_ok _ _ _ _ H1), <- (match_section_ok _ _ _ _ H2),
    <- (match_section_ok _ _ _ _ H3), <- (match_section_ok _ _ _ _ H4).
  rewrite !andb_true_iff. tauto.
Qed.

(** A target none of whose matches raises gives a boolean. *)
Lemma target_match_total : forall E c t,
  (forall m, In m (target_matches t) -> is_ok (eval_match E c m) = true) ->
  exists b, target_match E c t = Ok b.
Proof.
  intros E c t H. destruct (target_match E c t) as [b|e] eqn:Ht; [eauto|].
  apply target_match_raise in Ht. destruct Ht as (pre & m & post & Heq & Hm & _).
  specialize (H m). rewrite Heq, Hm in H. discriminate H.
  apply in_app_iff; right; left; reflexivity.
Qed.
