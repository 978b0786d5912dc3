(** Lemmas about several policies in place of one. *)
From Verif Require Import Eval SpecEval SpecPieces EvalFacts PropertiesEval.

Lemma rules_fa_app : forall ev l1 l2, rules_first_applicable ev (l1 ++ l2) =
  let* d := rules_first_applicable ev l1 in
  match d with NotApplicable => rules_first_applicable ev l2 | _ => Ok d end.
Proof.
  intros ev l1 l2. induction l1 as [|r l1 IH]; [reflexivity|]. cbn [app rules_first_applicable].
  destruct (ev r) as [[| | |]|e]; cbn [bind]; auto.
Qed.

Lemma rules_fa_raised : forall E c l e, rules_first_applicable (rule_eval E c) l = Raise e -> is_exception e = false.
Proof.
  intros E c. induction l as [|r l IH]; intros e H; cbn [rules_first_applicable] in H; [discriminate|].
  destruct (rule_eval E c r) as [[| | |]|e1] eqn:R; cbn [bind] in H; try discriminate; auto.
  injection H as <-. unfold rule_eval, catch_exception in R. destruct (rule_body E c r) as [d|e2]; [discriminate|].
  destruct (is_exception e2) eqn:X; [discriminate|]. injection R as <-. exact X.
Qed.

Lemma piece_fa : forall E c m g, policy_eval E c (PPolicy m None (Some FirstApplicable) g) =
  rules_first_applicable (rule_eval E c) g.
Proof.
  intros E c m g. cbn [policy_eval with_target bind negb combine_rules].
  destruct (rules_first_applicable (rule_eval E c) g) as [d|e] eqn:H; [reflexivity|].
  cbn [catch_exception]. rewrite (rules_fa_raised _ _ _ _ H). reflexivity.
Qed.

Lemma pieces_fa : forall E c gs qs, pieces FirstApplicable gs qs ->
  policies_first_applicable (policy_eval E c) qs = rules_first_applicable (rule_eval E c) (concat gs).
Proof.
  intros E c gs qs H. induction H as [|g q gs qs (m & ->) H IH]; [reflexivity|].
  cbn [policies_first_applicable concat]. rewrite rules_fa_app, piece_fa, IH.
  destruct (rules_first_applicable (rule_eval E c) g) as [[| | |]|e]; reflexivity.
Qed.

Lemma accepts_or : forall E c t, target_accepts E c t \/
  forall x y, catch_exception (with_target E c t x) = catch_exception (with_target E c t y).
Proof.
  intros E c [t|]; [|left; intros t' [=]].
  destruct (target_match E c t) as [[|]|e] eqn:H.
  - left. intros t' [= <-]. exact H.
  - right. intros x y. unfold with_target. rewrite H. reflexivity.
  - right. intros x y. unfold with_target. rewrite H. reflexivity.
Qed.

Section Pieces.
  Variable E : env.
  Variable c : context.
  Variable gs : list (list rule).
  Variable rules : list rule.
  Hypothesis HC : covers gs rules.
  Hypothesis HA : forall r, In r rules -> answers E c r.

  Lemma no_target : target_accepts E c None.
  Proof using. intros t' [=]. Qed.

  Lemma rules_hyp : forall l, (forall r, In r l -> In r rules) ->
    forall r, In r l -> rl_effect r <> None /\ is_ok (rule_eval E c r) = true.
  Proof using HA.
    intros l Hl r Hr. destruct (HA r (Hl r Hr)) as [H1 (d & H2)]. split; [exact H1|]. rewrite H2. reflexivity.
  Qed.
  Lemma group_in : forall g, In g gs -> forall r, In r g -> In r rules.
  Proof using HC. intros g Hg r Hr. apply HC. eauto. Qed.

  Lemma deny_ok : forall l, (forall r, In r l -> In r rules) -> forall a b d,
    exists o, rules_deny_overrides (rule_eval E c) a b d l = Ok o.
  Proof using HA.
    induction l as [|r l IH]; intros Hl a b d; cbn [rules_deny_overrides].
    - destruct b, d, a; eauto.
    - destruct (HA r (Hl r (or_introl eq_refl))) as [H1 (o & ->)]. cbn [bind].
      assert (forall x, In x l -> In x rules) as Hl' by (intros x Hx; apply Hl; right; exact Hx).
      destruct o; eauto. destruct (rl_effect r) as [[|]|]; eauto; congruence.
  Qed.
  Lemma permit_ok : forall l, (forall r, In r l -> In r rules) -> forall a b d,
    exists o, rules_permit_overrides (rule_eval E c) a b d l = Ok o.
  Proof using HA.
    induction l as [|r l IH]; intros Hl a b d; cbn [rules_permit_overrides].
    - destruct b, d, a; eauto.
    - destruct (HA r (Hl r (or_introl eq_refl))) as [H1 (o & ->)]. cbn [bind].
      assert (forall x, In x l -> In x rules) as Hl' by (intros x Hx; apply Hl; right; exact Hx).
      destruct o; eauto. destruct (rl_effect r) as [[|]|]; eauto; congruence.
  Qed.

  Lemma piece_ok : forall alg m l, alg <> FirstApplicable -> (forall r, In r l -> In r rules) ->
    exists d, policy_eval E c (PPolicy m None (Some alg) l) = Ok d.
  Proof using HA.
    intros alg m l Ha Hl. cbn [policy_eval with_target bind negb].
    destruct alg; [| |congruence]; cbn [combine_rules].
    - destruct (deny_ok l Hl false false false) as (o & ->). cbn. eauto.
    - destruct (permit_ok l Hl false false false) as (o & ->). cbn. eauto.
  Qed.

  Lemma pieces_in : forall alg qs, pieces alg gs qs ->
    (forall q, In q qs -> exists g m, In g gs /\ q = PPolicy m None (Some alg) g) /\
    (forall g, In g gs -> exists m, In (PPolicy m None (Some alg) g) qs).
  Proof using.
    clear HC HA. intros alg qs H. induction H as [|g q gs' qs (m & ->) H [IH1 IH2]]; [split; intros ? []|]. split.
    - intros q [<-|Hq]; [exists g, m; split; [left; reflexivity|reflexivity]|].
      destruct (IH1 q Hq) as (g' & m' & H1 & H2). exists g', m'. split; [right; exact H1|exact H2].
    - intros g' [<-|Hg]; [exists m; left; reflexivity|]. destruct (IH2 g' Hg) as (m' & H1). exists m'. right. exact H1.
  Qed.

  Lemma children_ok : forall alg qs, alg <> FirstApplicable -> pieces alg gs qs ->
    forall q, In q qs -> is_ok (policy_eval E c q) = true.
  Proof using HC HA.
    intros alg qs Ha HP q Hq. destruct (pieces_in _ _ HP) as [H1 _]. destruct (H1 q Hq) as (g & m & Hg & ->).
    destruct (piece_ok alg m g Ha (group_in g Hg)) as (d & ->). reflexivity.
  Qed.

  Definition some (l : list rule) (d : decision) := exists r, In r l /\ rule_eval E c r = Ok d.

  Section Deny.
    Variable qs : list policybase.
    Hypothesis HP : pieces DenyOverrides gs qs.
    Variables (m m' : pmeta) (t : option target).
    Hypothesis HT : target_accepts E c t.
    Let S := policy_eval E c (PPolicySet m t (Some DenyOverrides) qs).
    Let P := policy_eval E c (PPolicy m' t (Some DenyOverrides) rules).

    Definition deny_S := C04_deny_overrides_policies_table E c m t qs HT
      (children_ok DenyOverrides qs ltac:(discriminate) HP).
    Definition deny_P := C01_deny_overrides_rules_table E c m' t rules HT (rules_hyp rules (fun r H => H)).
    Definition deny_G :=
      fun g mg (Hg : In g gs) => C01_deny_overrides_rules_table E c mg None g no_target (rules_hyp g (group_in g Hg)).

    Lemma deny_na : S = Ok NotApplicable <-> P = Ok NotApplicable.
    Proof using HC HA HP HT.
      destruct deny_S as (_ & _ & _ & S4). destruct deny_P as (_ & _ & _ & P4). unfold S, P. rewrite S4, P4.
      destruct (pieces_in _ _ HP) as [I1 I2]. split.
      - intros H r Hr. apply HC in Hr. destruct Hr as (g & Hg & Hr). destruct (I2 g Hg) as (mg & Hq).
        destruct (deny_G g mg Hg) as (_ & _ & _ & G4). apply (proj1 G4 (H _ Hq) r Hr).
      - intros H q Hq. destruct (I1 q Hq) as (g & mg & Hg & ->). destruct (deny_G g mg Hg) as (_ & _ & _ & G4).
        apply G4. intros r Hr. apply H, (group_in g Hg r Hr).
    Qed.

    Lemma deny_permit : S = Ok Permit -> P = Ok Permit.
    Proof using HC HA HP HT.
      destruct deny_S as (_ & S2 & _). destruct deny_P as (_ & P2 & _). unfold S, P. rewrite S2, P2.
      destruct (pieces_in _ _ HP) as [I1 I2]. intros ((q & Hq & Qq) & ND & NI).
      destruct (I1 q Hq) as (g & mg & Hg & ->). split; [|split].
      - destruct (deny_G g mg Hg) as (_ & G2 & _). apply G2 in Qq. destruct Qq as ((r & Hr & Rr) & _).
        exists r. split; [exact (group_in g Hg r Hr)|exact Rr].
      - intros (r & Hr & Rr). apply HC in Hr. destruct Hr as (g' & Hg' & Hr). destruct (I2 g' Hg') as (mg' & Hq').
        destruct (deny_G g' mg' Hg') as (G1 & _). apply ND. eexists. split; [exact Hq'|]. apply G1. exists r. auto.
      - intros (r & Hr & Er & Rr). apply HC in Hr. destruct Hr as (g' & Hg' & Hr). destruct (I2 g' Hg') as (mg' & Hq').
        destruct (deny_G g' mg' Hg') as (G1 & _ & G3 & _). apply NI. eexists. split; [exact Hq'|]. apply G3. split.
        + intros X. apply ND. eexists. split; [exact Hq'|]. apply G1. exact X.
        + left. exists r. auto.
    Qed.

    Lemma deny_deny : P = Ok Deny -> S = Ok Deny.
    Proof using HC HA HP HT.
      destruct deny_S as (S1 & _). destruct deny_P as (P1 & _). unfold S, P. rewrite S1, P1.
      destruct (pieces_in _ _ HP) as [I1 I2]. intros (r & Hr & Rr). left.
      apply HC in Hr. destruct Hr as (g & Hg & Hr). destruct (I2 g Hg) as (mg & Hq).
      destruct (deny_G g mg Hg) as (G1 & _). eexists. split; [exact Hq|]. apply G1. exists r. auto.
    Qed.

    Hypothesis HN : forall r, In r rules -> rule_eval E c r <> Ok Indeterminate.

    Lemma deny_permit_back : P = Ok Permit -> S = Ok Permit.
    Proof using HC HA HP HT HN.
      destruct deny_S as (_ & S2 & _). destruct deny_P as (_ & P2 & _). unfold S, P. rewrite S2, P2.
      destruct (pieces_in _ _ HP) as [I1 I2]. intros ((r & Hr & Rr) & ND & NI).
      assert (Nd : ~ exists p, In p qs /\ policy_eval E c p = Ok Deny).
      { intros (q & Hq & Qq). destruct (I1 q Hq) as (g' & mg' & Hg' & ->). destruct (deny_G g' mg' Hg') as (G1 & _).
        apply G1 in Qq. destruct Qq as (r' & Hr' & Rr'). apply ND. exists r'. split; [exact (group_in g' Hg' r' Hr')|exact Rr']. }
      assert (Ni : ~ exists p, In p qs /\ policy_eval E c p = Ok Indeterminate).
      { intros (q & Hq & Qq). destruct (I1 q Hq) as (g' & mg' & Hg' & ->). destruct (deny_G g' mg' Hg') as (_ & _ & G3 & _).
        apply G3 in Qq. destruct Qq as (_ & [(r' & Hr' & _ & Rr')|((r' & Hr' & Rr') & _)]);
          exact (HN r' (group_in g' Hg' r' Hr') Rr'). }
      split; [|split; assumption].
      apply HC in Hr. destruct Hr as (g & Hg & Hr). destruct (I2 g Hg) as (mg & Hq).
      destruct (deny_G g mg Hg) as (_ & G2 & _). eexists. split; [exact Hq|]. apply G2. split; [exists r; auto|]. split.
      - intros (r' & Hr' & Rr'). apply ND. exists r'. split; [exact (group_in g Hg r' Hr')|exact Rr'].
      - intros (r' & Hr' & _ & Rr'). exact (HN r' (group_in g Hg r' Hr') Rr').
    Qed.
  End Deny.

  Section Permit.
    Variable qs : list policybase.
    Hypothesis HP : pieces PermitOverrides gs qs.
    Variables (m m' : pmeta) (t : option target).
    Hypothesis HT : target_accepts E c t.
    Let S := policy_eval E c (PPolicySet m t (Some PermitOverrides) qs).
    Let P := policy_eval E c (PPolicy m' t (Some PermitOverrides) rules).

    Definition permit_S := C05_permit_overrides_policies_table E c m t qs HT
      (children_ok PermitOverrides qs ltac:(discriminate) HP).
    Definition permit_P := C02_permit_overrides_rules_table E c m' t rules HT (rules_hyp rules (fun r H => H)).
    Definition permit_G :=
      fun g mg (Hg : In g gs) => C02_permit_overrides_rules_table E c mg None g no_target (rules_hyp g (group_in g Hg)).

    Lemma permit_na : S = Ok NotApplicable <-> P = Ok NotApplicable.
    Proof using HC HA HP HT.
      destruct permit_S as (_ & _ & _ & S4). destruct permit_P as (_ & _ & _ & P4). unfold S, P. rewrite S4, P4.
      destruct (pieces_in _ _ HP) as [I1 I2]. split.
      - intros H r Hr. apply HC in Hr. destruct Hr as (g & Hg & Hr). destruct (I2 g Hg) as (mg & Hq).
        destruct (permit_G g mg Hg) as (_ & _ & _ & G4). apply (proj1 G4 (H _ Hq) r Hr).
      - intros H q Hq. destruct (I1 q Hq) as (g & mg & Hg & ->). destruct (permit_G g mg Hg) as (_ & _ & _ & G4).
        apply G4. intros r Hr. apply H, (group_in g Hg r Hr).
    Qed.

    Lemma permit_permit : S = Ok Permit <-> P = Ok Permit.
    Proof using HC HA HP HT.
      destruct permit_S as (S1 & _). destruct permit_P as (P1 & _). unfold S, P. rewrite S1, P1.
      destruct (pieces_in _ _ HP) as [I1 I2]. split.
      - intros (q & Hq & Qq). destruct (I1 q Hq) as (g & mg & Hg & ->). destruct (permit_G g mg Hg) as (G1 & _).
        apply G1 in Qq. destruct Qq as (r & Hr & Rr). exists r. split; [exact (group_in g Hg r Hr)|exact Rr].
      - intros (r & Hr & Rr). apply HC in Hr. destruct Hr as (g & Hg & Hr). destruct (I2 g Hg) as (mg & Hq).
        destruct (permit_G g mg Hg) as (G1 & _). eexists. split; [exact Hq|]. apply G1. exists r. auto.
    Qed.

    Lemma permit_deny : P = Ok Deny -> S = Ok Deny.
    Proof using HC HA HP HT.
      destruct permit_S as (S1 & S2 & _). destruct permit_P as (P1 & P2 & _). unfold S, P. rewrite S2, P2.
      destruct (pieces_in _ _ HP) as [I1 I2]. intros ((r & Hr & Rr) & NP & NI). split.
      - apply HC in Hr. destruct Hr as (g & Hg & Hr). destruct (I2 g Hg) as (mg & Hq).
        destruct (permit_G g mg Hg) as (_ & G2 & _). eexists. split; [exact Hq|]. apply G2. split; [exists r; auto|]. split.
        + intros (r' & Hr' & Rr'). apply NP. exists r'. split; [exact (group_in g Hg r' Hr')|exact Rr'].
        + intros (r' & Hr' & Er' & Rr'). apply NI. exists r'. split; [exact (group_in g Hg r' Hr')|auto].
      - intros X. apply NP. apply P1. apply permit_permit. apply S1. exact X.
    Qed.
  End Permit.

  Lemma same_pieces : forall alg qs m m' t, alg <> FirstApplicable -> pieces alg gs qs -> target_accepts E c t ->
    (forall r, In r rules -> rule_eval E c r <> Ok Indeterminate) ->
    policy_eval E c (PPolicySet m t (Some alg) qs) = policy_eval E c (PPolicy m' t (Some alg) rules).
  Proof using HC HA.
    intros alg qs m m' t Ha HP HT HN.
    assert (Hw : forall x, catch_exception (with_target E c t x) = catch_exception x).
    { intros x. unfold with_target. destruct t as [t|]; [rewrite (HT t eq_refl)|]; reflexivity. }
    assert (HO : exists d, policy_eval E c (PPolicy m' t (Some alg) rules) = Ok d).
    { destruct (piece_ok alg m' rules Ha (fun r H => H)) as (d & Hd). exists d. rewrite <- Hd. cbn [policy_eval].
      rewrite Hw. reflexivity. }
    destruct HO as (d & Hd). rewrite Hd. symmetry. destruct alg; [| |congruence]; destruct d.
    - symmetry. apply deny_permit_back with (m' := m'); assumption.
    - symmetry. apply deny_deny with (m' := m'); assumption.
    - exfalso. destruct (deny_P m' t HT) as (_ & _ & P3 & _). apply P3 in Hd.
      destruct Hd as (_ & [(r & Hr & _ & Rr)|((r & Hr & Rr) & _)]); exact (HN r Hr Rr).
    - symmetry. apply deny_na with (m' := m'); assumption.
    - symmetry. apply permit_permit with (m' := m'); assumption.
    - symmetry. apply permit_deny with (m' := m'); assumption.
    - exfalso. destruct (permit_P m' t HT) as (_ & _ & P3 & _). apply P3 in Hd.
      destruct Hd as (_ & [(r & Hr & _ & Rr)|((r & Hr & Rr) & _)]); exact (HN r Hr Rr).
    - symmetry. apply permit_na with (m' := m'); assumption.
  Qed.
End Pieces.
