(** Lemmas about rules that always apply and rules that cannot matter. *)
From Verif Require Import Eval SpecEval SpecStandard SpecMonotone SpecTighten SpecDefault EvalFacts AlgebraFacts
  StandardFacts TightenFacts RewriteFacts.

Lemma catch_all_eval : forall E c r e, catch_all r e -> rule_eval E c r = Ok (named e).
Proof.
  intros E c r e (Ht & Hc & He). unfold rule_eval, rule_body. rewrite Ht, Hc, He. destruct e; reflexivity.
Qed.

Section Lists.
  Variable ev : rule -> res decision.
  Definition plain_rule (r : rule) : Prop :=
    ev r = Ok Permit \/ ev r = Ok Deny \/ ev r = Ok NotApplicable.
  Definition gives (d : decision) (r : rule) : bool :=
    match ev r with
    | Ok d' => match d, d' with Permit, Permit => true | Deny, Deny => true | _, _ => false end
    | Raise _ => false
    end.

  Lemma first_stop : forall l1 r l2 d, ev r = Ok d -> d <> NotApplicable ->
    rules_first_applicable ev (l1 ++ r :: l2) = rules_first_applicable ev (l1 ++ [r]).
  Proof.
    induction l1 as [|x l1 IH]; intros r l2 d H N; cbn [app rules_first_applicable]; fold (rules_first_applicable ev).
    - rewrite H. cbn [bind]. destruct d; try reflexivity. congruence.
    - rewrite (IH r l2 d H N). reflexivity.
  Qed.
  Lemma first_default : forall l r d, ev r = Ok d -> d <> NotApplicable ->
    rules_first_applicable ev (l ++ [r]) =
    match rules_first_applicable ev l with Ok NotApplicable => Ok d | o => o end.
  Proof.
    induction l as [|x l IH]; intros r d H N; cbn [app rules_first_applicable]; fold (rules_first_applicable ev).
    - rewrite H. cbn [bind]. destruct d; congruence.
    - destruct (ev x) as [[]|]; cbn [bind]; try reflexivity. apply IH; assumption.
  Qed.

  Lemma deny_plain : forall l p, (forall x, In x l -> plain_rule x) ->
    rules_deny_overrides ev false false p l =
    Ok (if existsb (gives Deny) l then Deny
        else if p || existsb (gives Permit) l then Permit else NotApplicable).
  Proof.
    induction l as [|x l IH]; intros p H; cbn [rules_deny_overrides existsb]; fold (rules_deny_overrides ev).
    - destruct p; reflexivity.
    - assert (Hx := H x (or_introl eq_refl)). assert (Hl : forall y, In y l -> plain_rule y) by (intros; apply H; right; assumption).
      unfold gives at 1 3. destruct Hx as [-> |[-> | ->]]; cbn [bind orb]; try reflexivity; rewrite (IH _ Hl).
      + rewrite !Bool.orb_true_r. reflexivity.
      + reflexivity.
  Qed.
  Lemma permit_plain : forall l p, (forall x, In x l -> plain_rule x) ->
    rules_permit_overrides ev false false p l =
    Ok (if existsb (gives Permit) l then Permit
        else if p || existsb (gives Deny) l then Deny else NotApplicable).
  Proof.
    induction l as [|x l IH]; intros p H; cbn [rules_permit_overrides existsb]; fold (rules_permit_overrides ev).
    - destruct p; reflexivity.
    - assert (Hx := H x (or_introl eq_refl)). assert (Hl : forall y, In y l -> plain_rule y) by (intros; apply H; right; assumption).
      unfold gives at 1 3. destruct Hx as [-> |[-> | ->]]; cbn [bind orb]; try reflexivity; rewrite (IH _ Hl).
      + rewrite !Bool.orb_true_r. reflexivity.
      + reflexivity.
  Qed.

  (** [r] decides for itself or prevails: [r'] may go, wherever it stands. *)
  Lemma drop_overrides : forall a l l' r r' d d', a <> FirstApplicable ->
    (forall x, In x (l ++ r' :: l') -> plain_rule x) -> In r (l ++ l') ->
    ev r = Ok d -> ev r' = Ok d' ->
    (d' = d \/ (a = DenyOverrides /\ d = Deny) \/ (a = PermitOverrides /\ d = Permit)) ->
    combine_rules a ev (l ++ r' :: l') = combine_rules a ev (l ++ l').
  Proof.
    intros a l l' r r' d d' Na Hp Hi Hd Hd' Hc.
    assert (Hp' : forall x, In x (l ++ l') -> plain_rule x).
    { intros x Hx. apply Hp. rewrite in_app_iff in *. cbn. tauto. }
    assert (D : d = Deny -> existsb (gives Deny) (l ++ l') = true).
    { intros ->. apply existsb_exists. exists r. split; [exact Hi|]. unfold gives. rewrite Hd. reflexivity. }
    assert (P : d = Permit -> existsb (gives Permit) (l ++ l') = true).
    { intros ->. apply existsb_exists. exists r. split; [exact Hi|]. unfold gives. rewrite Hd. reflexivity. }
    assert (X : forall k, existsb (gives k) (l ++ r' :: l') = gives k r' || existsb (gives k) (l ++ l')).
    { intro k. rewrite !existsb_app. cbn [existsb]. destruct (existsb (gives k) l), (gives k r'); reflexivity. }
    assert (G : forall k, gives k r' = match k, d' with Permit, Permit => true | Deny, Deny => true | _, _ => false end).
    { intro k. unfold gives. rewrite Hd'. reflexivity. }
    destruct a; [| |congruence]; cbn [combine_rules];
      [rewrite (deny_plain _ _ Hp), (deny_plain _ _ Hp')|rewrite (permit_plain _ _ Hp), (permit_plain _ _ Hp')];
      rewrite !X, !G; f_equal;
      destruct Hc as [-> |[(Ha & ->)|(Ha & ->)]]; try discriminate Ha.
    - destruct d; cbn [orb]; try reflexivity; [rewrite (P eq_refl)|rewrite (D eq_refl)]; reflexivity.
    - rewrite (D eq_refl), Bool.orb_true_r. reflexivity.
    - destruct d; cbn [orb]; try reflexivity; [rewrite (P eq_refl)|rewrite (D eq_refl)]; reflexivity.
    - rewrite (P eq_refl), Bool.orb_true_r. reflexivity.
  Qed.
End Lists.

Section Catch.
  Variables (E : env) (c : context).
  Let ev := rule_eval E c.

  Lemma deny_catch : forall l1 r l2 a b p, ev r = Ok Deny -> (forall x, In x l1 -> returns E c x) ->
    rules_deny_overrides ev a b p (l1 ++ r :: l2) = Ok Deny.
  Proof.
    induction l1 as [|x l1 IH]; intros r l2 a b p Hr H; cbn [app rules_deny_overrides]; fold (rules_deny_overrides ev).
    - rewrite Hr. reflexivity.
    - assert (Hl : forall y, In y l1 -> returns E c y) by (intros; apply H; right; assumption).
      destruct (H x (or_introl eq_refl)) as (He & d & Hd). unfold ev at 1. rewrite Hd. cbn [bind].
      destruct d; try reflexivity; try (apply IH; assumption).
      destruct (rl_effect x) as [[]|]; [apply IH; assumption|apply IH; assumption|congruence].
  Qed.
  Lemma permit_catch : forall l1 r l2 a b p, ev r = Ok Permit -> (forall x, In x l1 -> returns E c x) ->
    rules_permit_overrides ev a b p (l1 ++ r :: l2) = Ok Permit.
  Proof.
    induction l1 as [|x l1 IH]; intros r l2 a b p Hr H; cbn [app rules_permit_overrides]; fold (rules_permit_overrides ev).
    - rewrite Hr. reflexivity.
    - assert (Hl : forall y, In y l1 -> returns E c y) by (intros; apply H; right; assumption).
      destruct (H x (or_introl eq_refl)) as (He & d & Hd). unfold ev at 1. rewrite Hd. cbn [bind].
      destruct d; try reflexivity; try (apply IH; assumption).
      destruct (rl_effect x) as [[]|]; [apply IH; assumption|apply IH; assumption|congruence].
  Qed.

  (** The outcome where some rule permits under deny-overrides. *)
  Lemma deny_default : forall l a b p, (forall x, In x l -> returns E c x) ->
    p = true \/ (exists r, In r l /\ ev r = Ok Permit) ->
    let o := rules_deny_overrides ev a b p l in
    (o = Ok Deny <-> exists x, In x l /\ ev x = Ok Deny) /\
    (o = Ok Permit <-> b = false /\ forall x, In x l -> ev x <> Ok Deny /\ ~ (rl_effect x = Some EffDeny /\ ev x = Ok Indeterminate)) /\
    (o = Ok Deny \/ o = Ok Permit \/ o = Ok Indeterminate).
  Proof.
    induction l as [|x l IH]; intros a b p H Hp; cbn zeta.
    - destruct Hp as [-> |(r & [] & _)]. cbn [rules_deny_overrides]. destruct b.
      + split; [split; [discriminate|intros (? & [] & _)]|]. split; [|auto].
        split; [discriminate|intros (? & _); discriminate].
      + split; [split; [discriminate|intros (? & [] & _)]|]. split; [|auto].
        split; [intros _; split; [reflexivity|intros ? []]|reflexivity].
    - assert (Hl : forall y, In y l -> returns E c y) by (intros; apply H; right; assumption).
      destruct (H x (or_introl eq_refl)) as (He & d & Hd). cbn [rules_deny_overrides]; fold (rules_deny_overrides ev).
      fold ev in Hd. rewrite Hd. cbn [bind].
      assert (Hp' : forall p', d <> Permit -> p' = p -> p' = true \/ (exists r, In r l /\ ev r = Ok Permit)).
      { intros p' Nd ->. destruct Hp as [Hp|(r & [<-|Hr] & Hv)]; [auto|congruence|eauto]. }
      assert (K : forall a' b' p', p' = true \/ (exists r, In r l /\ ev r = Ok Permit) ->
        d <> Deny ->
        (b' = b \/ b' = true) -> (b' = true <-> b = true \/ (rl_effect x = Some EffDeny /\ d = Indeterminate)) ->
        let o := rules_deny_overrides ev a' b' p' l in
        (o = Ok Deny <-> exists y, In y (x :: l) /\ ev y = Ok Deny) /\
        (o = Ok Permit <-> b = false /\ forall y, In y (x :: l) -> ev y <> Ok Deny /\ ~ (rl_effect y = Some EffDeny /\ ev y = Ok Indeterminate)) /\
        (o = Ok Deny \/ o = Ok Permit \/ o = Ok Indeterminate)).
      { intros a' b' p' Hq Nd Hb Hb'. destruct (IH a' b' p' Hl Hq) as (I1 & I2 & I3). cbn zeta.
        split; [|split; [|exact I3]].
        - rewrite I1. split; intros (y & Hy & Hv); [exists y; split; [right; auto|auto]|].
          destruct Hy as [<-|Hy]; [congruence|eauto].
        - rewrite I2. split.
          + intros (B & F). assert (b = false) by (destruct b; [|reflexivity]; rewrite (proj2 Hb' (or_introl eq_refl)) in B; discriminate).
            split; [assumption|]. intros y [<-|Hy]; [|auto]. split; [congruence|].
            intros (E1 & E2). assert (b' = true) by (apply Hb'; right; split; [auto|congruence]). congruence.
          + intros (B & F). split; [|intros y Hy; apply F; right; exact Hy].
            destruct b'; [|reflexivity]. destruct (proj1 Hb' eq_refl) as [K|(K1 & K2)]; [congruence|].
            exfalso. apply (proj2 (F x (or_introl eq_refl))). split; congruence. }
      destruct d.
      + apply K; try (left; reflexivity); try discriminate. split; [auto|intros [|(_ & ?)]; [auto|discriminate]].
      + split; [split; [intros _; exists x; split; [left|]; auto|reflexivity]|]. split; [|auto].
        split; [discriminate|]. intros (_ & F). destruct (F x (or_introl eq_refl)). congruence.
      + destruct (rl_effect x) as [[]|] eqn:Ex; [| |congruence].
        * apply K; [apply Hp'; [discriminate|reflexivity]|discriminate|left; reflexivity|].
          split; [auto|]. intros [|(? & _)]; [auto|congruence].
        * apply K; [apply Hp'; [discriminate|reflexivity]|discriminate|right; reflexivity|].
          split; auto.
      + apply K; [apply Hp'; [discriminate|reflexivity]|discriminate|left; reflexivity|].
        split; [auto|intros [|(_ & ?)]; [auto|discriminate]].
  Qed.

  (** The outcome where some rule denies under permit-overrides. *)
  Lemma permit_default : forall l a b p, (forall x, In x l -> returns E c x) ->
    p = true \/ (exists r, In r l /\ ev r = Ok Deny) ->
    let o := rules_permit_overrides ev a b p l in
    (o = Ok Permit <-> exists x, In x l /\ ev x = Ok Permit) /\
    (o = Ok Deny <-> b = false /\ forall x, In x l -> ev x <> Ok Permit /\ ~ (rl_effect x = Some EffPermit /\ ev x = Ok Indeterminate)) /\
    (o = Ok Permit \/ o = Ok Deny \/ o = Ok Indeterminate).
  Proof.
    induction l as [|x l IH]; intros a b p H Hp; cbn zeta.
    - destruct Hp as [-> |(r & [] & _)]. cbn [rules_permit_overrides]. destruct b.
      + split; [split; [discriminate|intros (? & [] & _)]|]. split; [|auto].
        split; [discriminate|intros (? & _); discriminate].
      + split; [split; [discriminate|intros (? & [] & _)]|]. split; [|auto].
        split; [intros _; split; [reflexivity|intros ? []]|reflexivity].
    - assert (Hl : forall y, In y l -> returns E c y) by (intros; apply H; right; assumption).
      destruct (H x (or_introl eq_refl)) as (He & d & Hd). cbn [rules_permit_overrides]; fold (rules_permit_overrides ev).
      fold ev in Hd. rewrite Hd. cbn [bind].
      assert (Hp' : forall p', d <> Deny -> p' = p -> p' = true \/ (exists r, In r l /\ ev r = Ok Deny)).
      { intros p' Nd ->. destruct Hp as [Hp|(r & [<-|Hr] & Hv)]; [auto|congruence|eauto]. }
      assert (K : forall a' b' p', p' = true \/ (exists r, In r l /\ ev r = Ok Deny) ->
        d <> Permit ->
        (b' = b \/ b' = true) -> (b' = true <-> b = true \/ (rl_effect x = Some EffPermit /\ d = Indeterminate)) ->
        let o := rules_permit_overrides ev a' b' p' l in
        (o = Ok Permit <-> exists y, In y (x :: l) /\ ev y = Ok Permit) /\
        (o = Ok Deny <-> b = false /\ forall y, In y (x :: l) -> ev y <> Ok Permit /\ ~ (rl_effect y = Some EffPermit /\ ev y = Ok Indeterminate)) /\
        (o = Ok Permit \/ o = Ok Deny \/ o = Ok Indeterminate)).
      { intros a' b' p' Hq Nd Hb Hb'. destruct (IH a' b' p' Hl Hq) as (I1 & I2 & I3). cbn zeta.
        split; [|split; [|exact I3]].
        - rewrite I1. split; intros (y & Hy & Hv); [exists y; split; [right; auto|auto]|].
          destruct Hy as [<-|Hy]; [congruence|eauto].
        - rewrite I2. split.
          + intros (B & F). assert (b = false) by (destruct b; [|reflexivity]; rewrite (proj2 Hb' (or_introl eq_refl)) in B; discriminate).
            split; [assumption|]. intros y [<-|Hy]; [|auto]. split; [congruence|].
            intros (E1 & E2). assert (b' = true) by (apply Hb'; right; split; [auto|congruence]). congruence.
          + intros (B & F). split; [|intros y Hy; apply F; right; exact Hy].
            destruct b'; [|reflexivity]. destruct (proj1 Hb' eq_refl) as [K|(K1 & K2)]; [congruence|].
            exfalso. apply (proj2 (F x (or_introl eq_refl))). split; congruence. }
      destruct d.
      + split; [split; [intros _; exists x; split; [left|]; auto|reflexivity]|]. split; [|auto].
        split; [discriminate|]. intros (_ & F). destruct (F x (or_introl eq_refl)). congruence.
      + apply K; try (left; reflexivity); try discriminate. split; [auto|intros [|(_ & ?)]; [auto|discriminate]].
      + destruct (rl_effect x) as [[]|] eqn:Ex; [| |congruence].
        * apply K; [apply Hp'; [discriminate|reflexivity]|discriminate|right; reflexivity|].
          split; auto.
        * apply K; [apply Hp'; [discriminate|reflexivity]|discriminate|left; reflexivity|].
          split; [auto|]. intros [|(? & _)]; [auto|congruence].
      + apply K; [apply Hp'; [discriminate|reflexivity]|discriminate|left; reflexivity|].
        split; [auto|intros [|(_ & ?)]; [auto|discriminate]].
  Qed.

  (** *** Rules that cover others *)
  Lemma good_plain : forall r, good_rule E c r -> plain_rule ev r.
  Proof.
    intros r G. assert (exists e, rl_effect r = Some e) as (e & He).
    { destruct G as (_ & _ & N). destruct (rl_effect r) as [e|]; [eauto|congruence]. }
    unfold plain_rule, ev. destruct (good_eval E c r e G He) as [-> |(-> & _)]; [auto|]. destruct e; auto.
  Qed.
  Lemma covers_eval : forall r r' e, covers r r' -> good_rule E c r -> good_rule E c r' -> rl_effect r = Some e ->
    ev r' = Ok NotApplicable \/ ev r = Ok (named e).
  Proof.
    intros r r' e (N & S) G G' He. assert (exists e', rl_effect r' = Some e') as (e' & He').
    { destruct G' as (_ & _ & K). destruct (rl_effect r') as [k|]; [eauto|congruence]. }
    destruct (good_eval E c r' e' G' He') as [H|(_ & T & v & V & Tv)]; [left; exact H|right].
    destruct G as ((b & Hb) & (w & Hw) & _). unfold ev, rule_eval. rewrite body_of, Hb, Hw, He.
    rewrite (narrow_target _ _ _ _ _ N Hb T). cbn [bind negb].
    rewrite (strong_condition _ _ _ _ _ _ S Hw V Tv). destruct e; reflexivity.
  Qed.
End Catch.
