(** Lemmas about edits that make a policy stricter. *)
From Coq Require Import Lia.
From Verif Require Import Eval SpecEval SpecStandard SpecMonotone SpecTighten EvalFacts EvalFacts2 AlgebraFacts StandardFacts MonotoneFacts.

(** *** Lists of outcomes *)
Section Lists.
  Context {A : Type}.
  Variable ev : A -> res decision.
  Variable harmless : A -> Prop.
  Definition fine (x : A) : Prop := ev x = Ok Permit \/ ev x = Ok NotApplicable.
  Definition keeps_down (x y : A) : Prop :=
    (ev y = Ok Permit -> ev x = Ok Permit) /\ (harmless y -> fine x).
  Definition aligned : list A -> list A -> Prop :=
    edited keeps_down fine (fun y => ev y <> Ok Permit).

  Lemma aligned_some : forall l l', aligned l l' ->
    (exists y, In y l' /\ ev y = Ok Permit) -> exists x, In x l /\ ev x = Ok Permit.
  Proof.
    induction 1 as [|x y l l' [K _] _ IH|x l l' _ _ IH|y l l' N _ IH]; intros (z & Hz & Ez).
    - destruct Hz.
    - destruct Hz as [<-|Hz]; [exists x; cbn; auto|].
      destruct IH as (w & ? & ?); [eauto|]. exists w. cbn. auto.
    - destruct IH as (w & ? & ?); [eauto|]. exists w. cbn. auto.
    - destruct Hz as [<-|Hz]; [contradiction|]. apply IH. eauto.
  Qed.
  Lemma aligned_all : forall l l', aligned l l' -> Forall harmless l' -> Forall fine l.
  Proof.
    induction 1 as [|x y l l' [_ K] _ IH|x l l' Hx _ IH|y l l' N _ IH]; intro F.
    - constructor.
    - inversion F; subst. constructor; auto.
    - constructor; auto.
    - inversion F; subst. auto.
  Qed.
  Lemma aligned_first : (forall y, ev y = Ok NotApplicable -> harmless y) -> forall l l', aligned l l' ->
    forall a' y b', l' = a' ++ y :: b' -> Forall (fun z => ev z = Ok NotApplicable) a' -> ev y = Ok Permit ->
    exists a x b, l = a ++ x :: b /\ Forall fine a /\ ev x = Ok Permit.
  Proof.
    intros Hh. induction 1 as [|x y l l' [K1 K2] _ IH|x l l' Hx _ IH|y l l' N _ IH]; intros a' z b' E F Ez.
    - destruct a'; discriminate.
    - destruct a' as [|w a']; cbn [app] in E.
      + injection E as -> ->. exists [], x, l. repeat split; auto.
      + injection E as -> ->. inversion F; subst.
        destruct (IH _ _ _ eq_refl H2 Ez) as (a & x9 & b & -> & F9 & E9).
        exists (x :: a), x9, b. repeat split; auto.
    - destruct (IH _ _ _ E F Ez) as (a & x9 & b & -> & F9 & E9).
      exists (x :: a), x9, b. repeat split; auto.
    - destruct a' as [|w a']; cbn [app] in E.
      + injection E as -> ->. contradiction.
      + injection E as -> ->. inversion F; subst. eapply IH; eauto.
  Qed.
End Lists.

(** *** What an outcome of Permit or NotApplicable says, and when it is reached *)
Definition comb_alg_dec : forall a b : comb_alg, {a = b} + {a <> b}.
Proof. decide equality. Defined.

Section Rules.
  Variable ev : rule -> res decision.
  Definition quiet (r : rule) : Prop :=
    ev r = Ok Permit \/ ev r = Ok NotApplicable \/ (ev r = Ok Indeterminate /\ rl_effect r = Some EffPermit).
  Definition silent (r : rule) : Prop := ev r = Ok NotApplicable.

  Lemma rdo_permit : forall rs a b p, rules_deny_overrides ev a b p rs = Ok Permit ->
    b = false /\ Forall quiet rs /\ (p = true \/ exists r, In r rs /\ ev r = Ok Permit).
  Proof.
    induction rs as [|r rs IH]; intros a b p H; cbn [rules_deny_overrides] in H.
    - destruct b, p, a; try discriminate; auto.
    - fold (rules_deny_overrides ev) in H. destruct (ev r) as [d|] eqn:Er; [|discriminate]. cbn [bind] in H.
      destruct d; try discriminate.
      + apply IH in H. destruct H as (B & F & _). split; [auto|]. split; [constructor; [left; auto|auto]|].
        right. exists r. cbn. auto.
      + destruct (rl_effect r) as [[]|] eqn:Ee; try discriminate; apply IH in H; destruct H as (B & F & Hp);
          [|discriminate].
        split; [auto|]. split; [constructor; [right; right; auto|auto]|].
        destruct Hp as [|(z & ? & ?)]; [auto|right; exists z; cbn; auto].
      + apply IH in H. destruct H as (B & F & Hp). split; [auto|]. split; [constructor; [right; left; auto|auto]|].
        destruct Hp as [|(z & ? & ?)]; [auto|right; exists z; cbn; auto].
  Qed.
  Lemma rdo_none : forall rs a b p, rules_deny_overrides ev a b p rs = Ok NotApplicable ->
    (a = false /\ b = false /\ p = false) /\ Forall silent rs.
  Proof.
    induction rs as [|r rs IH]; intros a b p H; cbn [rules_deny_overrides] in H.
    - destruct b, p, a; try discriminate; auto.
    - fold (rules_deny_overrides ev) in H. destruct (ev r) as [d|] eqn:Er; [|discriminate]. cbn [bind] in H.
      destruct d; try discriminate.
      + apply IH in H. destruct H as ((_ & _ & K) & _). discriminate.
      + destruct (rl_effect r) as [[]|] eqn:Ee; try discriminate; apply IH in H; destruct H as ((K & _) & _); discriminate.
      + apply IH in H. destruct H as (K & F). split; [auto|]. constructor; auto.
  Qed.
  Lemma rpo_permit : forall rs a b p, rules_permit_overrides ev a b p rs = Ok Permit ->
    exists r, In r rs /\ ev r = Ok Permit.
  Proof.
    induction rs as [|r rs IH]; intros a b p H; cbn [rules_permit_overrides] in H.
    - destruct b, p, a; discriminate.
    - fold (rules_permit_overrides ev) in H. destruct (ev r) as [d|] eqn:Er; [|discriminate]. cbn [bind] in H.
      destruct d; try (exists r; cbn; auto; fail);
        [|destruct (rl_effect r) as [[]|]; try discriminate|];
        apply IH in H; destruct H as (z & ? & ?); exists z; cbn; auto.
  Qed.
  Lemma rpo_none : forall rs a b p, rules_permit_overrides ev a b p rs = Ok NotApplicable ->
    (a = false /\ b = false /\ p = false) /\ Forall silent rs.
  Proof.
    induction rs as [|r rs IH]; intros a b p H; cbn [rules_permit_overrides] in H.
    - destruct b, p, a; try discriminate; auto.
    - fold (rules_permit_overrides ev) in H. destruct (ev r) as [d|] eqn:Er; [|discriminate]. cbn [bind] in H.
      destruct d; try discriminate.
      + apply IH in H. destruct H as ((_ & _ & K) & _). discriminate.
      + destruct (rl_effect r) as [[]|] eqn:Ee; try discriminate; apply IH in H; destruct H as ((K & _) & _); discriminate.
      + apply IH in H. destruct H as (K & F). split; [auto|]. constructor; auto.
  Qed.
  Lemma rfa_permit : forall rs, rules_first_applicable ev rs = Ok Permit ->
    exists a r b, rs = a ++ r :: b /\ Forall silent a /\ ev r = Ok Permit.
  Proof.
    induction rs as [|r rs IH]; intros H; cbn [rules_first_applicable] in H; [discriminate|].
    fold (rules_first_applicable ev) in H. destruct (ev r) as [d|] eqn:Er; [|discriminate]. cbn [bind] in H.
    destruct d; try discriminate.
    - exists [], r, rs. auto.
    - destruct (IH H) as (a & z & b & -> & F & Ez). exists (r :: a), z, b. repeat split; auto; constructor; auto.
  Qed.
  Lemma rfa_none : forall rs, rules_first_applicable ev rs = Ok NotApplicable -> Forall silent rs.
  Proof.
    induction rs as [|r rs IH]; intros H; cbn [rules_first_applicable] in H; [constructor|].
    fold (rules_first_applicable ev) in H. destruct (ev r) as [d|] eqn:Er; [|discriminate]. cbn [bind] in H.
    destruct d; try discriminate. constructor; auto.
  Qed.

  (** Towards the outcome. *)
  Definition clear (r : rule) : Prop := exists d, ev r = Ok d /\ d <> Indeterminate.
  Lemma rdo_fine : forall rs p, Forall (fine ev) rs ->
    rules_deny_overrides ev false false p rs = Ok Permit \/
    (rules_deny_overrides ev false false p rs = Ok NotApplicable /\ p = false /\ Forall silent rs).
  Proof.
    induction rs as [|r rs IH]; intros p F; cbn [rules_deny_overrides].
    - destruct p; auto.
    - fold (rules_deny_overrides ev). inversion F as [|? ? [Er|Er] F']; subst; rewrite Er; cbn [bind].
      + left. destruct (IH true F') as [|(_ & K & _)]; [auto|discriminate].
      + destruct (IH p F') as [|(K & K2 & K3)]; [auto|]. right. repeat split; auto; constructor; auto.
  Qed.
  Lemma rpo_fine : forall rs, Forall (fine ev) rs ->
    rules_permit_overrides ev false false false rs = Ok Permit \/
    (rules_permit_overrides ev false false false rs = Ok NotApplicable /\ Forall silent rs).
  Proof.
    induction rs as [|r rs IH]; intros F; cbn [rules_permit_overrides].
    - auto.
    - fold (rules_permit_overrides ev). inversion F as [|? ? [Er|Er] F']; subst; rewrite Er; cbn [bind]; auto.
      destruct (IH F') as [|(K & K2)]; [auto|]. right. split; auto; constructor; auto.
  Qed.
  Lemma rfa_fine : forall rs, Forall (fine ev) rs ->
    rules_first_applicable ev rs = Ok Permit \/
    (rules_first_applicable ev rs = Ok NotApplicable /\ Forall silent rs).
  Proof.
    induction rs as [|r rs IH]; intros F; cbn [rules_first_applicable].
    - auto.
    - fold (rules_first_applicable ev). inversion F as [|? ? [Er|Er] F']; subst; rewrite Er; cbn [bind]; auto.
      destruct (IH F') as [|(K & K2)]; [auto|]. right. split; auto; constructor; auto.
  Qed.
  Lemma rules_fine : forall alg rs, Forall (fine ev) rs ->
    combine_rules alg ev rs = Ok Permit \/ (combine_rules alg ev rs = Ok NotApplicable /\ Forall silent rs).
  Proof.
    intros [] rs F; cbn [combine_rules].
    - destruct (rdo_fine rs false F) as [|(K & _ & K2)]; auto.
    - apply rpo_fine; auto.
    - apply rfa_fine; auto.
  Qed.
  Lemma rfa_reach : forall a r b, Forall (fine ev) a -> ev r = Ok Permit ->
    rules_first_applicable ev (a ++ r :: b) = Ok Permit.
  Proof.
    induction a as [|x a IH]; intros r b F E; cbn [app rules_first_applicable]; fold (rules_first_applicable ev).
    - rewrite E. reflexivity.
    - inversion F as [|? ? [Er|Er] F']; subst; rewrite Er; cbn [bind]; auto.
  Qed.
  Lemma rpo_reach : forall rs a b p, Forall clear rs -> (exists r, In r rs /\ ev r = Ok Permit) ->
    rules_permit_overrides ev a b p rs = Ok Permit.
  Proof.
    induction rs as [|r rs IH]; intros a b p F (z & Hz & Ez); [destruct Hz|].
    cbn [rules_permit_overrides]; fold (rules_permit_overrides ev).
    inversion F as [|? ? (d & Ed & N) F']; subst. rewrite Ed. cbn [bind].
    destruct d; [reflexivity| |congruence|]; (destruct Hz as [->|Hz]; [congruence|apply IH; eauto]).
  Qed.

  Lemma rules_tight : forall alg alg' rs rs', stricter alg alg' -> Forall clear rs ->
    aligned ev quiet rs rs' ->
    (combine_rules alg' ev rs' = Ok Permit -> combine_rules alg ev rs = Ok Permit) /\
    (combine_rules alg' ev rs' = Ok NotApplicable ->
       combine_rules alg ev rs = Ok Permit \/ combine_rules alg ev rs = Ok NotApplicable).
  Proof.
    intros alg alg' rs rs' St Cl Al. split; intro H.
    - assert (S1 : exists r, In r rs' /\ ev r = Ok Permit).
      { destruct alg'; cbn [combine_rules] in H.
        - destruct (rdo_permit _ _ _ _ H) as (_ & _ & [?|?]); [discriminate|auto].
        - exact (rpo_permit _ _ _ _ H).
        - destruct (rfa_permit _ H) as (a & r & b & -> & _ & E). exists r. split; [apply in_elt|auto]. }
      pose proof (aligned_some _ _ _ _ Al S1) as S2.
      destruct (comb_alg_dec alg PermitOverrides) as [->|N1].
      { apply rpo_reach; auto. }
      destruct alg'; cbn [combine_rules] in H.
      + destruct (rdo_permit _ _ _ _ H) as (_ & F & _).
        pose proof (aligned_all _ _ _ _ Al F) as F2.
        destruct (rules_fine alg rs F2) as [|(_ & K)]; [auto|].
        destruct S2 as (z & Hz & Ez). rewrite Forall_forall in K. specialize (K z Hz). unfold silent in K. congruence.
      + destruct St as [<-|[->|K]]; congruence.
      + destruct St as [<-|[->|K]]; try congruence.
        destruct (rfa_permit _ H) as (a' & y & b' & Eq & F & Ey).
        destruct (aligned_first ev quiet ltac:(intros ? ?; right; left; auto) _ _ Al _ _ _ Eq F Ey)
          as (a & x & b & -> & Fa & Ex).
        apply rfa_reach; auto.
    - assert (F : Forall silent rs').
      { destruct alg'; cbn [combine_rules] in H.
        - exact (proj2 (rdo_none _ _ _ _ H)).
        - exact (proj2 (rpo_none _ _ _ _ H)).
        - exact (rfa_none _ H). }
      assert (F2 : Forall quiet rs') by (eapply Forall_impl; [|exact F]; intros z Hz; right; left; exact Hz).
      destruct (rules_fine alg rs (aligned_all _ _ _ _ Al F2)) as [|(K & _)]; auto.
  Qed.
End Rules.

Section Policies.
  Variable ev : policybase -> res decision.
  Definition still (p : policybase) : Prop := ev p = Ok NotApplicable.

  Lemma pdo_permit : forall ps p, policies_deny_overrides ev p ps = Ok Permit ->
    Forall (fine ev) ps /\ (p = true \/ exists r, In r ps /\ ev r = Ok Permit).
  Proof.
    induction ps as [|q ps IH]; intros p H; cbn [policies_deny_overrides] in H.
    - destruct p; [auto|discriminate].
    - fold (policies_deny_overrides ev) in H. destruct (ev q) as [d|] eqn:Er; [|discriminate]. cbn [bind] in H.
      destruct d; try discriminate; apply IH in H; destruct H as (F & Hp).
      + split; [constructor; [left; auto|auto]|]. right. exists q. cbn. auto.
      + split; [constructor; [right; auto|auto]|].
        destruct Hp as [|(z & ? & ?)]; [auto|right; exists z; cbn; auto].
  Qed.
  Lemma pdo_none : forall ps p, policies_deny_overrides ev p ps = Ok NotApplicable ->
    p = false /\ Forall still ps.
  Proof.
    induction ps as [|q ps IH]; intros p H; cbn [policies_deny_overrides] in H.
    - destruct p; [discriminate|auto].
    - fold (policies_deny_overrides ev) in H. destruct (ev q) as [d|] eqn:Er; [|discriminate]. cbn [bind] in H.
      destruct d; try discriminate; apply IH in H; destruct H as (K & F); [discriminate|].
      split; [auto|constructor; auto].
  Qed.
  Lemma ppo_permit : forall ps a b, policies_permit_overrides ev a b ps = Ok Permit ->
    exists r, In r ps /\ ev r = Ok Permit.
  Proof.
    induction ps as [|q ps IH]; intros a b H; cbn [policies_permit_overrides] in H.
    - destruct b, a; discriminate.
    - fold (policies_permit_overrides ev) in H. destruct (ev q) as [d|] eqn:Er; [|discriminate]. cbn [bind] in H.
      destruct d; try (exists q; cbn; auto; fail);
        apply IH in H; destruct H as (z & ? & ?); exists z; cbn; auto.
  Qed.
  Lemma ppo_none : forall ps a b, policies_permit_overrides ev a b ps = Ok NotApplicable ->
    (a = false /\ b = false) /\ Forall still ps.
  Proof.
    induction ps as [|q ps IH]; intros a b H; cbn [policies_permit_overrides] in H.
    - destruct b, a; try discriminate; auto.
    - fold (policies_permit_overrides ev) in H. destruct (ev q) as [d|] eqn:Er; [|discriminate]. cbn [bind] in H.
      destruct d; try discriminate; apply IH in H; destruct H as ((K1 & K2) & F); try discriminate.
      split; [auto|constructor; auto].
  Qed.
  Lemma pfa_permit : forall ps, policies_first_applicable ev ps = Ok Permit ->
    exists a r b, ps = a ++ r :: b /\ Forall still a /\ ev r = Ok Permit.
  Proof.
    induction ps as [|r ps IH]; intros H; cbn [policies_first_applicable] in H; [discriminate|].
    fold (policies_first_applicable ev) in H. destruct (ev r) as [d|] eqn:Er; [|discriminate]. cbn [bind] in H.
    destruct d; try discriminate.
    - exists [], r, ps. auto.
    - destruct (IH H) as (a & z & b & -> & F & Ez). exists (r :: a), z, b. repeat split; auto; constructor; auto.
  Qed.
  Lemma pfa_none : forall ps, policies_first_applicable ev ps = Ok NotApplicable -> Forall still ps.
  Proof.
    induction ps as [|r ps IH]; intros H; cbn [policies_first_applicable] in H; [constructor|].
    fold (policies_first_applicable ev) in H. destruct (ev r) as [d|] eqn:Er; [|discriminate]. cbn [bind] in H.
    destruct d; try discriminate. constructor; auto.
  Qed.

  Definition plain (p : policybase) : Prop := exists d, ev p = Ok d /\ d <> Indeterminate.
  Lemma pdo_fine : forall ps p, Forall (fine ev) ps ->
    policies_deny_overrides ev p ps = Ok Permit \/
    (policies_deny_overrides ev p ps = Ok NotApplicable /\ p = false /\ Forall still ps).
  Proof.
    induction ps as [|r ps IH]; intros p F; cbn [policies_deny_overrides].
    - destruct p; auto.
    - fold (policies_deny_overrides ev). inversion F as [|? ? [Er|Er] F']; subst; rewrite Er; cbn [bind].
      + left. destruct (IH true F') as [|(_ & K & _)]; [auto|discriminate].
      + destruct (IH p F') as [|(K & K2 & K3)]; [auto|]. right. repeat split; auto; constructor; auto.
  Qed.
  Lemma ppo_fine : forall ps, Forall (fine ev) ps ->
    policies_permit_overrides ev false false ps = Ok Permit \/
    (policies_permit_overrides ev false false ps = Ok NotApplicable /\ Forall still ps).
  Proof.
    induction ps as [|r ps IH]; intros F; cbn [policies_permit_overrides].
    - auto.
    - fold (policies_permit_overrides ev). inversion F as [|? ? [Er|Er] F']; subst; rewrite Er; cbn [bind]; auto.
      destruct (IH F') as [|(K & K2)]; [auto|]. right. split; auto; constructor; auto.
  Qed.
  Lemma pfa_fine : forall ps, Forall (fine ev) ps ->
    policies_first_applicable ev ps = Ok Permit \/
    (policies_first_applicable ev ps = Ok NotApplicable /\ Forall still ps).
  Proof.
    induction ps as [|r ps IH]; intros F; cbn [policies_first_applicable].
    - auto.
    - fold (policies_first_applicable ev). inversion F as [|? ? [Er|Er] F']; subst; rewrite Er; cbn [bind]; auto.
      destruct (IH F') as [|(K & K2)]; [auto|]. right. split; auto; constructor; auto.
  Qed.
  Lemma policies_fine : forall alg ps, Forall (fine ev) ps ->
    combine_policies alg ev ps = Ok Permit \/ (combine_policies alg ev ps = Ok NotApplicable /\ Forall still ps).
  Proof.
    intros [] ps F; cbn [combine_policies].
    - destruct (pdo_fine ps false F) as [|(K & _ & K2)]; auto.
    - apply ppo_fine; auto.
    - apply pfa_fine; auto.
  Qed.
  Lemma pfa_reach : forall a r b, Forall (fine ev) a -> ev r = Ok Permit ->
    policies_first_applicable ev (a ++ r :: b) = Ok Permit.
  Proof.
    induction a as [|x a IH]; intros r b F E; cbn [app policies_first_applicable]; fold (policies_first_applicable ev).
    - rewrite E. reflexivity.
    - inversion F as [|? ? [Er|Er] F']; subst; rewrite Er; cbn [bind]; auto.
  Qed.
  Lemma ppo_reach : forall ps a b, Forall plain ps -> (exists r, In r ps /\ ev r = Ok Permit) ->
    policies_permit_overrides ev a b ps = Ok Permit.
  Proof.
    induction ps as [|r ps IH]; intros a b F (z & Hz & Ez); [destruct Hz|].
    cbn [policies_permit_overrides]; fold (policies_permit_overrides ev).
    inversion F as [|? ? (d & Ed & N) F']; subst. rewrite Ed. cbn [bind].
    destruct d; [reflexivity| |congruence|]; (destruct Hz as [->|Hz]; [congruence|apply IH; eauto]).
  Qed.

  Lemma policies_tight : forall alg alg' ps ps', stricter alg alg' -> Forall plain ps ->
    aligned ev (fine ev) ps ps' ->
    (combine_policies alg' ev ps' = Ok Permit -> combine_policies alg ev ps = Ok Permit) /\
    (combine_policies alg' ev ps' = Ok NotApplicable ->
       combine_policies alg ev ps = Ok Permit \/ combine_policies alg ev ps = Ok NotApplicable).
  Proof.
    intros alg alg' ps ps' St Cl Al. split; intro H.
    - assert (S1 : exists r, In r ps' /\ ev r = Ok Permit).
      { destruct alg'; cbn [combine_policies] in H.
        - destruct (pdo_permit _ _ H) as (_ & [?|?]); [discriminate|auto].
        - exact (ppo_permit _ _ _ H).
        - destruct (pfa_permit _ H) as (a & r & b & -> & _ & E). exists r. split; [apply in_elt|auto]. }
      pose proof (aligned_some _ _ _ _ Al S1) as S2.
      destruct (comb_alg_dec alg PermitOverrides) as [->|N1].
      { apply ppo_reach; auto. }
      destruct alg'; cbn [combine_policies] in H.
      + destruct (pdo_permit _ _ H) as (F & _).
        pose proof (aligned_all _ _ _ _ Al F) as F2.
        destruct (policies_fine alg ps F2) as [|(_ & K)]; [auto|].
        destruct S2 as (z & Hz & Ez). rewrite Forall_forall in K. specialize (K z Hz). unfold still in K. congruence.
      + destruct St as [<-|[->|K]]; congruence.
      + destruct St as [<-|[->|K]]; try congruence.
        destruct (pfa_permit _ H) as (a' & y & b' & Eq & F & Ey).
        destruct (aligned_first ev (fine ev) ltac:(intros ? ?; right; auto) _ _ Al _ _ _ Eq F Ey)
          as (a & x & b & -> & Fa & Ex).
        apply pfa_reach; auto.
    - assert (F : Forall still ps').
      { destruct alg'; cbn [combine_policies] in H.
        - exact (proj2 (pdo_none _ _ H)).
        - exact (proj2 (ppo_none _ _ _ H)).
        - exact (pfa_none _ H). }
      assert (F2 : Forall (fine ev) ps') by (eapply Forall_impl; [|exact F]; intros z Hz; right; exact Hz).
      destruct (policies_fine alg ps (aligned_all _ _ _ _ Al F2)) as [|(K & _)]; auto.
  Qed.
End Policies.

(** *** Edited lists *)
Lemma edited_impl : forall A (K K' : A -> A -> Prop) (R R' S S' : A -> Prop) l l', edited K R S l l' ->
  (forall x y, In x l -> K x y -> K' x y) -> (forall x, In x l -> R x -> R' x) -> (forall y, S y -> S' y) ->
  edited K' R' S' l l'.
Proof.
  induction 1 as [|x y l l' Hk _ IH|x l l' Hr _ IH|y l l' Hs _ IH]; intros HK HR HS.
  - constructor.
  - constructor; [apply HK; cbn; auto|]. apply IH; auto; intros; [apply HK|apply HR]; cbn; auto.
  - constructor; [apply HR; cbn; auto|]. apply IH; auto; intros; [apply HK|apply HR]; cbn; auto.
  - constructor; auto.
Qed.

(** *** Targets and conditions *)
Lemma section_loop_inv : forall E c l st b, section_loop E c st l = Ok b ->
  (forall ch, In ch l -> exists b', match_child E c ch = Ok b') /\
  (b = true <-> st = true \/ exists ch, In ch l /\ match_child E c ch = Ok true).
Proof.
  intros E c. induction l as [|ch l IH]; intros st b H; cbn [section_loop] in H.
  - injection H as <-. split; [intros ? []|]. split; [auto|]. intros [|(? & [] & _)]; auto.
  - apply bind_ok in H. destruct H as (b0 & H0 & H). destruct (IH _ _ H) as (F & B). split.
    + intros x [<-|Hx]; [eauto|auto].
    + rewrite B. destruct b0.
      * split; [intros _; right; exists ch; cbn; auto|auto].
      * split; [intros [?|(x & ? & ?)]; [auto|right; exists x; cbn; auto]|].
        intros [?|(x & [<-|Hx] & Ex)]; [auto|congruence|right; eauto].
Qed.
Lemma match_child_inv : forall E c ch b, match_child E c ch = Ok b ->
  (forall m, In m ch -> exists b', eval_match E c m = Ok b') /\
  (b = true <-> forall m, In m ch -> eval_match E c m = Ok true).
Proof.
  intros E c ch b H. apply bind_ok in H. destruct H as (bs & H0 & H). injection H as <-.
  apply mapM_ok in H0. split.
  - intros m Hm. destruct (Forall2_In_l _ _ _ _ _ _ H0 Hm) as (b' & _ & K). eauto.
  - rewrite forallb_forall. split.
    + intros F m Hm. destruct (Forall2_In_l _ _ _ _ _ _ H0 Hm) as (b' & Hb & K). rewrite K. f_equal. auto.
    + intros F b Hb. destruct (Forall2_In_r _ _ _ _ _ _ H0 Hb) as (m & Hm & K). specialize (F m Hm). congruence.
Qed.
Lemma match_section_inv : forall E c l b, match_section E c l = Ok b ->
  (b = true <-> l = [] \/ exists ch, In ch l /\ match_child E c ch = Ok true) /\
  (forall ch, In ch l -> exists b', match_child E c ch = Ok b').
Proof.
  intros E c [|ch l] b H; unfold match_section in H.
  - injection H as <-. split; [split; auto|intros ? []].
  - destruct (section_loop_inv _ _ _ _ _ H) as (F & B). split; [|exact F]. rewrite B.
    split; [intros [|]; [discriminate|auto]|]. intros [|]; [discriminate|auto].
Qed.

Section Edits.
  Variables (E : env) (c : context).
  Definition target_of (t : option target) : res bool :=
    match t with Some t => target_match E c t | None => Ok true end.
  Definition status_of (x : option (option expr)) : res pyval :=
    match x with Some cond => eval_condition E c cond | None => Ok (py_bool true) end.

  Lemma narrow_section : forall s s' b, narrower_section s s' ->
    match_section E c s = Ok b -> match_section E c s' = Ok true -> b = true.
  Proof.
    intros s s' b [->|(N & H)] H1 H2.
    - cbn in H1. congruence.
    - destruct (match_section_inv _ _ _ _ H1) as (B1 & F1). destruct (match_section_inv _ _ _ _ H2) as (B2 & _).
      destruct (proj1 B2 eq_refl) as [->|(ch' & Hi & Hc)]; [congruence|].
      destruct (H ch' Hi) as (ch & Hj & Inc). apply B1. right. exists ch. split; [auto|].
      destruct (F1 ch Hj) as (b1 & Hb). destruct (match_child_inv _ _ _ _ Hb) as (_ & B3).
      destruct (match_child_inv _ _ _ _ Hc) as (_ & B4). rewrite Hb. f_equal. apply B3.
      intros m Hm. apply (proj1 B4 eq_refl). auto.
  Qed.
  Lemma target_match_inv : forall t b, target_match E c t = Ok b -> exists b1 b2 b3 b4,
    match_section E c (tg_subjects t) = Ok b1 /\ match_section E c (tg_resources t) = Ok b2 /\
    match_section E c (tg_actions t) = Ok b3 /\ match_section E c (tg_environments t) = Ok b4 /\
    (b = true <-> b1 = true /\ b2 = true /\ b3 = true /\ b4 = true).
  Proof.
    intros t b H. apply bind_ok in H. destruct H as (bs & H0 & H). injection H as <-.
    apply mapM_ok in H0. inversion H0 as [|? b1 ? ? K1 H1]; subst. inversion H1 as [|? b2 ? ? K2 H2]; subst.
    inversion H2 as [|? b3 ? ? K3 H3]; subst. inversion H3 as [|? b4 ? ? K4 H4]; subst. inversion H4; subst.
    exists b1, b2, b3, b4. repeat (split; [assumption|]).
    cbn. destruct b1, b2, b3, b4; cbn; intuition congruence.
  Qed.
  Lemma narrow_target : forall t t' b, narrower_target t t' ->
    target_of t = Ok b -> target_of t' = Ok true -> b = true.
  Proof.
    intros [t|] [t'|] b H H1 H2; cbn [narrower_target target_of] in *; try (destruct H; fail); try congruence.
    destruct H as (N1 & N2 & N3 & N4).
    destruct (target_match_inv _ _ H1) as (a1 & a2 & a3 & a4 & A1 & A2 & A3 & A4 & A).
    destruct (target_match_inv _ _ H2) as (b1 & b2 & b3 & b4 & B1 & B2 & B3 & B4 & B).
    destruct (proj1 B eq_refl) as (-> & -> & -> & ->).
    apply A. repeat split;
      [exact (narrow_section _ _ _ N1 A1 B1)|exact (narrow_section _ _ _ N2 A2 B2)|
       exact (narrow_section _ _ _ N3 A3 B3)|exact (narrow_section _ _ _ N4 A4 B4)].
  Qed.
  Lemma and_true : forall args bs, and_check args = Ok bs -> and_scan bs = true ->
    forall v, In v args -> truthy v = true.
  Proof.
    induction args as [|a args IH]; intros bs H S v Hv; [destruct Hv|]. cbn [and_check] in H.
    destruct (as_bool a) as [b|] eqn:Ea; [|discriminate]. apply bind_ok in H. destruct H as (bs' & H & K).
    injection K as <-. cbn [and_scan] in S. destruct b; cbn [negb] in S; [|discriminate].
    destruct Hv as [<-|Hv]; [|eauto].
    destruct a as [n| | |]; try discriminate. destruct n; try discriminate. cbn in Ea. injection Ea as ->. reflexivity.
  Qed.
  Lemma strong_condition : forall x x' v v', stronger_condition x x' ->
    status_of x = Ok v -> status_of x' = Ok v' -> truthy v' = true -> truthy v = true.
  Proof.
    intros x x' v v' [->|[->|(y & id & args & -> & Hi & ->)]] H1 H2 T.
    - cbn in H1. injection H1 as <-. reflexivity.
    - congruence.
    - cbn [status_of eval_condition] in H1, H2. cbn [eval_expr] in H2. apply bind_ok in H2.
      destruct H2 as (vs & Hm & H2). apply mapM_ok in Hm.
      destruct (Forall2_In_l _ _ _ _ _ _ Hm Hi) as (w & Hw & Ew). assert (w = v) as -> by congruence.
      cbn [fn_eval] in H2. unfold and_eval in H2. destruct vs as [|v0 vs]; [destruct Hw|].
      apply bind_ok in H2. destruct H2 as (bs & Hb & H2). injection H2 as <-.
      apply (and_true _ _ Hb); auto.
  Qed.

  (** *** Rules *)
  Definition good_rule (r : rule) : Prop :=
    (exists b, target_of (rl_target r) = Ok b) /\ (exists v, status_of (rl_condition r) = Ok v) /\
    rl_effect r <> None.
  Lemma body_of : forall r, rule_body E c r =
    let* t := target_of (rl_target r) in
    if negb t then Ok NotApplicable
    else let* s := status_of (rl_condition r) in
         if truthy s then match rl_effect r with Some e => Ok (decision_of_effect e) | None => Raise EAttributeError end
         else Ok NotApplicable.
  Proof. reflexivity. Qed.
  Lemma rule_applied : forall r d, rule_eval E c r = Ok d -> d <> NotApplicable -> d <> Indeterminate ->
    target_of (rl_target r) = Ok true /\ (exists v, status_of (rl_condition r) = Ok v /\ truthy v = true) /\
    exists e, rl_effect r = Some e /\ d = decision_of_effect e.
  Proof.
    intros r d H N1 N2. unfold rule_eval in H. rewrite body_of in H.
    destruct (target_of (rl_target r)) as [[]|e]; cbn [bind negb] in H.
    - destruct (status_of (rl_condition r)) as [v|e]; cbn [bind] in H.
      + destruct (truthy v) eqn:T; cbn in H; [|congruence].
        destruct (rl_effect r) as [e|]; cbn in H; [|congruence].
        split; [auto|]. split; [eauto|]. exists e. split; [auto|congruence].
      + cbn in H. destruct (is_exception e); congruence.
    - cbn in H. congruence.
    - cbn in H. destruct (is_exception e); congruence.
  Qed.
  Lemma rule_skipped : forall r, rule_eval E c r = Ok NotApplicable ->
    target_of (rl_target r) = Ok false \/
    (exists v, status_of (rl_condition r) = Ok v /\ truthy v = false).
  Proof.
    intros r H. unfold rule_eval in H. rewrite body_of in H.
    destruct (target_of (rl_target r)) as [[]|e]; cbn [bind negb] in H; auto.
    - right. destruct (status_of (rl_condition r)) as [v|e]; cbn [bind] in H.
      + exists v. split; [auto|]. destruct (truthy v); [|auto].
        destruct (rl_effect r) as [[]|]; cbn in H; discriminate.
      + cbn in H. destruct (is_exception e); discriminate.
    - cbn in H. destruct (is_exception e); discriminate.
  Qed.
  Lemma good_eval : forall r e, good_rule r -> rl_effect r = Some e ->
    rule_eval E c r = Ok NotApplicable \/
    (rule_eval E c r = Ok (decision_of_effect e) /\
     target_of (rl_target r) = Ok true /\ exists v, status_of (rl_condition r) = Ok v /\ truthy v = true).
  Proof.
    intros r e ((b & Hb) & (v & Hv) & _) He. unfold rule_eval. rewrite body_of, Hb, Hv, He. cbn [bind].
    destruct b; cbn [negb]; [|auto]. destruct (truthy v) eqn:T; [|auto]. right. repeat split; eauto.
  Qed.
  Lemma rule_tight : forall r r', good_rule r -> tighter_rule r r' ->
    keeps_down (rule_eval E c) (quiet (rule_eval E c)) r r'.
  Proof.
    intros r r' G [E1 E2 N S|E1 E2 N S]; split.
    - intro H. destruct (rule_applied _ _ H) as (T & (v' & V' & Tv) & _); [discriminate|discriminate|].
      pose proof G as ((b & Hb) & (v & Hv) & _). unfold rule_eval. rewrite body_of, Hb, Hv, E1.
      rewrite (narrow_target _ _ _ N Hb T). cbn [bind negb].
      rewrite (strong_condition _ _ _ _ S Hv V' Tv). reflexivity.
    - intros _. destruct (good_eval _ _ G E1) as [|(K & _)]; [right; auto|left; auto].
    - intro H. destruct (rule_applied _ _ H) as (_ & _ & e & K1 & K2); [discriminate|discriminate|].
      rewrite E2 in K1. injection K1 as <-. discriminate.
    - intros [H|[H|(_ & H)]]; [| |congruence].
      + destruct (rule_applied _ _ H) as (_ & _ & e & K1 & K2); [discriminate|discriminate|].
        rewrite E2 in K1. injection K1 as <-. discriminate.
      + destruct (good_eval _ _ G E1) as [|(_ & T & v & V & Tv)]; [right; auto|exfalso].
        destruct (rule_skipped _ H) as [F|(v' & V' & F)].
        * pose proof (narrow_target _ _ _ N F T). discriminate.
        * pose proof (strong_condition _ _ _ _ S V' V Tv). congruence.
  Qed.

  (** *** Policies *)
  Lemma clean_target : forall p t, without_errors E c p -> In t (own_targets p) ->
    exists b, target_match E c t = Ok b.
  Proof.
    intros p t (Hm & _) Ht. apply sound_target. intros m Hi. apply Hm. left. eauto.
  Qed.
  Lemma clean_rule : forall m t a rules r, without_errors E c (PPolicy m t a rules) -> In r rules -> good_rule r.
  Proof.
    intros m t a rules r (Hm & Hc & Hr & _) Hi. destruct (Hr r Hi) as (N1 & N2). repeat split; auto.
    - destruct (rl_target r) as [t'|] eqn:Et; [|cbn; eauto]. apply sound_target. intros me Hme. apply Hm.
      right. exists r, t'. auto.
    - destruct (rl_condition r) as [[x|]|] eqn:Ex; [|congruence|cbn; eauto].
      destruct (Hc x) as (b & Hb); [exists r; auto|]. exists (PNat (NBool b)). exact Hb.
  Qed.
  Lemma denying_only : forall p, only EffDeny p -> policy_eval E c p <> Ok Permit.
  Proof.
    intros p Ho H. apply permit_has_reason in H.
    revert Ho. induction H as [m t alg rules r _ Hi (He & _)|m t alg ps q _ Hi _ IH]; intro Ho.
    - specialize (Ho r Hi). congruence.
    - apply IH. intros r Hr. apply Ho. cbn. apply in_flat_map. eauto.
  Qed.
  Lemma granting_only : forall p, without_errors E c p -> only EffPermit p -> fine (policy_eval E c) p.
  Proof.
    intros p Hw Ho. destruct (clean_exact E c p Hw) as (H & _). unfold fine. rewrite H.
    destruct (clean_ranged E c EffPermit p Hw Ho) as [-> | ->]; auto.
  Qed.
  Definition no_grant (o o' : res decision) : Prop :=
    (o' = Ok Permit -> o = Ok Permit) /\
    (o' = Ok NotApplicable -> o = Ok Permit \/ o = Ok NotApplicable).
  Lemma targets_tight : forall p p' t t' k k',
    retargeted p p' t t' -> (forall t0, t = Some t0 -> exists b, target_match E c t0 = Ok b) ->
    policy_eval E c p = catch_exception (with_target E c t k) ->
    policy_eval E c p' = catch_exception (with_target E c t' k') ->
    without_errors E c p -> no_grant k k' -> no_grant (policy_eval E c p) (policy_eval E c p').
  Proof.
    intros p p' t t' k k' Ht Hb Ep Ep' Hw (K1 & K2).
    assert (B : exists b, target_of t = Ok b) by (destruct t; cbn; eauto). destruct B as (b & B).
    assert (Ev : forall t k, with_target E c t k = let* b := target_of t in if negb b then Ok NotApplicable else k) by reflexivity.
    destruct Ht as [->|[(Ho & N)|(Ho & N)]].
    - rewrite Ep, Ep', !Ev, B. cbn [bind]. destruct b; cbn [negb].
      + split.
        * intro H. destruct k' as [d|e]; cbn in H; [|destruct (is_exception e); discriminate].
          injection H as ->. rewrite (K1 eq_refl). reflexivity.
        * intro H. destruct k' as [d|e]; cbn in H; [|destruct (is_exception e); discriminate].
          injection H as ->. destruct (K2 eq_refl) as [-> | ->]; auto.
      + split; [discriminate|auto].
    - destruct (granting_only _ Hw Ho) as [F|F]; rewrite F; (split; [|auto]); [auto|].
      intro H. rewrite Ep', Ev in H. destruct (target_of t') as [[]|e] eqn:T'; cbn [bind negb] in H.
      + pose proof (narrow_target _ _ _ N B T') as ->.
        destruct k' as [d|e]; cbn in H; [|destruct (is_exception e); discriminate].
        injection H as ->. rewrite Ep, Ev, B, (K1 eq_refl) in F. discriminate.
      + discriminate.
      + cbn in H. destruct (is_exception e); discriminate.
    - split; [intro H; exfalso; exact (denying_only _ Ho H)|]. intro H. rewrite Ep, Ev, B. cbn [bind].
      destruct b; cbn [negb]; [|auto].
      rewrite Ep', Ev in H. destruct (target_of t') as [[]|e] eqn:T'; cbn [bind negb] in H.
      + destruct k' as [d|e]; cbn in H; [|destruct (is_exception e); discriminate].
        injection H as ->. destruct (K2 eq_refl) as [-> | ->]; auto.
      + pose proof (narrow_target _ _ _ N T' B). discriminate.
      + cbn in H. destruct (is_exception e); discriminate.
  Qed.
  Lemma tight : forall p p', tightened p p' -> without_errors E c p ->
    no_grant (policy_eval E c p) (policy_eval E c p').
  Proof.
    induction p as [m t alg rules|m t alg ps IH] using policybase_ind'; intros p' H Hw.
    - inversion H as [m0 m' t0 t' a a' rs rs' Ht St Ed|]; subst.
      assert (Hb : forall t0, t = Some t0 -> exists b, target_match E c t0 = Ok b).
      { intros t0 ->. apply (clean_target _ t0 Hw). cbn. auto. }
      refine (targets_tight _ _ t t' _ _ Ht Hb eq_refl eq_refl Hw _).
      apply rules_tight; [exact St| |].
      + apply Forall_forall. intros r Hr. pose proof (clean_rule _ _ _ _ _ Hw Hr) as G.
        destruct (rl_effect r) as [e|] eqn:He; [|exfalso; apply (proj2 (proj2 G)); exact He].
        destruct (good_eval _ _ G He) as [K|(K & _)]; rewrite K || idtac; unfold clear; rewrite K;
          eexists; (split; [reflexivity|]); [discriminate|destruct e; discriminate].
      + eapply edited_impl; [exact Ed| | |].
        * intros r r' Hr. apply rule_tight. eapply clean_rule; eauto.
        * intros r Hr He. destruct (good_eval r _ (clean_rule _ _ _ _ _ Hw Hr) He) as [|(K & _)];
            [right; auto|left; auto].
        * intros r He K. destruct (rule_applied _ _ K) as (_ & _ & e & K1 & K2); [discriminate|discriminate|].
          rewrite He in K1. injection K1 as <-. discriminate.
    - inversion H as [|m0 m' t0 t' a a' qs ps' Ht St Ed]; subst.
      assert (Hb : forall t0, t = Some t0 -> exists b, target_match E c t0 = Ok b).
      { intros t0 ->. apply (clean_target _ t0 Hw). cbn. auto. }
      refine (targets_tight _ _ t t' _ _ Ht Hb eq_refl eq_refl Hw _).
      rewrite Forall_forall in IH.
      apply policies_tight; [exact St| |].
      + apply Forall_forall. intros q Hq. apply clean_decides. eapply clean_set; eauto.
      + eapply edited_impl; [exact Ed| | |].
        * intros q q' Hq Hqq. pose proof (clean_set _ _ _ _ _ _ _ Hw Hq) as Cq.
          destruct (IH q Hq q' Hqq Cq) as (K1 & K2). split; [exact K1|].
          intros [F|F]; [left; auto|]. destruct (K2 F); [left|right]; auto.
        * intros q Hq Ho. apply granting_only; [eapply clean_set; eauto|exact Ho].
        * intros q Ho. apply denying_only, Ho.
  Qed.
End Edits.

(** *** A policy left as it is *)
Lemma narrower_same : forall t, narrower_target t t.
Proof.
  assert (S : forall s, narrower_section s s).
  { intros [|a s]; [left; reflexivity|right]. split; [discriminate|]. intros x Hx. exists x. split; [exact Hx|apply incl_refl]. }
  intros [t|]; cbn; auto.
Qed.
Lemma edited_same : forall A (K : A -> A -> Prop) R S l, (forall x, In x l -> K x x) -> edited K R S l l.
Proof. induction l as [|x l IH]; intro H; constructor; [apply H; cbn; auto|apply IH; intros; apply H; cbn; auto]. Qed.
Lemma tight_same : forall E c p, without_errors E c p -> tightened p p.
Proof.
  intros E c. induction p as [m t [a|] rules|m t [a|] ps IH] using policybase_ind'; intro Hw;
    try (exfalso; apply (proj2 (proj2 (proj2 Hw))); left; reflexivity);
    constructor; try (left; reflexivity); apply edited_same.
  - intros r Hr. destruct (proj1 (proj2 (proj2 Hw)) r Hr) as (N & _).
    destruct (rl_effect r) as [[]|] eqn:Er; [apply TPermits|apply TDenies|congruence]; auto using narrower_same;
      right; left; reflexivity.
  - intros p Hp. rewrite Forall_forall in IH. apply IH; auto. eapply clean_set; eauto.
Qed.
