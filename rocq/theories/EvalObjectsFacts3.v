(** The recursion limit. *)
From Verif Require Import SpecEvalObjects EvalFacts.
Require Import Lia.
Local Open Scope string_scope.

Section Limit.
Variable O : oenv.
Variable h : heap.
Variable c : pval.

(** The second outcome is the first, or the first is RecursionError. *)
Definition or_limit {A} (x y : res A) : Prop := x = y \/ x = Raise ERecursionError.

Lemma or_limit_bind : forall A B (x y : res A) (f g : A -> res B),
  or_limit x y -> (forall a, or_limit (f a) (g a)) -> or_limit (bind x f) (bind y g).
Proof.
  intros A B x y f g [<-| ->] H; [|right; reflexivity]. destruct x; [apply H | left; reflexivity].
Qed.
Lemma or_limit_mapM : forall A B (f g : A -> res B) l,
  (forall x, or_limit (f x) (g x)) -> or_limit (mapM f l) (mapM g l).
Proof.
  intros A B f g l H. induction l as [|x l IH]; [left; reflexivity|]. cbn.
  apply or_limit_bind; [apply H|]. intro y. apply or_limit_bind; [exact IH|]. intro ys. left; reflexivity.
Qed.

Lemma expr_limit : forall n m v, n <= m -> or_limit (o_eval_expr O h n c v) (o_eval_expr O h m c v).
Proof.
  induction n as [|n IH]; intros m v L.
  - destruct v; try (left; destruct m; reflexivity). right; reflexivity.
  - destruct m as [|m]; [lia|]. destruct v as [| a | | | | |]; try (left; reflexivity). cbn [o_eval_expr].
    destruct (nth_error h a) as [[cl attrs| | |]|]; try (left; reflexivity). destruct cl; try (left; reflexivity).
    apply or_limit_bind; [left; reflexivity|]. intro l. apply or_limit_bind; [left; reflexivity|]. intro its.
    apply or_limit_bind; [|intro; left; reflexivity]. apply or_limit_mapM. intro x. apply IH. lia.
Qed.

Lemma rule_body_limit : forall n m v, n <= m -> or_limit (o_rule_body O h n c v) (o_rule_body O h m c v).
Proof.
  intros n m v L. unfold o_rule_body. apply or_limit_bind; [left; reflexivity|]. intro b.
  destruct (negb b); [left; reflexivity|]. apply or_limit_bind; [left; reflexivity|]. intro cond.
  apply or_limit_bind; [|intro; left; reflexivity].
  assert (Q : or_limit (o_eval_condition O h n c cond) (o_eval_condition O h m c cond)).
  { unfold o_eval_condition. apply or_limit_bind; [left; reflexivity|]. intro x. apply expr_limit, L. }
  destruct cond as [[]| | | | | |]; try exact Q. left; reflexivity.
Qed.

Lemma rule_limit : forall n m v, n <= m ->
  o_rule_eval O h n c v = o_rule_eval O h m c v \/ o_rule_eval O h n c v = Ok Indeterminate.
Proof.
  intros n m v L. unfold o_rule_eval. destruct (rule_body_limit n m v L) as [->| ->]; [left; reflexivity|].
  right; reflexivity.
Qed.

(** A rule gives the decision named by its effect, or another of NotApplicable and
    Indeterminate. *)
Lemma rule_effect : forall n v d, o_rule_eval O h n c v = Ok d ->
  d = NotApplicable \/ d = Indeterminate \/
  (exists w, o_effect_value h v = Ok w /\ o_decision w = Ok d).
Proof.
  intros n v d R. unfold o_rule_eval, catch_exception in R.
  destruct (o_rule_body O h n c v) as [d'|e] eqn:B.
  - injection R as ->. unfold o_rule_body in B. apply bind_ok in B. destruct B as (b & _ & B).
    destruct (negb b); [injection B as <-; auto|]. apply bind_ok in B. destruct B as (cond & _ & B).
    apply bind_ok in B. destruct B as (s & _ & B). destruct (truthy s); [|injection B as <-; auto].
    apply bind_ok in B. destruct B as (w & W & D). eauto.
  - destruct (is_exception e); [injection R as <-; auto | discriminate R].
Qed.
Lemma rule_raises : forall n v e, o_rule_eval O h n c v = Raise e -> is_exception e = false.
Proof.
  intros n v e R. unfold o_rule_eval, catch_exception in R.
  destruct (o_rule_body O h n c v) as [d'|e']; [discriminate R|].
  destruct (is_exception e') eqn:X; [discriminate R | injection R as <-; exact X].
Qed.
Lemma policy_raises : forall n v e, o_policy_eval O h n c v = Raise e ->
  is_exception e = false \/ (forall a, v = PRef a -> n = 0 \/
     forall cl attrs, nth_error h a = Some (PInst cl attrs) -> cl <> KPolicy /\ cl <> KPolicySet).
Proof.
  intros [|n] v e R.
  - right. auto.
  - destruct v as [| a | | | | |]; try (right; intros b Q; discriminate Q). cbn [o_policy_eval] in R.
    destruct (nth_error h a) as [[cl attrs| | |]|] eqn:N;
      try (right; intros b Q; injection Q as <-; right; intros cl' attrs' N'; congruence).
    destruct cl; try (right; intros b Q; injection Q as <-; right; intros cl' attrs' N'; rewrite N in N';
        injection N' as <- <-; split; discriminate);
      left; unfold catch_exception in R;
      match type of R with match ?x with _ => _ end = _ => destruct x as [|e'] end; try discriminate R;
      destruct (is_exception e') eqn:X; try discriminate R; injection R as <-; exact X.
Qed.

(** ** Both limits *)
Section Both.
Variables n m : nat.
Hypothesis L : n <= m.

Lemma interrupted_raise : forall e, is_exception e = false -> interrupted (Raise e).
Proof. intros e X. exists e. auto. Qed.

Lemma decision_functional : forall (x : res pval) w d b, x = Ok w -> o_decision w = Ok d ->
  bind x (fun v => bind (o_decision v) (fun e => Ok (match e with Deny => true | _ => false end))) = Ok b ->
  b = match d with Deny => true | _ => false end.
Proof. intros x w d b -> D Q. cbn in Q. rewrite D in Q. cbn in Q. congruence. Qed.

Lemma deny_rules_permit : forall items err pot per err' per',
  (per = true -> per' = true) ->
  o_rules_deny_overrides h (o_rule_eval O h n c) err pot per items = Ok Permit ->
  pot = false /\
  let r := o_rules_deny_overrides h (o_rule_eval O h m c) err' false per' items in
  r = Ok Permit \/ interrupted r.
Proof.
  induction items as [|v items IH]; intros err pot per err' per' P R.
  - cbn in R. destruct pot; [discriminate R|]. split; [reflexivity|]. left. cbn.
    destruct per; [rewrite P; reflexivity|]. destruct err; discriminate R.
  - cbn [o_rules_deny_overrides] in R |- *.
    destruct (rule_limit n m v L) as [Q|Q].
    + rewrite Q in R. destruct (o_rule_eval O h m c v) as [[]|e]; cbn [bind] in R |- *; try discriminate R.
      * eapply IH; [|exact R]. reflexivity.
      * destruct (o_effect_is_deny h v) as [b|]; [|discriminate R]. cbn [bind] in R |- *.
        destruct b; [destruct (IH _ _ _ err' per' P R) as [X _]; discriminate X|].
        eapply IH; [|exact R]. exact P.
      * eapply IH; [|exact R]. exact P.
    + rewrite Q in R. cbn [bind] in R. destruct (o_effect_is_deny h v) as [b|] eqn:B; [|discriminate R].
      cbn [bind] in R. destruct b; [destruct (IH _ _ _ err' per' P R) as [X _]; discriminate X|].
      destruct (o_rule_eval O h m c v) as [d|e] eqn:M; cbn [bind].
      * destruct d.
        -- eapply IH; [|exact R]. reflexivity.
        -- exfalso. destruct (rule_effect m v Deny M) as [X|[X|(w & W & D)]]; try discriminate X.
           pose proof (decision_functional _ w Deny false W D B) as X. discriminate X.
        -- cbn [bind]. eapply IH; [|exact R]. exact P.
        -- eapply IH; [|exact R]. exact P.
      * split; [eapply (IH _ _ _ false per' P); exact R|]. right. apply interrupted_raise. eapply rule_raises; exact M.
Qed.

Lemma permit_rules_permit : forall items err pot den err' pot' den',
  o_rules_permit_overrides h (o_rule_eval O h n c) err pot den items = Ok Permit ->
  let r := o_rules_permit_overrides h (o_rule_eval O h m c) err' pot' den' items in
  r = Ok Permit \/ interrupted r.
Proof.
  induction items as [|v items IH]; intros err pot den err' pot' den' R.
  - cbn in R. destruct pot; [discriminate R|]. destruct den; [discriminate R|]. destruct err; discriminate R.
  - cbn [o_rules_permit_overrides] in R |- *.
    destruct (rule_limit n m v L) as [Q|Q].
    + rewrite Q in R. destruct (o_rule_eval O h m c v) as [[]|e]; cbn [bind] in R |- *; try discriminate R.
      * left; reflexivity.
      * eapply IH; exact R.
      * destruct (o_effect_is_permit h v) as [b|]; [|discriminate R]. cbn [bind] in R |- *. eapply IH; exact R.
      * eapply IH; exact R.
    + rewrite Q in R. cbn [bind] in R. destruct (o_effect_is_permit h v) as [b|] eqn:B; [|discriminate R].
      cbn [bind] in R. destruct (o_rule_eval O h m c v) as [[]|e] eqn:M; cbn [bind]; try (eapply IH; exact R).
      * left; reflexivity.
      * right. apply interrupted_raise. eapply rule_raises; exact M.
Qed.

Lemma first_rules : forall d items, d <> Indeterminate ->
  o_first_applicable (o_rule_eval O h n c) items = Ok d ->
  o_first_applicable (o_rule_eval O h m c) items = Ok d.
Proof.
  intros d items D. induction items as [|v items IH]; intros R; [exact R|].
  cbn [o_first_applicable] in R |- *.
  destruct (rule_limit n m v L) as [Q|Q]; rewrite Q in R; [|cbn in R; congruence].
  destruct (o_rule_eval O h m c v) as [[]|e]; cbn [bind] in R |- *; try discriminate R; try exact R.
  apply IH; exact R.
Qed.

Lemma deny_rules_na : forall items err pot per,
  o_rules_deny_overrides h (o_rule_eval O h n c) err pot per items = Ok NotApplicable ->
  err = false /\ pot = false /\ per = false /\
  o_rules_deny_overrides h (o_rule_eval O h m c) err pot per items = Ok NotApplicable.
Proof.
  induction items as [|v items IH]; intros err pot per R.
  - cbn in R |- *. destruct pot, per, err; try discriminate R. auto.
  - cbn [o_rules_deny_overrides] in R |- *.
    destruct (rule_limit n m v L) as [Q|Q]; rewrite Q in R.
    + destruct (o_rule_eval O h m c v) as [[]|e]; cbn [bind] in R |- *; try discriminate R.
      * destruct (IH _ _ _ R) as (_ & _ & X & _). discriminate X.
      * destruct (o_effect_is_deny h v) as [b|]; [|discriminate R]. cbn [bind] in R.
        destruct (IH _ _ _ R) as (X & _). discriminate X.
      * apply IH; exact R.
    + cbn [bind] in R. destruct (o_effect_is_deny h v) as [b|]; [|discriminate R]. cbn [bind] in R.
      destruct (IH _ _ _ R) as (X & _). discriminate X.
Qed.
Lemma permit_rules_na : forall items err pot den,
  o_rules_permit_overrides h (o_rule_eval O h n c) err pot den items = Ok NotApplicable ->
  err = false /\ pot = false /\ den = false /\
  o_rules_permit_overrides h (o_rule_eval O h m c) err pot den items = Ok NotApplicable.
Proof.
  induction items as [|v items IH]; intros err pot den R.
  - cbn in R |- *. destruct pot, den, err; try discriminate R. auto.
  - cbn [o_rules_permit_overrides] in R |- *.
    destruct (rule_limit n m v L) as [Q|Q]; rewrite Q in R.
    + destruct (o_rule_eval O h m c v) as [[]|e]; cbn [bind] in R |- *; try discriminate R.
      * destruct (IH _ _ _ R) as (_ & _ & X & _). discriminate X.
      * destruct (o_effect_is_permit h v) as [b|]; [|discriminate R]. cbn [bind] in R.
        destruct (IH _ _ _ R) as (X & _). discriminate X.
      * apply IH; exact R.
    + cbn [bind] in R. destruct (o_effect_is_permit h v) as [b|]; [|discriminate R]. cbn [bind] in R.
      destruct (IH _ _ _ R) as (X & _). discriminate X.
Qed.
End Both.

(** What is kept from one outcome to the other *)
Definition kept (x y : res decision) : Prop :=
  (x = Ok Permit -> y = Ok Permit \/ interrupted y) /\
  (x = Ok NotApplicable -> y = Ok NotApplicable).

Lemma kept_bind : forall A (x : res A) (f g : A -> res decision),
  (forall a, kept (f a) (g a)) -> kept (bind x f) (bind x g).
Proof. intros A x f g H. destruct x; [apply H | split; discriminate]. Qed.
Lemma kept_refl : forall x, kept x x.
Proof. intro x. split; auto. Qed.
Lemma kept_catch : forall x y, kept x y -> kept (catch_exception x) (catch_exception y).
Proof.
  intros x y [P N]. split; intro Q.
  - assert (X : x = Ok Permit).
    { unfold catch_exception in Q. destruct x as [|e]; [exact Q|]. destruct (is_exception e); discriminate Q. }
    destruct (P X) as [->|(e & -> & I)]; [left; reflexivity|]. right. exists e. cbn. rewrite I. auto.
  - assert (X : x = Ok NotApplicable).
    { unfold catch_exception in Q. destruct x as [|e]; [exact Q|]. destruct (is_exception e); discriminate Q. }
    rewrite (N X). reflexivity.
Qed.

Lemma rules_kept : forall n m alg items, n <= m ->
  kept (o_combine_rules h alg (o_rule_eval O h n c) items) (o_combine_rules h alg (o_rule_eval O h m c) items).
Proof.
  intros n m alg items L. destruct alg; cbn [o_combine_rules]; split; intro R.
  - eapply (deny_rules_permit n m L items false false false); [auto | exact R].
  - apply (deny_rules_na n m L _ _ _ _ R).
  - eapply permit_rules_permit; eassumption.
  - apply (permit_rules_na n m L _ _ _ _ R).
  - left. eapply first_rules; [exact L | discriminate | exact R].
  - eapply first_rules; [exact L | discriminate | exact R].
Qed.

(** Policies *)
Section Policies.
Variables ev ev' : pval -> res decision.
Hypothesis HK : forall v, kept (ev v) (ev' v).
Hypothesis HR : forall v d e, ev v = Ok d -> ev' v = Raise e -> is_exception e = false.

Lemma policies_kept : forall alg items, kept (o_combine_policies alg ev items) (o_combine_policies alg ev' items).
Proof.
  intros alg items. destruct alg; cbn [o_combine_policies]; split.
  - assert (G : forall per per', (per = true -> per' = true) ->
      o_policies_deny_overrides ev per items = Ok Permit ->
      let r := o_policies_deny_overrides ev' per' items in r = Ok Permit \/ interrupted r).
    { induction items as [|v items IH]; intros per per' P R.
      - cbn in *. destruct per; [rewrite P; auto | discriminate R].
      - cbn [o_policies_deny_overrides] in R |- *. destruct (HK v) as [K1 K2].
        destruct (ev v) as [[]|]; cbn [bind] in R; try discriminate R.
        + destruct (K1 eq_refl) as [->|(e & -> & X)]; [|right; apply interrupted_raise, X].
          cbn [bind]. eapply IH; [|exact R]. reflexivity.
        + rewrite (K2 eq_refl). cbn [bind]. eapply IH; [|exact R]. exact P. }
    intro R. eapply G; [|exact R]. auto.
  - assert (G : forall per, o_policies_deny_overrides ev per items = Ok NotApplicable ->
      per = false /\ o_policies_deny_overrides ev' per items = Ok NotApplicable).
    { induction items as [|v items IH]; intros per R.
      - cbn in *. destruct per; [discriminate R | auto].
      - cbn [o_policies_deny_overrides] in R |- *. destruct (HK v) as [K1 K2].
        destruct (ev v) as [[]|]; cbn [bind] in R; try discriminate R.
        + destruct (IH _ R) as [X _]; discriminate X.
        + rewrite (K2 eq_refl). cbn [bind]. apply IH, R. }
    intro R. apply G, R.
  - assert (G : forall err den err' den',
      o_policies_permit_overrides ev err den items = Ok Permit ->
      let r := o_policies_permit_overrides ev' err' den' items in r = Ok Permit \/ interrupted r).
    { induction items as [|v items IH]; intros err den err' den' R.
      - cbn in *. destruct den; [discriminate R|]. destruct err; discriminate R.
      - cbn [o_policies_permit_overrides] in R |- *. destruct (HK v) as [K1 K2]. pose proof (HR v) as HRv.
        destruct (ev v) as [d|]; cbn [bind] in R; try discriminate R.
        destruct (ev' v) as [d'|e']; cbn [bind]; [|right; apply interrupted_raise; eapply HRv; reflexivity].
        destruct d.
        + destruct (K1 eq_refl) as [X|(e & X & _)]; [injection X as ->; left; reflexivity | discriminate X].
        + destruct d'; try (eapply IH; exact R). left; reflexivity.
        + destruct d'; try (eapply IH; exact R). left; reflexivity.
        + destruct d'; try (eapply IH; exact R). left; reflexivity. }
    intro R. eapply G; exact R.
  - assert (G : forall err den, o_policies_permit_overrides ev err den items = Ok NotApplicable ->
      err = false /\ den = false /\ o_policies_permit_overrides ev' err den items = Ok NotApplicable).
    { induction items as [|v items IH]; intros err den R.
      - cbn in *. destruct den; [discriminate R|]. destruct err; [discriminate R | auto].
      - cbn [o_policies_permit_overrides] in R |- *. destruct (HK v) as [K1 K2].
        destruct (ev v) as [[]|]; cbn [bind] in R; try discriminate R.
        + destruct (IH _ _ R) as (_ & X & _); discriminate X.
        + destruct (IH _ _ R) as (X & _); discriminate X.
        + rewrite (K2 eq_refl). cbn [bind]. apply IH, R. }
    intro R. apply G, R.
  - induction items as [|v items IH]; intro R; [discriminate R|]. cbn [o_first_applicable] in R |- *.
    destruct (HK v) as [K1 K2]. destruct (ev v) as [[]|]; cbn [bind] in R; try discriminate R.
    + destruct (K1 eq_refl) as [->|(e & -> & X)]; [left; reflexivity | right; apply interrupted_raise, X].
    + rewrite (K2 eq_refl). cbn [bind]. apply IH, R.
  - induction items as [|v items IH]; intro R; [exact R|]. cbn [o_first_applicable] in R |- *.
    destruct (HK v) as [K1 K2]. destruct (ev v) as [[]|]; cbn [bind] in R; try discriminate R.
    rewrite (K2 eq_refl). cbn [bind]. apply IH, R.
Qed.
End Policies.

Lemma policy_decides : forall n v d, o_policy_eval O h n c v = Ok d -> forall m e, n <= m ->
  o_policy_eval O h m c v = Raise e -> is_exception e = false.
Proof.
  intros n v d D m e L R. destruct v as [| a | | | | |];
    try (destruct n; discriminate D). destruct n as [|n]; [discriminate D|]. destruct m as [|m]; [lia|].
  cbn [o_policy_eval] in D. destruct (policy_raises _ _ _ R) as [X|X]; [exact X|].
  destruct (X a eq_refl) as [Y|Y]; [discriminate Y|].
  destruct (nth_error h a) as [[cl attrs| | |]|] eqn:N; try discriminate D.
  destruct (Y cl attrs eq_refl) as [Y1 Y2]. destruct cl; congruence.
Qed.

Lemma policy_kept : forall n m v, n <= m -> kept (o_policy_eval O h n c v) (o_policy_eval O h m c v).
Proof.
  induction n as [|n IH]; intros m v L.
  - destruct v; try (destruct m; apply kept_refl). split; discriminate.
  - destruct m as [|m]; [lia|]. destruct v as [| a | | | | |]; try apply kept_refl.
    cbn [o_policy_eval]. destruct (nth_error h a) as [[cl attrs| | |]|]; try apply kept_refl.
    destruct cl; try apply kept_refl; apply kept_catch, kept_bind; intro b; (destruct (negb b); [apply kept_refl|]);
      apply kept_bind; intro alg; (destruct alg; try apply kept_refl); apply kept_bind; intro l;
      apply kept_bind; intro items.
    + apply rules_kept. lia.
    + apply policies_kept; [intro v; apply IH; lia|]. intros v d e D R.
      eapply (policy_decides n v d D m e); [lia | exact R].
Qed.
End Limit.
