(** Facts for PropertiesStandard.v. *)
From Coq Require Import Lia.
From Verif Require Import SpecEval SpecStandard EvalFacts.

Definition of_bool (b : bool) : verdict := if b then Yes else No.

Lemma some_of_bools : forall bs, some_of (map of_bool bs) = of_bool (existsb (fun b => b) bs).
Proof.
  unfold some_of. intros bs.
  assert (H1 : existsb is_yes (map of_bool bs) = existsb (fun b => b) bs).
  { induction bs as [|[] bs IH]; simpl; auto. }
  assert (H2 : existsb is_unknown (map of_bool bs) = false).
  { clear H1. induction bs as [|[] bs IH]; simpl; auto. }
  rewrite H1, H2. destruct (existsb (fun b => b) bs); reflexivity.
Qed.

Lemma every_of_bools : forall bs, every_of (map of_bool bs) = of_bool (forallb (fun b => b) bs).
Proof.
  unfold every_of. intros bs.
  assert (H1 : existsb is_no (map of_bool bs) = negb (forallb (fun b => b) bs)).
  { induction bs as [|[] bs IH]; simpl; auto. }
  assert (H2 : existsb is_unknown (map of_bool bs) = false).
  { clear H1. induction bs as [|[] bs IH]; simpl; auto. }
  rewrite H1, H2. destruct (forallb (fun b => b) bs); reflexivity.
Qed.

Lemma strict_bools : forall bs,
  (if existsb is_unknown (map of_bool bs) then Unknown
   else if existsb is_no (map of_bool bs) then No else Yes)
  = of_bool (forallb (fun b => b) bs).
Proof.
  intros bs.
  assert (H1 : existsb is_no (map of_bool bs) = negb (forallb (fun b => b) bs)).
  { induction bs as [|[] bs IH]; simpl; auto. }
  assert (H2 : existsb is_unknown (map of_bool bs) = false).
  { clear H1. induction bs as [|[] bs IH]; simpl; auto. }
  rewrite H1, H2. destruct (forallb (fun b => b) bs); reflexivity.
Qed.

Lemma mapM_map : forall {A B} (f : A -> res B) (g : A -> verdict) (h : B -> verdict) l ys,
  (forall x y, In x l -> f x = Ok y -> g x = h y) ->
  mapM f l = Ok ys -> map g l = map h ys.
Proof.
  intros A B f g h l. induction l as [|x l IH]; intros ys H; simpl.
  - intros [= <-]. reflexivity.
  - destruct (f x) as [y|e] eqn:Hy; simpl; [|discriminate].
    destruct (mapM f l) as [zs|e] eqn:Hz; simpl; [|discriminate].
    intros [= <-]. simpl. rewrite (H x y) by (simpl; auto).
    rewrite (IH zs); auto. intros; apply H; simpl; auto.
Qed.

Section Match.
Variable E : env.
Variable c : context.

Definition bool_match (m : matchel) : Prop :=
  forall et vs v w, retrieved E c m = Ok (PBag et vs) -> In v vs ->
    application E m v = Ok w -> exists b, w = PNat (NBool b).

Lemma application_fn : forall m v, match_fn_apply E m v = application E m v.
Proof.
  intros m v. unfold match_fn_apply, application.
  destruct (mt_fn m); [destruct (mt_value m)|]; reflexivity.
Qed.

Lemma designator_bag : forall d v, eval_designator E d c = Ok v ->
  exists et vs, v = PBag et vs.
Proof.
  intros d v. unfold eval_designator. destruct c as [r|]; [|discriminate].
  match goal with |- bind ?x _ = _ -> _ => destruct x as [bag|e]; simpl; [|discriminate] end.
  unfold check_present. destruct bag.
  - destruct (dg_mustBePresent d); [discriminate|]. intros [= <-]. eauto.
  - intros [= <-]. eauto.
Qed.

Lemma selector_bag : forall s v, eval_selector E s c = Ok v ->
  exists et vs, v = PBag et vs.
Proof.
  intros s v. unfold eval_selector. destruct c as [r|]; [|discriminate].
  destruct (rq_selector r); [|discriminate].
  destruct (sl_dataType s) as [dt|]; [|discriminate].
  destruct (class_for E (Some dt)) as [cls|]; [|discriminate].
  destruct (en_xpath E r (sl_path s)) as [texts|]; simpl; [|discriminate].
  destruct (selector_loop cls dt [] texts) as [bag|]; simpl; [|discriminate].
  unfold check_present. destruct bag.
  - match goal with |- (if ?b then _ else _) = _ -> _ => destruct b end; [discriminate|].
    intros [= <-]. eauto.
  - intros [= <-]. eauto.
Qed.

Lemma eval_match_eq : forall m,
  eval_match E c m =
    bind (retrieved E c m) (fun bag =>
      bind (mapM (application E m) (bag_items bag)) (fun rs => Ok (existsb truthy rs))).
Proof.
  intros m. unfold eval_match, retrieved.
  assert (H : forall l, mapM (match_fn_apply E m) l = mapM (application E m) l).
  { induction l as [|v l IH]; simpl; [reflexivity|]. rewrite application_fn, IH. reflexivity. }
  destruct (mt_designator m); [|destruct (mt_selector m)]; simpl.
  - destruct (eval_designator E d c); simpl; [|reflexivity]. now rewrite H.
  - destruct (eval_selector E s c); simpl; [|reflexivity]. now rewrite H.
  - reflexivity.
Qed.

Lemma retrieved_bag : forall m v, retrieved E c m = Ok v -> exists et vs, v = PBag et vs.
Proof.
  intros m v. unfold retrieved.
  destruct (mt_designator m); [|destruct (mt_selector m)].
  - apply designator_bag.
  - apply selector_bag.
  - discriminate.
Qed.

Lemma match_agrees : forall m b, bool_match m ->
  eval_match E c m = Ok b -> std_match E c m = of_bool b.
Proof.
  intros m b Hm. rewrite eval_match_eq. unfold std_match.
  destruct (retrieved E c m) as [v|e] eqn:Hr; simpl; [|discriminate].
  destruct (retrieved_bag m v Hr) as (et & vs & ->). simpl.
  destruct (mapM (application E m) vs) as [rs|e] eqn:Ha; simpl; [|discriminate].
  intros [= <-].
  rewrite (mapM_map (application E m) (fun v => verdict_of (application E m v))
             (fun w => of_bool (truthy w)) vs rs); auto.
  - rewrite <- (map_map truthy of_bool), some_of_bools. f_equal.
    clear. induction rs; simpl; congruence.
  - intros x y Hx Hy. rewrite Hy. destruct (Hm et vs x y Hr Hx Hy) as ([] & ->); reflexivity.
Qed.

Lemma child_agrees : forall ms b, (forall m, In m ms -> bool_match m) ->
  match_child E c ms = Ok b -> std_child E c ms = of_bool b.
Proof.
  intros ms b Hm. unfold match_child, std_child.
  destruct (mapM (eval_match E c) ms) as [rs|e] eqn:Ha; simpl; [|discriminate].
  intros [= <-].
  rewrite (mapM_map (eval_match E c) (std_match E c) of_bool ms rs); auto.
  - apply every_of_bools.
  - intros m b Hin Hb. apply match_agrees; auto.
Qed.

Lemma section_loop_mapM : forall s st b, section_loop E c st s = Ok b ->
  exists bs, mapM (match_child E c) s = Ok bs /\ b = existsb (fun b => b) (st :: bs).
Proof.
  induction s as [|ch s IH]; intros st b; simpl.
  - intros [= <-]. exists []. split; auto. simpl. now rewrite orb_false_r.
  - destruct (match_child E c ch) as [b1|e]; simpl; [|discriminate].
    intros H. destruct (IH _ _ H) as (bs & -> & ->). simpl.
    exists (b1 :: bs). split; auto. simpl. destruct b1, st; reflexivity.
Qed.

Lemma section_agrees : forall s b, (forall m, In m (concat s) -> bool_match m) ->
  match_section E c s = Ok b -> std_section E c s = of_bool b.
Proof.
  intros [|ch s] b Hm; unfold match_section, std_section.
  - intros [= <-]. reflexivity.
  - intros H. destruct (section_loop_mapM _ _ _ H) as (bs & Hbs & ->).
    rewrite (mapM_map (match_child E c) (std_child E c) of_bool (ch :: s) bs); auto.
    + rewrite some_of_bools. reflexivity.
    + intros ms b Hin Hb. apply child_agrees; auto.
      intros m Hi. apply Hm. apply in_concat. eauto.
Qed.

Lemma target_agrees : forall t b, (forall m, In m (matches_of t) -> bool_match m) ->
  target_match E c t = Ok b -> std_target E c (Some t) = of_bool b.
Proof.
  intros t b Hm. unfold target_match. unfold std_target; cbv beta iota zeta.
  destruct (mapM (match_section E c)
    [tg_subjects t; tg_resources t; tg_actions t; tg_environments t]) as [bs|e] eqn:Hb;
    cbn [bind]; [|discriminate].
  intros [= <-].
  rewrite (mapM_map (match_section E c) (std_section E c) of_bool _ bs); auto.
  - apply strict_bools.
  - intros s b Hin Hs. apply section_agrees; auto.
    intros m Hi. apply Hm. unfold matches_of.
    rewrite !concat_app, !in_app_iff.
    destruct Hin as [<-|[<-|[<-|[<-|[]]]]]; tauto.
Qed.

Definition bool_target (t : option target) : Prop :=
  forall t', t = Some t' -> forall m, In m (matches_of t') -> bool_match m.

Lemma otarget_agrees : forall t b, bool_target t ->
  match t with Some t => target_match E c t | None => Ok true end = Ok b ->
  std_target E c t = of_bool b.
Proof.
  intros [t|] b Ht H.
  - apply target_agrees; auto. exact (Ht t eq_refl).
  - injection H as <-. reflexivity.
Qed.

Definition bool_rule (r : rule) : Prop :=
  bool_target (rl_target r) /\
  forall x v, rl_condition r = Some (Some x) -> eval_expr E c x = Ok v ->
    exists b, v = PNat (NBool b).

(** The decision of the code and that of the standard. *)
Definition agree (d d' : decision) : Prop := d <> Indeterminate -> d' = d.

Lemma catch_ok : forall r d, catch_exception r = Ok d -> d <> Indeterminate -> r = Ok d.
Proof.
  intros [d'|e] d; simpl; [auto|].
  destruct (is_exception e); [|discriminate]. intros [= <-]. congruence.
Qed.

Lemma rule_agrees : forall r d, bool_rule r -> rule_eval E c r = Ok d ->
  agree d (std_rule E c r).
Proof.
  intros r d (Ht & Hc) H Hd. unfold rule_eval in H. apply catch_ok in H; auto.
  unfold rule_body in H. unfold std_rule.
  destruct (match rl_target r with Some t => target_match E c t | None => Ok true end)
    as [b|e] eqn:Hb; cbn [bind] in H; [|discriminate].
  rewrite (otarget_agrees _ _ Ht Hb). destruct b; cbn [negb of_bool] in *.
  - destruct (rl_condition r) as [[x|]|] eqn:Hx; cbn [eval_condition std_condition] in *.
    + destruct (eval_expr E c x) as [v|e] eqn:Hv; cbn [bind] in H; [|discriminate].
      destruct (Hc x v eq_refl Hv) as ([] & ->); cbn in H |- *.
      * destruct (rl_effect r) as [[]|]; cbn in H; congruence.
      * congruence.
    + cbn in H. discriminate.
    + cbn in H. destruct (rl_effect r) as [[]|]; cbn in H; congruence.
  - congruence.
Qed.

Lemma rule_range : forall r, 
  std_rule E c r = Permit /\ rl_effect r = Some EffPermit \/
  std_rule E c r = Deny /\ rl_effect r = Some EffDeny \/
  std_rule E c r = Indeterminate \/ std_rule E c r = NotApplicable.
Proof.
  intros r. unfold std_rule.
  destruct (std_target E c (rl_target r)); auto.
  destruct (std_condition E c (rl_condition r)); auto.
  destruct (rl_effect r) as [[]|]; auto.
Qed.


Definition outcome (r : rule) : option effect * decision := (rl_effect r, std_rule E c r).

End Match.

Section Combine.
Variable E : env.
Variable c : context.
Notation out := (outcome E c).

Lemma existsb_false : forall {A} (f : A -> bool) l,
  (forall x, In x l -> f x = false) -> existsb f l = false.
Proof.
  induction l as [|x l IH]; intros H; simpl; [reflexivity|].
  rewrite (H x) by (simpl; auto). apply IH. intros; apply H; simpl; auto.
Qed.
Lemma existsb_true : forall {A} (f : A -> bool) l x,
  In x l -> f x = true -> existsb f l = true.
Proof. intros. apply existsb_exists. eauto. Qed.

Lemma rules_agree : forall m t alg rules d,
  (forall r, In r rules -> bool_rule E c r) ->
  target_accepts E c t ->
  policy_eval E c (PPolicy m t (Some alg) rules) = Ok d ->
  agree d (std_rules alg (map out rules)).
Proof.
  intros m t alg rules d Hb Ht H Hd.
  assert (A : forall r d', In r rules -> rule_eval E c r = Ok d' -> d' <> Indeterminate ->
                std_rule E c r = d').
  { intros r d' Hr Hev Hn. apply (rule_agrees E c r d'); auto. }
  assert (IN : forall (eff : option effect) x,
     In (eff, x) (map (fun r => (rl_effect r, rule_eval E c r)) rules) ->
     exists r, In r rules /\ rl_effect r = eff /\ rule_eval E c r = x).
  { intros eff x Hi. apply in_map_iff in Hi. destruct Hi as (r & Hr & Hi).
    injection Hr as <- <-. eauto. }
  assert (NI : forall r, In r rules ->
     In (rl_effect r, rule_eval E c r) (map (fun r => (rl_effect r, rule_eval E c r)) rules)).
  { intros r Hr. exact (in_map (fun r => (rl_effect r, rule_eval E c r)) rules r Hr). }
  destruct alg; cbn [std_rules]; rewrite ?map_map; cbn [outcome snd].
  - pose proof (rules_deny_overrides_spec E c m t rules Ht) as S. rewrite H in S.
    inversion S as [pre eff post Hos Hpre Heq | pre o post Hos Hf Hpre Heq
      | Hall Hin Heq | eff Hall Hno Hin Heq | eff Hall Hno Hl Hin Heq | Hall Heq]; try subst d; clear S.
    + destruct (IN eff (Ok Deny)) as (r & Hr & _ & Hev).
      { rewrite Hos. apply in_or_app. right. now left. }
      rewrite (existsb_true is_deny _ Deny); auto.
      apply in_map_iff. exists r. split; auto.
    + exfalso. destruct Hf as [->|(e & o' & ->)]; cbn in Heq; congruence.
    + congruence.
    + rewrite (existsb_false is_deny), (existsb_false might_deny).
      * destruct (IN eff (Ok Permit) Hin) as (r & Hr & _ & Hev).
        rewrite (existsb_true is_permit _ Permit); auto.
        apply in_map_iff. exists r. split; auto.
      * intros o Ho. apply in_map_iff in Ho. destruct Ho as (r & <- & Hr). unfold outcome.
        destruct (Hall _ (NI r Hr)) as (Hnf & Hnw). cbn [snd] in Hnw.
        destruct (rl_effect r) as [[]|] eqn:He; auto. cbn.
        destruct (std_rule E c r) eqn:Hs; auto. exfalso.
        destruct (rule_eval E c r) as [d'|e] eqn:Hev.
        -- destruct d'; try (rewrite (A r _ Hr Hev) in Hs; congruence).
           apply Hno. rewrite <- He, <- Hev. auto.
        -- apply Hnf. right. eauto.
      * intros d' Hd'. apply in_map_iff in Hd'. destruct Hd' as (r & <- & Hr).
        destruct (Hall _ (NI r Hr)) as (Hnf & Hnw). cbn [snd] in Hnw.
        destruct (std_rule E c r) eqn:Hs; auto. exfalso.
        destruct (rule_eval E c r) as [d'|e] eqn:Hev.
        -- destruct d'; try (rewrite (A r _ Hr Hev) in Hs; congruence).
           destruct (rule_range E c r) as [(R & _)|[(_ & R)|[R|R]]]; try congruence.
           apply Hno. rewrite <- R, <- Hev. auto.
        -- apply Hnf. right. eauto.
    + congruence.
    + assert (S : forall r, In r rules -> std_rule E c r = NotApplicable).
      { intros r Hr. apply (A r _ Hr); [exact (Hall _ (NI r Hr))|discriminate]. }
      rewrite !existsb_false; auto; intros x Hx; apply in_map_iff in Hx;
        destruct Hx as (r & <- & Hr); unfold outcome; rewrite (S r Hr); auto.
      destruct (rl_effect r) as [[]|]; reflexivity.
  - pose proof (rules_permit_overrides_spec E c m t rules Ht) as S. rewrite H in S.
    inversion S as [pre eff post Hos Hpre Heq | pre o post Hos Hf Hpre Heq
      | Hall Hin Heq | eff Hall Hno Hin Heq | eff Hall Hno Hl Hin Heq | Hall Heq]; try subst d; clear S.
    + destruct (IN eff (Ok Permit)) as (r & Hr & _ & Hev).
      { rewrite Hos. apply in_or_app. right. now left. }
      rewrite (existsb_true is_permit _ Permit); auto.
      apply in_map_iff. exists r. split; auto.
    + exfalso. destruct Hf as [->|(e & o' & ->)]; cbn in Heq; congruence.
    + congruence.
    + rewrite (existsb_false is_permit), (existsb_false might_permit).
      * destruct (IN eff (Ok Deny) Hin) as (r & Hr & _ & Hev).
        rewrite (existsb_true is_deny _ Deny); auto.
        apply in_map_iff. exists r. split; auto.
      * intros o Ho. apply in_map_iff in Ho. destruct Ho as (r & <- & Hr). unfold outcome.
        destruct (Hall _ (NI r Hr)) as (Hnf & Hnw). cbn [snd] in Hnw.
        destruct (rl_effect r) as [[]|] eqn:He; auto. cbn.
        destruct (std_rule E c r) eqn:Hs; auto. exfalso.
        destruct (rule_eval E c r) as [d'|e] eqn:Hev.
        -- destruct d'; try (rewrite (A r _ Hr Hev) in Hs; congruence).
           apply Hno. rewrite <- He, <- Hev. auto.
        -- apply Hnf. right. eauto.
      * intros d' Hd'. apply in_map_iff in Hd'. destruct Hd' as (r & <- & Hr).
        destruct (Hall _ (NI r Hr)) as (Hnf & Hnw). cbn [snd] in Hnw.
        destruct (std_rule E c r) eqn:Hs; auto. exfalso.
        destruct (rule_eval E c r) as [d'|e] eqn:Hev.
        -- destruct d'; try (rewrite (A r _ Hr Hev) in Hs; congruence).
           destruct (rule_range E c r) as [(_ & R)|[(R & _)|[R|R]]]; try congruence.
           apply Hno. rewrite <- R, <- Hev. auto.
        -- apply Hnf. right. eauto.
    + congruence.
    + assert (S : forall r, In r rules -> std_rule E c r = NotApplicable).
      { intros r Hr. apply (A r _ Hr); [exact (Hall _ (NI r Hr))|discriminate]. }
      rewrite !existsb_false; auto; intros x Hx; apply in_map_iff in Hx;
        destruct Hx as (r & <- & Hr); unfold outcome; rewrite (S r Hr); auto.
      destruct (rl_effect r) as [[]|]; reflexivity.
  - clear IN NI.
    pose proof (rules_first_applicable_spec E c m t rules Ht) as S. rewrite H in S.
    inversion S as [pre o post Hos Hpre Hno Heq | Hall Heq]; subst; clear S.
    + revert pre post Hos Hpre. clear H Hb. induction rules as [|r rules IH]; intros pre post Hos Hpre.
      * destruct pre; discriminate.
      * destruct pre as [|x pre]; cbn in Hos; injection Hos as Hx Hr.
        -- cbn. rewrite (A r d); simpl; auto. destruct d; congruence.
        -- cbn. rewrite (A r NotApplicable (or_introl eq_refl)); [|rewrite Hx; apply Hpre; now left|discriminate].
           apply (IH (fun r d' Hr' => A r d' (or_intror Hr')) pre post); auto.
           intros o' Ho'. apply Hpre. now right.
    + clear H Hb. induction rules as [|r rules IH]; [reflexivity|].
      cbn. rewrite (A r NotApplicable (or_introl eq_refl)); [|apply Hall; now left|discriminate].
      apply IH; [intros r' d' Hr'; apply A; simpl; auto|].
      intros o Ho. apply Hall. now right.
Qed.

Lemma accepts_or : forall t rest d, catch_exception (with_target E c t rest) = Ok d ->
  d <> Indeterminate -> bool_target E c t ->
  target_accepts E c t /\ std_target E c t = Yes /\ rest = Ok d \/
  std_target E c t = No /\ d = NotApplicable.
Proof.
  intros t rest d H Hd Ht. apply catch_ok in H; auto. unfold with_target in H.
  destruct (match t with Some t => target_match E c t | None => Ok true end) as [b|e] eqn:Hb;
    cbn [bind] in H; [|discriminate].
  pose proof (otarget_agrees E c t b Ht Hb) as S.
  destruct b; cbn [negb of_bool] in *.
  - left. split; [|split; [exact S|exact H]]. intros t' ->. exact Hb.
  - right. split; [auto|congruence].
Qed.

Lemma policy_agrees : forall m t alg rules d,
  bool_target E c t -> (forall r, In r rules -> bool_rule E c r) ->
  policy_eval E c (PPolicy m t alg rules) = Ok d ->
  agree d (standard E c (PPolicy m t alg rules)).
Proof.
  intros m t alg rules d Ht Hr H Hd. cbn [standard].
  destruct (accepts_or _ _ _ H Hd Ht) as [(Ha & -> & Hrest)|(-> & ->)]; [|reflexivity].
  cbn [targeted]. destruct alg as [a|]; [|discriminate].
  exact (rules_agree m t a rules d Hr Ha H Hd).
Qed.

(** Children: the decisions of the code and of the standard side by side. *)
Definition half (d d' : decision) : Prop :=
  (d = Permit -> d' = Permit) /\ (d = NotApplicable -> d' = NotApplicable).

Lemma policies_half : forall m t alg ps d,
  target_accepts E c t ->
  (forall p d', In p ps -> policy_eval E c p = Ok d' -> half d' (standard E c p)) ->
  policy_eval E c (PPolicySet m t (Some alg) ps) = Ok d ->
  half d (std_policies alg (map (standard E c) ps)).
Proof.
  intros m t alg ps d Ht A H.
  assert (NI : forall p, In p ps -> In (policy_eval E c p) (map (policy_eval E c) ps)).
  { intros p Hp. apply in_map; auto. }
  assert (IN : forall x, In x (map (policy_eval E c) ps) ->
     exists p, In p ps /\ policy_eval E c p = x).
  { intros x Hi. apply in_map_iff in Hi. destruct Hi as (p & Hp & Hi). eauto. }
  assert (NA : (forall o, In o (map (policy_eval E c) ps) -> o = Ok NotApplicable) ->
     std_policies alg (map (standard E c) ps) = NotApplicable).
  { intros Hall.
    assert (S : forall p, In p ps -> standard E c p = NotApplicable).
    { intros p Hp. destruct (A p _ Hp (Hall _ (NI p Hp))) as (_ & S). auto. }
    assert (S' : map (standard E c) ps = map (fun _ => NotApplicable) ps).
    { apply map_ext_in. auto. }
    rewrite S'. clear. destruct alg; cbn [std_policies].
    - rewrite !existsb_false; auto; intros x Hx; apply in_map_iff in Hx;
        destruct Hx as (? & <- & _); reflexivity.
    - rewrite !existsb_false; auto; intros x Hx; apply in_map_iff in Hx;
        destruct Hx as (? & <- & _); reflexivity.
    - induction ps; simpl; auto. }
  destruct alg.
  - pose proof (policies_deny_overrides_spec E c m t ps Ht) as S. rewrite H in S.
    inversion S as [pre o post Hos Ho Hpre Heq | pre e post Hos Hpre Heq
      | Hall Hin Heq | Hall Heq]; try subst d; clear S.
    + split; discriminate.
    + split; [|discriminate]. intros _. cbn [std_policies].
      assert (S : forall p, In p ps -> standard E c p = Permit \/ standard E c p = NotApplicable).
      { intros p Hp. destruct (Hall _ (NI p Hp)) as [Hev|Hev];
          destruct (A p _ Hp Hev) as (S1 & S2); auto. }
      rewrite (existsb_false is_deny), (existsb_false is_indeterminate).
      * destruct (IN _ Hin) as (p & Hp & Hev). cbn [orb].
        rewrite (existsb_true is_permit _ Permit); auto.
        apply in_map_iff. exists p. split; auto. destruct (A p _ Hp Hev); auto.
      * intros x Hx. apply in_map_iff in Hx. destruct Hx as (p & <- & Hp).
        destruct (S p Hp) as [-> | ->]; reflexivity.
      * intros x Hx. apply in_map_iff in Hx. destruct Hx as (p & <- & Hp).
        destruct (S p Hp) as [-> | ->]; reflexivity.
    + split; [discriminate|auto].
  - pose proof (policies_permit_overrides_spec E c m t ps Ht) as S. rewrite H in S.
    inversion S as [pre post Hos Hpre Heq | pre e post Hos Hpre Heq
      | Hall Hin Heq | Hall Hin Heq | Hall Heq]; try subst d; clear S.
    + split; [|discriminate]. intros _. cbn [std_policies].
      destruct (IN (Ok Permit)) as (p & Hp & Hev).
      { rewrite Hos. apply in_or_app. right. now left. }
      rewrite (existsb_true is_permit _ Permit); auto.
      apply in_map_iff. exists p. split; auto. destruct (A p _ Hp Hev); auto.
    + split; discriminate.
    + split; discriminate.
    + split; [discriminate|auto].
  - pose proof (policies_first_applicable_spec E c m t ps Ht) as S. rewrite H in S.
    inversion S as [pre o post Hos Hpre Hno Heq | Hall Heq]; subst; clear S.
    + split; [|congruence]. intros ->. cbn [std_policies].
      clear H NA IN NI. revert pre post Hos Hpre.
      induction ps as [|p ps IH]; intros pre post Hos Hpre.
      * destruct pre; discriminate.
      * destruct pre as [|x pre]; cbn in Hos; injection Hos as Hx Hr.
        -- cbn. destruct (A p _ (or_introl eq_refl) Hx) as (-> & _); auto.
        -- assert (Hx' : policy_eval E c p = Ok NotApplicable).
           { rewrite Hx. apply Hpre. now left. }
           cbn. destruct (A p _ (or_introl eq_refl) Hx') as (_ & ->); auto.
           apply (IH (fun p d' Hp' => A p d' (or_intror Hp')) pre post); auto.
           intros o' Ho'. apply Hpre. now right.
    + split; [discriminate|auto].
Qed.

Lemma policies_exact : forall m t alg ps d,
  target_accepts E c t ->
  (forall p d', In p ps -> policy_eval E c p = Ok d' -> standard E c p = d' /\ d' <> Indeterminate) ->
  policy_eval E c (PPolicySet m t (Some alg) ps) = Ok d ->
  std_policies alg (map (standard E c) ps) = d.
Proof.
  intros m t alg ps d Ht A H.
  assert (Hh : half d (std_policies alg (map (standard E c) ps))).
  { apply (policies_half m t alg ps d Ht); auto. intros p d' Hp Hev.
    destruct (A p d' Hp Hev) as (-> & _). split; auto. }
  destruct Hh as (Hp & Hn).
  destruct d; auto; clear Hp Hn.
  - (* Deny *)
    assert (D : (exists p, In p ps /\ policy_eval E c p = Ok Deny) ->
       existsb is_deny (map (standard E c) ps) = true).
    { intros (p & Hp & Hev). apply (existsb_true _ _ Deny); auto.
      apply in_map_iff. exists p. split; auto. apply (A p Deny); auto. }
    destruct alg; cbn [std_policies].
    + pose proof (policies_deny_overrides_spec E c m t ps Ht) as S. rewrite H in S.
      inversion S as [pre o post Hos Ho Hpre Heq | | |]; subst; clear S.
      rewrite D; auto.
      assert (Hin : In o (map (policy_eval E c) ps)).
      { rewrite Hos. apply in_or_app. right. now left. }
      apply in_map_iff in Hin. destruct Hin as (p & Hp & Hi). exists p. split; auto.
      destruct Ho as [->|Ho]; [auto|]. rewrite Ho in Hp.
      exfalso. now apply (A p _ Hi Hp).
    + pose proof (policies_permit_overrides_spec E c m t ps Ht) as S. rewrite H in S.
      inversion S as [ | | Hall Hin Heq | | ]; subst; clear S.
      rewrite existsb_false.
      * rewrite D; auto. apply in_map_iff in Hin. destruct Hin as (p & Hp & Hi). eauto.
      * intros x Hx. apply in_map_iff in Hx. destruct Hx as (p & <- & Hp).
        destruct (policy_eval E c p) as [d'|e] eqn:Hev.
        -- destruct (A p d' Hp Hev) as (-> & _).
           destruct (Hall (Ok d')) as (_ & Hn).
           { rewrite <- Hev. apply in_map; auto. }
           destruct d'; auto. congruence.
        -- exfalso. destruct (Hall (Raise e)) as (Hn & _); [|discriminate].
           rewrite <- Hev. apply in_map; auto.
    + pose proof (policies_first_applicable_spec E c m t ps Ht) as S. rewrite H in S.
      inversion S as [pre o post Hos Hpre Hno Heq | ]; subst; clear S.
      clear H D. revert pre post Hos Hpre.
      induction ps as [|p ps IH]; intros pre post Hos Hpre.
      * destruct pre; discriminate.
      * destruct pre as [|x pre]; cbn in Hos; injection Hos as Hx Hr.
        -- cbn. destruct (A p _ (or_introl eq_refl) Hx) as (-> & _); auto.
        -- assert (Hx' : policy_eval E c p = Ok NotApplicable).
           { rewrite Hx. apply Hpre. now left. }
           cbn. destruct (A p _ (or_introl eq_refl) Hx') as (-> & _); auto.
           apply (IH (fun p d' Hp' => A p d' (or_intror Hp')) pre post); auto.
           intros o' Ho'. apply Hpre. now right.
  - (* Indeterminate *)
    exfalso. destruct alg.
    + pose proof (policies_deny_overrides_spec E c m t ps Ht) as S. rewrite H in S.
      inversion S.
    + pose proof (policies_permit_overrides_spec E c m t ps Ht) as S. rewrite H in S.
      inversion S as [ | | | Hall Hin Heq | ]; subst; clear S.
      apply in_map_iff in Hin. destruct Hin as (p & Hp & Hi). now apply (A p _ Hi Hp).
    + pose proof (policies_first_applicable_spec E c m t ps Ht) as S. rewrite H in S.
      inversion S as [pre o post Hos Hpre Hno Heq | ]; subst; clear S.
      assert (Hin : In (Ok Indeterminate) (map (policy_eval E c) ps)).
      { rewrite Hos. apply in_or_app. right. now left. }
      apply in_map_iff in Hin. destruct Hin as (p & Hp & Hi). now apply (A p _ Hi Hp).
Qed.

(** Hypotheses pass to the parts. *)
Lemma boolean_policy : forall m t alg rules,
  boolean_valued E c (PPolicy m t alg rules) ->
  bool_target E c t /\ forall r, In r rules -> bool_rule E c r.
Proof.
  intros m t alg rules (Hc & Hm). split.
  - intros t' -> me Hi et vs v w. apply Hm. left. exists t'. simpl. auto.
  - intros r Hr. split.
    + intros t' Ht me Hi et vs v w. apply Hm. right. exists r, t'. simpl. auto.
    + intros x v Hx Hv. apply (Hc x v); auto. exists r. simpl. auto.
Qed.

Lemma boolean_set : forall m t alg ps,
  boolean_valued E c (PPolicySet m t alg ps) ->
  bool_target E c t /\ forall p, In p ps -> boolean_valued E c p.
Proof.
  intros m t alg ps (Hc & Hm). split.
  - intros t' -> me Hi et vs v w. apply Hm. left. exists t'. simpl. auto.
  - intros p Hp. split.
    + intros x v (r & Hr & Hx). apply Hc. exists r. split; auto. simpl.
      apply in_flat_map. eauto.
    + intros me et vs v w [(t' & Ht & Hi)|(r & t' & Hr & Ht & Hi)]; apply Hm.
      * left. exists t'. split; auto. simpl. apply in_or_app. right. apply in_flat_map. eauto.
      * right. exists r, t'. repeat split; auto. simpl. apply in_flat_map. eauto.
Qed.

Lemma half_holds : forall p d, boolean_valued E c p ->
  policy_eval E c p = Ok d -> half d (standard E c p).
Proof.
  induction p as [m t alg rules|m t alg ps IH] using policybase_ind'; intros d Hb H.
  - destruct (boolean_policy _ _ _ _ Hb) as (Ht & Hr).
    pose proof (policy_agrees m t alg rules d Ht Hr H) as A.
    split; intros ->; apply A; discriminate.
  - destruct (boolean_set _ _ _ _ Hb) as (Ht & Hp).
    assert (D : d = Indeterminate \/ d <> Indeterminate) by (destruct d; auto; right; discriminate).
    destruct D as [->|Hd]; [split; discriminate|].
    cbn [standard]. destruct (accepts_or _ _ _ H Hd Ht) as [(Ha & -> & Hrest)|(-> & ->)].
    + cbn [targeted]. destruct alg as [a|]; [|discriminate].
      apply (policies_half m t a ps d Ha); auto.
      intros p d' Hp' Hev. rewrite Forall_forall in IH. apply IH; auto.
    + split; auto.
Qed.

Lemma decided_exact : forall p d, boolean_valued E c p ->
  (forall q, In q (policies_within p) -> policy_eval E c q <> Ok Indeterminate) ->
  policy_eval E c p = Ok d -> standard E c p = d.
Proof.
  induction p as [m t alg rules|m t alg ps IH] using policybase_ind'; intros d Hb Hq H.
  - destruct (boolean_policy _ _ _ _ Hb) as (Ht & Hr).
    apply (policy_agrees m t alg rules d Ht Hr H). intros ->.
    apply (Hq (PPolicy m t alg rules)); simpl; auto.
  - destruct (boolean_set _ _ _ _ Hb) as (Ht & Hp).
    assert (Hd : d <> Indeterminate).
    { intros ->. apply (Hq (PPolicySet m t alg ps)); auto. simpl. auto. }
    cbn [standard]. destruct (accepts_or _ _ _ H Hd Ht) as [(Ha & -> & Hrest)|(-> & ->)].
    + cbn [targeted]. destruct alg as [a|]; [|discriminate].
      apply (policies_exact m t a ps d Ha); auto.
      intros p d' Hp' Hev. rewrite Forall_forall in IH.
      assert (S : forall q, In q (policies_within p) -> In q (policies_within (PPolicySet m t (Some a) ps))).
      { intros q Hi. simpl. right. apply in_flat_map. eauto. }
      split; [apply IH; auto|]. intros ->. apply (Hq p); auto. apply S.
      destruct p; simpl; auto.
    + reflexivity.
Qed.

(** ** Without errors *)

Lemma mapM_total : forall {A B} (f : A -> res B) l,
  (forall x, In x l -> exists y, f x = Ok y) -> exists ys, mapM f l = Ok ys.
Proof.
  induction l as [|x l IH]; intros H; simpl; eauto.
  destruct (H x) as (y & ->); simpl; auto.
  destruct IH as (ys & ->); simpl; eauto. intros; apply H; simpl; auto.
Qed.

Definition sound_match (m : matchel) : Prop :=
  exists et vs, retrieved E c m = Ok (PBag et vs) /\
    forall v, In v vs -> exists b, application E m v = Ok (PNat (NBool b)).

Lemma sound_target : forall t, (forall m, In m (matches_of t) -> sound_match m) ->
  exists b, target_match E c t = Ok b.
Proof.
  intros t H. unfold target_match.
  destruct (mapM_total (match_section E c)
    [tg_subjects t; tg_resources t; tg_actions t; tg_environments t]) as (bs & ->);
    [|cbn [bind]; eauto].
  intros s Hs.
  assert (Hm : forall m, In m (concat s) -> sound_match m).
  { intros m Hi. apply H. unfold matches_of. rewrite !concat_app, !in_app_iff.
    destruct Hs as [<-|[<-|[<-|[<-|[]]]]]; tauto. }
  clear H Hs.
  assert (Hl : forall st, exists b, section_loop E c st s = Ok b).
  { induction s as [|ch s IH]; intros st; simpl; eauto.
    assert (Hc : exists b, match_child E c ch = Ok b).
    { unfold match_child. destruct (mapM_total (eval_match E c) ch) as (bs & ->);
        [|cbn [bind]; eauto].
      intros m Hi. destruct (Hm m) as (et & vs & Hr & Ha).
      { simpl. apply in_or_app. auto. }
      rewrite eval_match_eq, Hr. cbn [bind bag_items].
      destruct (mapM_total (application E m) vs) as (rs & ->); [|cbn [bind]; eauto].
      intros v Hv. destruct (Ha v Hv) as (b & ->). eauto. }
    destruct Hc as (b & ->). cbn [bind]. apply IH.
    intros m Hi. apply Hm. simpl. apply in_or_app. auto. }
  unfold match_section. destruct s; eauto.
Qed.

Lemma sound_rule : forall r,
  (forall t m, rl_target r = Some t -> In m (matches_of t) -> sound_match m) ->
  (forall x, rl_condition r = Some (Some x) -> exists b, eval_expr E c x = Ok (PNat (NBool b))) ->
  rl_effect r <> None -> rl_condition r <> Some None ->
  exists d, rule_eval E c r = Ok d /\ d <> Indeterminate.
Proof.
  intros r Ht Hc He Hn. unfold rule_eval, rule_body.
  assert (T : exists b, match rl_target r with Some t => target_match E c t | None => Ok true end = Ok b).
  { destruct (rl_target r) as [t|]; eauto. apply sound_target. eauto. }
  destruct T as ([] & ->); cbn [bind negb].
  - destruct (rl_condition r) as [[x|]|]; [| congruence |]; cbn [eval_condition].
    + destruct (Hc x eq_refl) as ([] & ->); cbn [bind truthy native_truthy py_bool].
      * cbn. destruct (rl_effect r) as [[]|]; cbn; [| |congruence]; eexists; split; eauto; discriminate.
      * cbn. eexists; split; eauto; discriminate.
    + cbn. destruct (rl_effect r) as [[]|]; cbn; [| |congruence]; eexists; split; eauto; discriminate.
  - cbn. eexists; split; eauto; discriminate.
Qed.

Lemma rules_sound : forall m t alg rules,
  target_accepts E c t ->
  (forall r, In r rules -> exists d, rule_eval E c r = Ok d /\ d <> Indeterminate) ->
  exists d, policy_eval E c (PPolicy m t (Some alg) rules) = Ok d /\ d <> Indeterminate.
Proof.
  intros m t alg rules Ht H.
  assert (NF : forall o, In o (map (fun r => (rl_effect r, rule_eval E c r)) rules) ->
     exists d, snd o = Ok d /\ d <> Indeterminate).
  { intros o Ho. apply in_map_iff in Ho. destruct Ho as (r & <- & Hr). simpl. auto. }
  assert (NF' : forall o, In o (map (rule_eval E c) rules) ->
     exists d, o = Ok d /\ d <> Indeterminate).
  { intros o Ho. apply in_map_iff in Ho. destruct Ho as (r & <- & Hr). auto. }
  assert (MID : forall {A} (pre : list A) x post l, l = pre ++ x :: post -> In x l).
  { intros A pre x post l ->. apply in_or_app. right. now left. }
  destruct alg.
  - generalize (rules_deny_overrides_spec E c m t rules Ht).
    match goal with |- _ -> exists d, ?x = _ /\ _ => generalize x end. intros res S.
    inversion S as [pre eff post Hos Hpre Heq | pre o post Hos Hf Hpre Heq
      | Hall Hin Heq | eff Hall Hno Hin Heq | eff Hall Hno Hl Hin Heq | Hall Heq];
      try (subst; eexists; split; [reflexivity|discriminate]).
    + exfalso. destruct (NF o (MID _ _ _ _ _ Hos)) as (d & Hd & Hn).
      destruct Hf as [->|(e & o' & ->)]; cbn in Hd; congruence.
    + exfalso. destruct (NF _ Hin) as (d & Hd & Hn). cbn in Hd. congruence.
    + exfalso. destruct (NF _ Hin) as (d & Hd & Hn). cbn in Hd. congruence.
  - generalize (rules_permit_overrides_spec E c m t rules Ht).
    match goal with |- _ -> exists d, ?x = _ /\ _ => generalize x end. intros res S.
    inversion S as [pre eff post Hos Hpre Heq | pre o post Hos Hf Hpre Heq
      | Hall Hin Heq | eff Hall Hno Hin Heq | eff Hall Hno Hl Hin Heq | Hall Heq];
      try (subst; eexists; split; [reflexivity|discriminate]).
    + exfalso. destruct (NF o (MID _ _ _ _ _ Hos)) as (d & Hd & Hn).
      destruct Hf as [->|(e & o' & ->)]; cbn in Hd; congruence.
    + exfalso. destruct (NF _ Hin) as (d & Hd & Hn). cbn in Hd. congruence.
    + exfalso. destruct (NF _ Hin) as (d & Hd & Hn). cbn in Hd. congruence.
  - generalize (rules_first_applicable_spec E c m t rules Ht).
    match goal with |- _ -> exists d, ?x = _ /\ _ => generalize x end. intros res S.
    inversion S as [pre o post Hos Hpre Hno Heq | Hall Heq];
      try (subst; eexists; split; [reflexivity|discriminate]).
    subst. exact (NF' _ (MID _ _ _ _ _ Hos)).
Qed.

Lemma policies_sound : forall m t alg ps,
  target_accepts E c t ->
  (forall p, In p ps -> exists d, policy_eval E c p = Ok d /\ d <> Indeterminate) ->
  exists d, policy_eval E c (PPolicySet m t (Some alg) ps) = Ok d /\ d <> Indeterminate.
Proof.
  intros m t alg ps Ht H.
  assert (NF' : forall o, In o (map (policy_eval E c) ps) ->
     exists d, o = Ok d /\ d <> Indeterminate).
  { intros o Ho. apply in_map_iff in Ho. destruct Ho as (r & <- & Hr). auto. }
  assert (MID : forall {A} (pre : list A) x post l, l = pre ++ x :: post -> In x l).
  { intros A pre x post l ->. apply in_or_app. right. now left. }
  destruct alg.
  - generalize (policies_deny_overrides_spec E c m t ps Ht).
    match goal with |- _ -> exists d, ?x = _ /\ _ => generalize x end. intros res S.
    inversion S as [pre o post Hos Ho Hpre Heq | pre e post Hos Hpre Heq
      | Hall Hin Heq | Hall Heq];
      try (subst; eexists; split; [reflexivity|discriminate]).
    exfalso. destruct (NF' _ (MID _ _ _ _ _ Hos)) as (d & Hd & Hn). congruence.
  - generalize (policies_permit_overrides_spec E c m t ps Ht).
    match goal with |- _ -> exists d, ?x = _ /\ _ => generalize x end. intros res S.
    inversion S as [pre post Hos Hpre Heq | pre e post Hos Hpre Heq
      | Hall Hin Heq | Hall Hin Heq | Hall Heq];
      try (subst; eexists; split; [reflexivity|discriminate]).
    + exfalso. destruct (NF' _ (MID _ _ _ _ _ Hos)) as (d & Hd & Hn). congruence.
    + exfalso. destruct (NF' _ Hin) as (d & Hd & Hn). congruence.
  - generalize (policies_first_applicable_spec E c m t ps Ht).
    match goal with |- _ -> exists d, ?x = _ /\ _ => generalize x end. intros res S.
    inversion S as [pre o post Hos Hpre Hno Heq | Hall Heq];
      try (subst; eexists; split; [reflexivity|discriminate]).
    subst. exact (NF' _ (MID _ _ _ _ _ Hos)).
Qed.

Lemma target_cases : forall t combine,
  (forall t' m, t = Some t' -> In m (matches_of t') -> sound_match m) ->
  target_accepts E c t \/ catch_exception (with_target E c t combine) = Ok NotApplicable.
Proof.
  intros [t|] combine H.
  - destruct (sound_target t) as ([] & Hb); [eauto| |].
    + left. intros t' [= <-]. exact Hb.
    + right. unfold with_target. rewrite Hb. reflexivity.
  - left. discriminate.
Qed.

Lemma clean_set : forall m t alg ps p,
  without_errors E c (PPolicySet m t alg ps) -> In p ps -> without_errors E c p.
Proof.
  intros m t alg ps p (Hm & Hc & Hr & Ha) Hp. repeat split.
  - intros me [(t' & Ht & Hi)|(r & t' & Hr' & Ht & Hi)]; apply Hm.
    + left. exists t'. split; auto. simpl. apply in_or_app. right. apply in_flat_map. eauto.
    + right. exists r, t'. repeat split; auto. simpl. apply in_flat_map. eauto.
  - intros x (r & Hr' & Hx). apply Hc. exists r. split; auto. simpl. apply in_flat_map. eauto.
  - apply Hr. simpl. apply in_flat_map. eauto.
  - apply Hr. simpl. apply in_flat_map. eauto.
  - intros Hi. apply Ha. simpl. right. apply in_flat_map. eauto.
Qed.

Lemma clean_decides : forall p, without_errors E c p ->
  exists d, policy_eval E c p = Ok d /\ d <> Indeterminate.
Proof.
  induction p as [m t alg rules|m t alg ps IH] using policybase_ind'; intros Hw.
  - destruct Hw as (Hm & Hc & Hr & Ha).
    destruct alg as [a|]; [|exfalso; apply Ha; simpl; auto].
    destruct (target_cases t (combine_rules a (rule_eval E c) rules)) as [Ht|Hn].
    + intros t' me -> Hi. apply Hm. left. exists t'. simpl. auto.
    + apply rules_sound; auto. intros r Hi. destruct (Hr r Hi) as (H1 & H2).
      apply sound_rule; auto.
      * intros t' me Ht' Hi'. apply Hm. right. exists r, t'. simpl. auto.
      * intros x Hx. apply Hc. exists r. simpl. auto.
    + exists NotApplicable. split; [exact Hn|discriminate].
  - assert (Hsub : forall p, In p ps -> without_errors E c p) by (intros; eapply clean_set; eauto).
    destruct Hw as (Hm & Hc & Hr & Ha).
    destruct alg as [a|]; [|exfalso; apply Ha; simpl; auto].
    destruct (target_cases t (combine_policies a (policy_eval E c) ps)) as [Ht|Hn].
    + intros t' me -> Hi. apply Hm. left. exists t'. simpl. auto.
    + apply policies_sound; auto. intros p Hp. rewrite Forall_forall in IH. auto.
    + exists NotApplicable. split; [exact Hn|discriminate].
Qed.

Lemma clean_within : forall p q, without_errors E c p -> In q (policies_within p) ->
  without_errors E c q.
Proof.
  induction p as [m t alg rules|m t alg ps IH] using policybase_ind'; intros q Hw Hq; simpl in Hq.
  - destruct Hq as [<-|[]]. exact Hw.
  - destruct Hq as [<-|Hq]; [exact Hw|]. apply in_flat_map in Hq. destruct Hq as (p & Hp & Hq).
    rewrite Forall_forall in IH. apply (IH p Hp q); auto. eapply clean_set; eauto.
Qed.

Lemma clean_exact : forall p, without_errors E c p ->
  policy_eval E c p = Ok (standard E c p) /\ standard E c p <> Indeterminate.
Proof.
  intros p Hw. destruct (clean_decides p Hw) as (d & Hd & Hn).
  assert (S : standard E c p = d).
  { apply decided_exact; auto.
    - destruct Hw as (Hm & Hc & _ & _). split.
      + intros x v Hx Hv. destruct (Hc x Hx) as (b & Hb). exists b. congruence.
      + intros m et vs v w Hi Hr Hv Ha. destruct (Hm m Hi) as (et' & vs' & Hr' & Ha').
        rewrite Hr in Hr'. injection Hr' as -> ->.
        destruct (Ha' v Hv) as (b & Hb). exists b. congruence.
    - intros q Hq Hi. destruct (clean_decides q (clean_within p q Hw Hq)) as (d' & Hd' & Hn').
      congruence. }
  rewrite S. auto.
Qed.

Lemma predicate_bool : forall F f args v, predicate f = true ->
  fn_eval F f args = Ok v -> exists b, v = PNat (NBool b).
Proof.
  intros F f args v. destruct f; try discriminate; intros _; cbn [fn_eval].
  - unfold and_eval. destruct args as [|a args]; [intros [= <-]; eexists; reflexivity|].
    destruct (and_check (a :: args)); simpl; [|discriminate]. intros [= <-]. eexists; reflexivity.
  - unfold not_eval. destruct args as [|a [|]]; try discriminate.
    destruct (as_bool a); [|discriminate]. intros [= <-]. eexists; reflexivity.
  - unfold equal_eval. destruct args as [|[] [|[] [|]]]; try discriminate;
      destruct (av_isinstance _ _); try discriminate;
      try (destruct (av_isinstance _ _); try discriminate); intros [= <-]; eexists; reflexivity.
  - unfold match_eval. destruct args as [|[] [|[] [|]]]; try discriminate;
      destruct (av_isinstance _ _); try discriminate;
      try (destruct (av_isinstance _ _); try discriminate).
    destruct (av_eq _ _); simpl; [|discriminate]. intros [= <-]; eexists; reflexivity.
  - unfold at_least_one_eval. destruct args as [|[] [|[] [|]]]; try discriminate;
      destruct (opt_eqb _ _ _); try discriminate;
      try (destruct (opt_eqb _ _ _); try discriminate); intros [= <-]; eexists; reflexivity.
  - unfold regexp_eval. destruct args as [|[] [|[] [|]]]; try discriminate;
      destruct (av_isinstance _ _); try discriminate;
      try (destruct (av_isinstance _ _); try discriminate).
    unfold regexp_values. destruct (av_value _); try discriminate.
    destruct (fe_compile F s); [discriminate|]. destruct (av_value _); try discriminate.
    intros [= <-]; eexists; reflexivity.
Qed.

Lemma predicates_boolean : forall p,
  (forall m, match_within m p -> exists f, mt_fn m = Some f /\ predicate f = true) ->
  (forall x, condition_within x p ->
     exists i f args, x = XApply i (Some f) args /\ predicate f = true) ->
  boolean_valued E c p.
Proof.
  intros p Hm Hc. split.
  - intros x v Hx. destruct (Hc x Hx) as (i & f & args & -> & Hf). cbn [eval_expr].
    destruct (mapM (eval_expr E c) args) as [vs|e]; cbn [bind]; [|discriminate].
    apply predicate_bool; auto.
  - intros m et vs v w Hi _ _. destruct (Hm m Hi) as (f & Hf & Hp). unfold application.
    rewrite Hf. destruct (mt_value m); apply predicate_bool; auto.
Qed.

End Combine.
