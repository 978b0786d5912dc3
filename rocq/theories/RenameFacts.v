(** Proofs for C97. *)
From Verif Require Import Eval FunFacts SpecStandard SpecRename EvalFacts StandardFacts.
Local Open Scope list_scope.

Definition rmap {A B} (f : A -> B) (r : res A) : res B :=
  match r with Ok x => Ok (f x) | Raise e => Raise e end.

Lemma mapM_rmap : forall {A A' B B'} (f : A -> res B) (f' : A' -> res B') (g : A -> A') (h : B -> B') l,
  (forall x, In x l -> f' (g x) = rmap h (f x)) ->
  mapM f' (map g l) = rmap (map h) (mapM f l).
Proof.
  induction l as [|x l IH]; intros H; simpl; [reflexivity|].
  rewrite H by now left. destruct (f x) as [y|e]; simpl; [|reflexivity].
  rewrite IH by (intros; apply H; now right). destruct (mapM f l); reflexivity.
Qed.

Lemma mapM_id : forall {A A' B} (f : A -> res B) (f' : A' -> res B) (g : A -> A') l,
  (forall x, In x l -> f' (g x) = f x) -> mapM f' (map g l) = mapM f l.
Proof.
  induction l as [|x l IH]; intros H; simpl; [reflexivity|].
  rewrite H by now left. destruct (f x); simpl; [|reflexivity].
  rewrite IH by (intros; apply H; now right). reflexivity.
Qed.

Section Renaming.
Variables ids issuers strings : string -> string.
Hypothesis Hids : one_to_one ids.
Hypothesis Hiss : one_to_one issuers.
Hypothesis Hstr : one_to_one strings.
Notation rnv := (rn_value strings).
Notation rnp := (rn_pyval strings).
Notation rna := (rn_attribute ids issuers strings).
Notation rnr := (rn_request ids issuers strings).
Notation rnd := (rn_designator ids issuers).
Notation rnx := (rn_expr ids issuers strings).
Notation rnm := (rn_match ids issuers strings).
Notation rnt := (rn_target ids issuers strings).
Notation rnl := (rn_rule ids issuers strings).
Notation rnpol := (rn_policy ids issuers strings).

Lemma eqb_one : forall f, one_to_one f -> forall s t, String.eqb (f s) (f t) = String.eqb s t.
Proof.
  intros f Hf s t. destruct (String.eqb s t) eqn:H.
  - apply String.eqb_eq in H. subst. apply String.eqb_refl.
  - apply String.eqb_neq in H. apply String.eqb_neq. auto.
Qed.

Lemma ostr_one : forall f, one_to_one f -> forall s t,
  ostr_eqb (option_map f s) (option_map f t) = ostr_eqb s t.
Proof. intros f Hf [s|] [t|]; simpl; auto. now apply eqb_one. Qed.

Lemma native_one : forall x y, native_eqb (rn_native strings x) (rn_native strings y) = native_eqb x y.
Proof. intros x y. destruct x, y; try reflexivity. unfold native_eqb. simpl. now apply eqb_one. Qed.

Lemma av_eq_one : forall a b, av_eq (rnv a) (rnv b) = av_eq a b.
Proof.
  intros [ca da va] [cb db vb]. unfold av_eq, av_dunder_eq, av_isinstance. simpl.
  rewrite !native_one. reflexivity.
Qed.

Lemma attr_match_one : forall d a, attr_match (rnd d) (rna a) = attr_match d a.
Proof.
  intros d a. unfold attr_match. cbn [rn_designator rn_attribute dg_id dg_dataType dg_issuer
    at_id at_dataType at_issuer].
  rewrite (ostr_one ids Hids). destruct (dg_issuer d) as [i|]; [|reflexivity].
  cbn [option_map]. change (Some (issuers i)) with (option_map issuers (Some i)).
  now rewrite (ostr_one issuers Hiss).
Qed.

Lemma typed_one : forall d a, typed_values (rnd d) (rna a) = map rnv (typed_values d a).
Proof.
  intros d a. unfold typed_values. cbn [rn_attribute at_values rn_designator dg_dataType].
  induction (at_values a) as [|v l IH]; cbn [map filter]; [reflexivity|].
  change (av_dataType (rnv v)) with (av_dataType v).
  destruct (ostr_eqb (Some (av_dataType v)) (dg_dataType d)); cbn [map]; now rewrite IH.
Qed.

Lemma bag_check_one : forall et v, bag_check et (rnp v) = rmap rnv (bag_check et v).
Proof.
  intros et v. destruct v as [n|a|e l|o b]; try (destruct et; reflexivity).
  unfold bag_check. simpl. destruct et as [c|]; simpl; [|reflexivity].
  unfold av_isinstance, rn_value. simpl.
  destruct (issubclass (av_class a) c); reflexivity.
Qed.

Lemma bag_extend_one : forall et bag items,
  bag_extend et (map rnv bag) (map rnp items) = rmap (map rnv) (bag_extend et bag items).
Proof.
  intros et bag items. unfold bag_extend.
  rewrite (mapM_rmap (bag_check et) (bag_check et) rnp rnv) by (intros; apply bag_check_one).
  destruct (mapM (bag_check et) items); simpl; [|reflexivity]. now rewrite map_app.
Qed.

Lemma attrs_map : forall l, map PAttr (map rnv l) = map rnp (map PAttr l).
Proof. intros. rewrite !map_map. reflexivity. Qed.

Lemma collect_attrs_one : forall d et attrs bag,
  collect_attrs (rnd d) et (map rnv bag) (map rna attrs) =
  rmap (map rnv) (collect_attrs d et bag attrs).
Proof.
  induction attrs as [|a attrs IH]; intros bag; [reflexivity|].
  cbn [collect_attrs map]. rewrite attr_match_one. destruct (attr_match d a); [|apply IH].
  rewrite typed_one, attrs_map, bag_extend_one.
  destruct (bag_extend et bag (map PAttr (typed_values d a))); cbn [bind rmap]; [apply IH|reflexivity].
Qed.

Lemma contains_one : forall bag x, bag_contains (map rnv bag) (rnp x) = bag_contains bag x.
Proof.
  induction bag as [|i bag IH]; intros x; [reflexivity|]. simpl.
  destruct x as [n|a|e l|o b]; try reflexivity. cbn [rn_pyval].
  rewrite av_eq_one. destruct (av_eq i a) as [[]|]; simpl; try reflexivity. apply (IH (PAttr a)).
Qed.

Lemma filter_new_one : forall bag vs,
  filter_new (map rnv bag) (map rnp vs) = rmap (map rnp) (filter_new bag vs).
Proof.
  induction vs as [|v vs IH]; [reflexivity|]. cbn [filter_new map]. rewrite contains_one.
  destruct (bag_contains bag v) as [b|]; cbn [bind rmap]; [|reflexivity]. rewrite IH.
  destruct (filter_new bag vs); cbn [bind rmap]; [|reflexivity]. now destruct b.
Qed.

Definition rn_answer (a : option (list pyval)) : option (list pyval) := option_map (map rnp) a.

Lemma add_pip_one : forall et bag a,
  add_pip_values et (map rnv bag) (rn_answer a) = rmap (map rnv) (add_pip_values et bag a).
Proof.
  intros et bag [vs|]; [|reflexivity]. cbn [rn_answer option_map add_pip_values].
  destruct bag as [|b bag].
  - cbn [map bind]. change (@nil attrval) with (map rnv []). apply bag_extend_one.
  - cbn [map]. change (rnv b :: map rnv bag) with (map rnv (b :: bag)).
    rewrite filter_new_one. destruct (filter_new (b :: bag) vs); cbn [bind rmap]; [|reflexivity].
    apply bag_extend_one.
Qed.

Variables E E' : env.
Variable r : request.
Hypothesis HE : answers_renamed ids issuers strings E E' r.
Notation c := (CtxRequest r).
Notation c' := (CtxRequest (rnr r)).

Lemma class_one : forall dt, class_for E' dt = class_for E dt.
Proof. intros [dt|]; [|reflexivity]. simpl. now rewrite (proj1 (proj2 HE)). Qed.

Lemma pip_one : forall d, en_pip E' (rnr r) (rnd d) = rmap rn_answer (en_pip E r d).
Proof.
  intros d. rewrite (proj2 (proj2 HE)). destruct (en_pip E r d) as [[l|]|]; reflexivity.
Qed.

Lemma collect_subjects_one : forall d et subs bag,
  collect_subjects E' (rnr r) (rnd d) et (map rnv bag)
    (map (fun s => mkSubject (sb_category s) (map rna (sb_attributes s))) subs) =
  rmap (map rnv) (collect_subjects E r d et bag subs).
Proof.
  induction subs as [|s subs IH]; intros bag; [reflexivity|].
  cbn [collect_subjects map sb_attributes]. rewrite collect_attrs_one.
  destruct (collect_attrs d et bag (sb_attributes s)) as [bag1|]; cbn [bind rmap]; [|reflexivity].
  cbn [rn_request rq_ctxHandler]. destruct (rq_ctxHandler r) as [n|]; cbn [bind]; [|apply IH].
  match goal with |- context [en_pip E' ?q (rnd d)] => change q with (rnr r) end.
  rewrite pip_one. destruct (en_pip E r d) as [a|]; cbn [bind rmap]; [|reflexivity].
  rewrite add_pip_one. destruct (add_pip_values et bag1 a); cbn [bind rmap]; [apply IH|reflexivity].
Qed.

Lemma collect_resources_one : forall d et rs bag,
  collect_resources (rnd d) et (map rnv bag)
    (map (fun s => mkResource (rs_content s) (map rna (rs_attributes s))) rs) =
  rmap (map rnv) (collect_resources d et bag rs).
Proof.
  induction rs as [|s rs IH]; intros bag; [reflexivity|].
  cbn [collect_resources map rs_attributes]. rewrite collect_attrs_one.
  destruct (collect_attrs d et bag (rs_attributes s)); cbn [bind rmap]; [apply IH|reflexivity].
Qed.

Lemma present_one : forall must et l,
  check_present must et (map rnv l) = rmap rnp (check_present must et l).
Proof. intros [] et [|v l]; reflexivity. Qed.

Lemma designator_one : forall d, eval_designator E' (rnd d) c' = rmap rnp (eval_designator E d c).
Proof.
  intros d. unfold eval_designator.
  cbn [rn_designator dg_kind dg_dataType dg_mustBePresent]. rewrite class_one.
  assert (P : forall x : res (list attrval),
    bind (rmap (map rnv) x) (check_present (dg_mustBePresent d) (class_for E (dg_dataType d))) =
    rmap rnp (bind x (check_present (dg_mustBePresent d) (class_for E (dg_dataType d))))).
  { intros [l|e]; simpl; [apply present_one|reflexivity]. }
  destruct (dg_kind d).
  - etransitivity; [|apply P]. f_equal.
    exact (collect_subjects_one d _ (rq_subjects r) []).
  - etransitivity; [|apply P]. f_equal.
    exact (collect_resources_one d _ (rq_resources r) []).
  - etransitivity; [|apply P]. f_equal. cbn [rn_request rq_action].
    destruct (rq_action r) as [l|]; [|reflexivity]. exact (collect_attrs_one d _ l []).
  - etransitivity; [|apply P]. f_equal. cbn [rn_request rq_environment].
    destruct (rq_environment r) as [l|]; [|reflexivity]. exact (collect_attrs_one d _ l []).
Qed.

(** The functions and selectors that take part. *)
Variable good : fn -> bool.
Variable sel : bool.
Hypothesis Hgood : forall f args, good f = true ->
  fn_eval (en_fenv E) f (map rnp args) = rmap rnp (fn_eval (en_fenv E) f args).
Hypothesis Hsel : sel = true ->
  forall s, eval_selector E' s c' = rmap rnp (eval_selector E s c).

Fixpoint fits (x : expr) : bool :=
  match x with
  | XApply _ f args => match f with Some f => good f | None => true end && forallb fits args
  | XSelector _ => sel
  | _ => true
  end.
Definition fits_match (m : matchel) : Prop :=
  (forall f, mt_fn m = Some f -> good f = true) /\
  (mt_designator m <> None \/ mt_selector m = None \/ sel = true).

Lemma expr_one : forall x, fits x = true -> eval_expr E' c' (rnx x) = rmap rnp (eval_expr E c x).
Proof.
  induction x as [i f args IH|a|d|s] using EvalFacts.expr_ind'; intros H.
  - cbn [eval_expr rn_expr]. cbn [fits] in H. apply andb_prop in H. destruct H as (Hf & Ha).
    rewrite (mapM_rmap (eval_expr E c) (eval_expr E' c') rnx rnp).
    + destruct (mapM (eval_expr E c) args) as [vs|]; cbn [bind rmap]; [|reflexivity].
      destruct f as [f|]; [|reflexivity]. rewrite (proj1 HE). now apply Hgood.
    + rewrite Forall_forall in IH. rewrite forallb_forall in Ha. intros x Hx. apply IH; auto.
  - reflexivity.
  - apply designator_one.
  - apply Hsel. exact H.
Qed.

Lemma truthy_one : forall v, truthy (rnp v) = truthy v.
Proof. intros [| |et [|]|]; reflexivity. Qed.

Lemma match_one : forall m, fits_match m -> eval_match E' c' (rnm m) = eval_match E c m.
Proof.
  intros m (Hf & Hs). rewrite !eval_match_eq.
  assert (R : retrieved E' c' (rnm m) = rmap rnp (retrieved E c m)).
  { unfold retrieved. cbn [rn_match mt_designator mt_selector].
    destruct (mt_designator m) as [d|]; cbn [option_map]; [apply designator_one|].
    destruct (mt_selector m) as [s|]; [|reflexivity].
    destruct Hs as [Hs|[Hs|Hs]]; try congruence. now apply Hsel. }
  rewrite R. destruct (retrieved E c m) as [v|] eqn:V; cbn [bind rmap]; [|reflexivity].
  destruct (retrieved_bag E c m v V) as (et & vs & ->). cbn [rn_pyval bag_items].
  rewrite (mapM_rmap (application E m) (application E' (rnm m)) rnv rnp).
  - destruct (mapM (application E m) vs) as [ws|]; cbn [bind rmap]; [|reflexivity]. f_equal.
    induction ws as [|w ws IH]; simpl; [reflexivity|]. now rewrite truthy_one, IH.
  - intros v _. unfold application. cbn [rn_match mt_fn mt_value].
    destruct (mt_fn m) as [f|]; [|reflexivity]. rewrite (proj1 HE).
    destruct (mt_value m) as [a|]; cbn [option_map].
    + exact (Hgood f [PAttr a; PAttr v] (Hf f eq_refl)).
    + exact (Hgood f [PNat NNone; PAttr v] (Hf f eq_refl)).
Qed.

Lemma child_one : forall ms, (forall m, In m ms -> fits_match m) ->
  match_child E' c' (map rnm ms) = match_child E c ms.
Proof.
  intros ms H. unfold match_child.
  rewrite (mapM_id (eval_match E c) (eval_match E' c') rnm); [reflexivity|].
  intros m Hm. apply match_one. auto.
Qed.

Lemma section_one : forall s, (forall m, In m (concat s) -> fits_match m) ->
  match_section E' c' (map (map rnm) s) = match_section E c s.
Proof.
  intros s H.
  assert (L : forall l st, (forall ms, In ms l -> In ms s) ->
    section_loop E' c' st (map (map rnm) l) = section_loop E c st l).
  { induction l as [|ms l IH]; intros st Hl; [reflexivity|]. cbn [map section_loop].
    rewrite child_one.
    - destruct (match_child E c ms); cbn [bind]; [|reflexivity]. apply IH. intros; apply Hl; now right.
    - intros m Hm. apply H. apply in_concat. exists ms. split; [apply Hl; now left|exact Hm]. }
  unfold match_section. destruct s as [|ms s]; [reflexivity|]. apply (L (ms :: s) false). auto.
Qed.

Lemma target_one : forall t, (forall m, In m (matches_of t) -> fits_match m) ->
  target_match E' c' (rnt t) = target_match E c t.
Proof.
  intros t H. unfold target_match. cbn [rn_target tg_subjects tg_resources tg_actions tg_environments].
  assert (S : forall s, In s [tg_subjects t; tg_resources t; tg_actions t; tg_environments t] ->
    match_section E' c' (map (map rnm) s) = match_section E c s).
  { intros s Hs. apply section_one. intros m Hm. apply H. unfold matches_of.
    rewrite !concat_app, !in_app_iff. destruct Hs as [<-|[<-|[<-|[<-|[]]]]]; auto. }
  f_equal. change [map (map rnm) (tg_subjects t); map (map rnm) (tg_resources t);
     map (map rnm) (tg_actions t); map (map rnm) (tg_environments t)]
    with (map (map (map rnm)) [tg_subjects t; tg_resources t; tg_actions t; tg_environments t]).
  now apply mapM_id.
Qed.

Lemma otarget_one : forall t, (forall t' m, t = Some t' -> In m (matches_of t') -> fits_match m) ->
  match option_map rnt t with Some t => target_match E' c' t | None => Ok true end =
  match t with Some t => target_match E c t | None => Ok true end.
Proof. intros [t|] H; [|reflexivity]. cbn [option_map]. apply target_one. intros m. now apply H. Qed.

Lemma rule_one : forall rl,
  (forall t m, rl_target rl = Some t -> In m (matches_of t) -> fits_match m) ->
  (forall x, rl_condition rl = Some (Some x) -> fits x = true) ->
  rule_eval E' c' (rnl rl) = rule_eval E c rl.
Proof.
  intros rl Ht Hc. unfold rule_eval. f_equal. unfold rule_body.
  cbn [rn_rule rl_target rl_condition rl_effect]. rewrite (otarget_one _ Ht).
  destruct (match rl_target rl with Some t => target_match E c t | None => Ok true end) as [[]|];
    cbn [bind negb]; try reflexivity.
  destruct (rl_condition rl) as [[x|]|]; cbn [option_map eval_condition bind]; try reflexivity.
  rewrite (expr_one x (Hc x eq_refl)). destruct (eval_expr E c x) as [v|]; cbn [bind rmap]; [|reflexivity].
  now rewrite truthy_one.
Qed.

Lemma rules_one : forall alg rules (ev ev' : rule -> res decision),
  (forall rl, In rl rules -> ev' (rnl rl) = ev rl) ->
  combine_rules alg ev' (map rnl rules) = combine_rules alg ev rules.
Proof.
  intros alg rules ev ev' H. destruct alg; cbn [combine_rules].
  - generalize false at 1 4 as b1. generalize false at 1 3 as b2. generalize false as b3.
    induction rules as [|rl rules IH]; intros; [reflexivity|]. cbn [map rules_deny_overrides].
    rewrite H by now left. destruct (ev rl) as [[]|]; cbn [bind]; try reflexivity;
      try (apply IH; intros; apply H; now right).
    cbn [rn_rule rl_effect]. destruct (rl_effect rl) as [[]|]; try reflexivity;
      apply IH; intros; apply H; now right.
  - generalize false at 1 4 as b1. generalize false at 1 3 as b2. generalize false as b3.
    induction rules as [|rl rules IH]; intros; [reflexivity|]. cbn [map rules_permit_overrides].
    rewrite H by now left. destruct (ev rl) as [[]|]; cbn [bind]; try reflexivity;
      try (apply IH; intros; apply H; now right).
    cbn [rn_rule rl_effect]. destruct (rl_effect rl) as [[]|]; try reflexivity;
      apply IH; intros; apply H; now right.
  - induction rules as [|rl rules IH]; [reflexivity|]. cbn [map rules_first_applicable].
    rewrite H by now left. destruct (ev rl) as [[]|]; cbn [bind]; try reflexivity.
    apply IH; intros; apply H; now right.
Qed.

Lemma policies_one : forall alg ps (ev ev' : policybase -> res decision),
  (forall p, In p ps -> ev' (rnpol p) = ev p) ->
  combine_policies alg ev' (map rnpol ps) = combine_policies alg ev ps.
Proof.
  intros alg ps ev ev' H. destruct alg; cbn [combine_policies].
  - generalize false as b1.
    induction ps as [|p ps IH]; intros; [reflexivity|]. cbn [map policies_deny_overrides].
    rewrite H by now left. destruct (ev p) as [[]|]; cbn [bind]; try reflexivity;
      apply IH; intros; apply H; now right.
  - generalize false at 1 3 as b1. generalize false as b2.
    induction ps as [|p ps IH]; intros; [reflexivity|]. cbn [map policies_permit_overrides].
    rewrite H by now left. destruct (ev p) as [[]|]; cbn [bind]; try reflexivity;
      apply IH; intros; apply H; now right.
  - induction ps as [|p ps IH]; [reflexivity|]. cbn [map policies_first_applicable].
    rewrite H by now left. destruct (ev p) as [[]|]; cbn [bind]; try reflexivity.
    apply IH; intros; apply H; now right.
Qed.

Lemma policy_one : forall p,
  (forall x, condition_within x p -> fits x = true) ->
  (forall m, match_within m p -> fits_match m) ->
  policy_eval E' c' (rnpol p) = policy_eval E c p.
Proof.
  induction p as [m t alg rules|m t alg ps IH] using policybase_ind'; intros Hc Hm.
  - cbn [policy_eval rn_policy]. f_equal. unfold with_target.
    rewrite otarget_one.
    2:{ intros t' mt -> Hi. apply Hm. left. exists t'. split; [now left|exact Hi]. }
    f_equal. destruct alg as [alg|]; [|reflexivity]. rewrite (rules_one alg rules (rule_eval E c)); [reflexivity|].
    intros rl Hi. apply rule_one.
    + intros t' mt Ht Hx. apply Hm. right. exists rl, t'. auto.
    + intros x Hx. apply Hc. exists rl. auto.
  - cbn [policy_eval rn_policy]. f_equal. unfold with_target.
    rewrite otarget_one.
    2:{ intros t' mt -> Hi. apply Hm. left. exists t'. split; [now left|exact Hi]. }
    f_equal. destruct alg as [alg|]; [|reflexivity]. rewrite (policies_one alg ps (policy_eval E c)); [reflexivity|].
    rewrite Forall_forall in IH. intros p Hi. apply (IH p Hi).
    + intros x (rl & Hr & Hx). apply Hc. exists rl. split; [|exact Hx]. simpl. apply in_flat_map. eauto.
    + intros mt [(t' & Ht & Hx)|(rl & t' & Hr & Hx)]; apply Hm.
      * left. exists t'. split; [|exact Hx]. simpl. apply in_or_app. right. apply in_flat_map. eauto.
      * right. exists rl, t'. split; [|exact Hx]. simpl. apply in_flat_map. eauto.
Qed.

End Renaming.

(** ** The functions *)

Section Functions.
Variable strings : string -> string.
Hypothesis Hstr : one_to_one strings.
Notation rnv := (rn_value strings).
Notation rnp := (rn_pyval strings).

Lemma as_bool_one : forall v, as_bool (rnp v) = as_bool v.
Proof. intros [[]| | |]; reflexivity. Qed.

Lemma inst_one : forall a c, av_isinstance (rnv a) c = av_isinstance a c.
Proof. reflexivity. Qed.

Lemma natives_one : forall l, map av_value (map rnv l) = map (rn_native strings) (map av_value l).
Proof. intros. rewrite !map_map. reflexivity. Qed.

Lemma py_set_one : forall l, py_set (map (rn_native strings) l) = map (rn_native strings) (py_set l).
Proof.
  assert (Fl : forall x l, filter (fun y => negb (native_eqb (rn_native strings x) y)) (map (rn_native strings) l)
    = map (rn_native strings) (filter (fun y => negb (native_eqb x y)) l)).
  { intros x l. induction l as [|y l IH]; simpl; [reflexivity|]. rewrite (native_one strings Hstr).
    destruct (native_eqb x y); simpl; now rewrite IH. }
  induction l as [|x l IH]; simpl; [reflexivity|]. now rewrite IH, Fl.
Qed.

Lemma set_and_one : forall l1 l2,
  length (set_and (map (rn_native strings) l1) (map (rn_native strings) l2)) = length (set_and l1 l2).
Proof.
  intros l1 l2. unfold set_and.
  assert (X : forall x, existsb (native_eqb (rn_native strings x)) (map (rn_native strings) l2)
    = existsb (native_eqb x) l2).
  { intros x. induction l2 as [|y l2 IH]; simpl; [reflexivity|].
    now rewrite (native_one strings Hstr), IH. }
  induction l1 as [|x l1 IH]; simpl; [reflexivity|]. rewrite X.
  destruct (existsb (native_eqb x) l2); simpl; now rewrite IH.
Qed.

Lemma bag_loop_one : forall c args bag,
  bag_loop c (map rnv bag) (map rnp args) = rmap (map rnv) (bag_loop c bag args).
Proof.
  induction args as [|x args IH]; intros bag; [reflexivity|]. cbn [bag_loop map].
  destruct x as [n|a|e l|o b]; try reflexivity. cbn [rn_pyval]. rewrite inst_one.
  destruct (av_isinstance a c); [|reflexivity].
  change [rnv a] with (map rnv [a]). rewrite <- map_app. apply IH.
Qed.

Lemma comparing_one : forall F f args, comparing f = true ->
  fn_eval F f (map rnp args) = rmap rnp (fn_eval F f args).
Proof.
  intros F f args Hf. destruct f; try discriminate Hf; cbn [fn_eval].
  - (* and *)
    unfold and_eval. destruct args as [|x args]; [reflexivity|].
    cbn [map]. change (rnp x :: map rnp args) with (map rnp (x :: args)).
    assert (A : forall l, and_check (map rnp l) = and_check l).
    { induction l as [|y l IH]; [reflexivity|]. cbn [map and_check]. now rewrite as_bool_one, IH. }
    rewrite A. destruct (and_check (x :: args)); reflexivity.
  - unfold not_eval. destruct args as [|x [|y l]]; try reflexivity. cbn [map].
    rewrite as_bool_one. now destruct (as_bool x).
  - unfold round_eval. destruct args as [|x [|y l]]; try reflexivity.
    + destruct x as [[]| | |]; try reflexivity. destruct f; reflexivity.
    + destruct x as [[]| | |]; try reflexivity. destruct f; reflexivity.
  - unfold equal_eval. destruct args as [|x [|y [|z l]]]; try reflexivity. cbn [map].
    destruct x as [|a| |]; try reflexivity. cbn [rn_pyval]. rewrite inst_one.
    destruct (av_isinstance a c); [|reflexivity]. destruct y as [|b| |]; try reflexivity.
    cbn [rn_pyval]. rewrite inst_one. destruct (av_isinstance b c); [|reflexivity].
    cbn [rn_value av_value]. now rewrite (native_one strings Hstr).
  - unfold match_eval. destruct args as [|x [|y [|z l]]]; try reflexivity. cbn [map].
    destruct x as [|a| |]; try reflexivity. cbn [rn_pyval]. rewrite inst_one.
    destruct (av_isinstance a c); [|reflexivity]. destruct y as [|b| |]; try reflexivity.
    cbn [rn_pyval]. rewrite inst_one. destruct (av_isinstance b c); [|reflexivity].
    rewrite (av_eq_one strings Hstr). now destruct (av_eq a b).
  - unfold bag_eval. change (@nil attrval) with (map rnv []) at 1. rewrite bag_loop_one.
    destruct (bag_loop c [] args); reflexivity.
  - unfold one_and_only_eval. destruct args as [|x [|y l]]; try reflexivity. cbn [map].
    destruct x as [| |et l|]; try reflexivity. cbn [rn_pyval].
    destruct (opt_eqb class_eqb et (Some c)); [|reflexivity].
    destruct l as [|a [|b l]]; reflexivity.
  - unfold at_least_one_eval. destruct args as [|x [|y [|z l]]]; try reflexivity. cbn [map].
    destruct x as [| |e1 l1|]; try reflexivity. cbn [rn_pyval].
    destruct (opt_eqb class_eqb e1 (Some c)); [|reflexivity].
    destruct y as [| |e2 l2|]; try reflexivity. cbn [rn_pyval].
    destruct (opt_eqb class_eqb e2 (Some c)); [|reflexivity].
    cbv zeta. rewrite !natives_one, !py_set_one, set_and_one. reflexivity.
Qed.
End Functions.

(** Strings left as they are. *)
Lemma same_value : forall v, rn_value (fun s => s) v = v.
Proof. intros [c d []]; reflexivity. Qed.
Lemma same_values : forall l, map (rn_value (fun s => s)) l = l.
Proof. intros l. rewrite (map_ext _ (fun v => v)); [apply map_id|apply same_value]. Qed.
Lemma same_pyval : forall v, rn_pyval (fun s => s) v = v.
Proof. intros [| a | et l |]; simpl; rewrite ?same_value, ?same_values; reflexivity. Qed.
Lemma same_result : forall x : res pyval, rmap (rn_pyval (fun s => s)) x = x.
Proof. intros [v|]; simpl; rewrite ?same_pyval; reflexivity. Qed.

Lemma all_fit : forall x, fits (fun _ => true) true x = true.
Proof.
  induction x as [i f args IH|a|d|s] using EvalFacts.expr_ind'; try reflexivity.
  cbn [fits]. replace (match f with Some _ => true | None => true end) with true by now destruct f.
  apply forallb_forall. now rewrite Forall_forall in IH.
Qed.

Lemma compares_fits : forall x, only_compares x = true -> fits comparing false x = true.
Proof. intros x H. exact H. Qed.
