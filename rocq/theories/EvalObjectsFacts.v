(** Evaluating objects is evaluating the documents they stand for. *)
From Verif Require Import SpecEvalObjects EvalFacts.
Require Import Lia.
Local Open Scope string_scope.

(** ** List maxima *)
Lemma list_max_map : forall A (f : A -> nat) l n x, list_max (map f l) <= n -> In x l -> f x <= n.
Proof.
  intros A f l n x L I. apply (proj1 (list_max_le _ _)) in L. rewrite Forall_forall in L.
  apply L, in_map, I.
Qed.

Lemma list_max_cons : forall A (f : A -> nat) x l,
  list_max (map f (x :: l)) = Nat.max (f x) (list_max (map f l)).
Proof. reflexivity. Qed.

Lemma mapM_forall2 : forall A B C (R : A -> B -> Prop) (f : A -> res C) (g : B -> res C) xs ys,
  Forall2 R xs ys -> (forall x y, In y ys -> R x y -> f x = g y) -> mapM f xs = mapM g ys.
Proof.
  intros A B C R f g xs ys F H. induction F as [|x y xs ys Q F IH]; [reflexivity|].
  cbn. rewrite (H x y (or_introl eq_refl) Q). rewrite IH; [reflexivity|].
  intros x' y' I. apply H. right; exact I.
Qed.

Ltac same_bind y := match goal with |- bind ?x _ = bind ?x _ => destruct x as [y|]; [cbn [bind]|reflexivity] end.

Section Refine.
Variable O : oenv.
Variable E : env.
Variable h : heap.
Hypothesis HF : oe_fenv O = en_fenv E.
Hypothesis HC : oe_classes O = en_classes E.
Hypothesis HP : forall r d rq dg, for_request h (PRef r) rq -> for_designator h (PRef d) dg ->
  oe_pip O h r d = en_pip E rq dg.
Hypothesis HX : forall r rq v p, for_request h (PRef r) rq -> maybe for_string p v ->
  oe_xpath O h r v = en_xpath E rq p.

Lemma same_string : forall a b x y, maybe for_string a x -> maybe for_string b y ->
  same x y = ostr_eqb a b.
Proof.
  intros [a|] [b|] x y A B; cbn in *; unfold for_string in *; subst; reflexivity.
Qed.
Lemma o_class_for_ok : forall dt v, maybe for_string dt v -> o_class_for O v = class_for E dt.
Proof. intros [dt|] v D; cbn in *; unfold for_string in *; subst; cbn; [rewrite HC|]; reflexivity. Qed.

Lemma list_items_ok : forall A (R : list pval -> A -> Prop) xs v, listing h R xs v ->
  exists items, list_items h v = Ok items /\ R items xs.
Proof. intros A R xs v (l & t & items & -> & N & Q). exists items. cbn. rewrite N. auto. Qed.

(** The values of a designator *)
Definition dg_values (d : designator) (id dt issuer : pval) : Prop :=
  maybe for_string (dg_id d) id /\ maybe for_string (dg_dataType d) dt /\
  maybe for_string (dg_issuer d) issuer.

Lemma o_attr_match_ok : forall d id dt issuer v a, dg_values d id dt issuer ->
  for_attribute h v a -> o_attr_match h id dt issuer v = Ok (attr_match d a).
Proof.
  intros d id dt issuer v a (D1 & D2 & D3) (n & (-> & attrs & N) & (w1 & G1 & A1) & (w2 & G2 & A2) & (w3 & G3 & A3) & _).
  unfold o_attr_match, attr_match, attr. rewrite G1. cbn [bind].
  rewrite (same_string _ _ _ _ A1 D1). destruct (ostr_eqb (at_id a) (dg_id d)); [|reflexivity].
  cbn [negb andb]. rewrite G2. cbn [bind]. rewrite (same_string _ _ _ _ A2 D2).
  destruct (ostr_eqb (at_dataType a) (dg_dataType d)); [|reflexivity]. cbn [negb andb].
  rewrite G3. cbn [bind]. destruct (dg_issuer d) as [i|]; cbn in D3.
  - rewrite (same_string (Some i) _ _ _ D3 A3). unfold for_string in D3. subst. reflexivity.
  - subst issuer. reflexivity.
Qed.

Lemma for_value_dataType : forall v x, for_value h v x ->
  attr h v "dataType" = Ok (PNat (NStr (av_dataType x))) /\ as_pyval h v = PAttr x.
Proof. intros v x (a & -> & N). cbn. unfold get_attr. rewrite N. auto. Qed.

Lemma o_typed_values_ok : forall d dt items xs, maybe for_string (dg_dataType d) dt ->
  Forall2 (for_value h) items xs ->
  o_typed_values h dt items =
    Ok (map PAttr (filter (fun v => ostr_eqb (Some (av_dataType v)) (dg_dataType d)) xs)).
Proof.
  intros d dt items xs D F. induction F as [|v x items xs V F IH]; [reflexivity|].
  destruct (for_value_dataType v x V) as [A B]. cbn [o_typed_values]. rewrite A, IH, B. cbn [bind filter].
  rewrite (same_string (Some (av_dataType x)) (dg_dataType d) _ _ eq_refl D).
  destruct (ostr_eqb (Some (av_dataType x)) (dg_dataType d)); reflexivity.
Qed.

Lemma o_collect_attrs_ok : forall d id dt issuer et items xs, dg_values d id dt issuer ->
  Forall2 (for_attribute h) items xs -> forall bag,
  o_collect_attrs h id dt issuer et bag items = collect_attrs d et bag xs.
Proof.
  intros d id dt issuer et items xs D F. induction F as [|v x items xs V F IH]; intro bag; [reflexivity|].
  cbn [o_collect_attrs collect_attrs]. rewrite (o_attr_match_ok d id dt issuer v x D V). cbn [bind].
  destruct (attr_match d x); [|apply IH].
  destruct V as (n & (-> & attrs & N) & _ & _ & _ & (l & G & L)).
  destruct (list_items_ok _ _ _ _ L) as (its & I & Q).
  unfold attr. rewrite G. cbn [bind]. rewrite I. cbn [bind].
  rewrite (o_typed_values_ok d dt its _ (proj1 (proj2 D)) Q). cbn [bind]. unfold typed_values.
  destruct (bag_extend et bag _); [apply IH | reflexivity].
Qed.

Lemma for_attributes_ok : forall c v xs, for_attributes h c v xs ->
  exists l items, attr h v "attributes" = Ok l /\ list_items h l = Ok items /\
    Forall2 (for_attribute h) items xs.
Proof.
  intros c v xs (a & (-> & attrs & N) & l & G & L). destruct (list_items_ok _ _ _ _ L) as (items & I & Q).
  exists l, items. auto.
Qed.

Lemma o_collect_subjects_ok : forall r d rq dg id dt issuer et items xs, dg_values dg id dt issuer ->
  for_request h (PRef r) rq -> for_designator h (PRef d) dg ->
  Forall2 (for_subject h) items xs -> forall bag,
  o_collect_subjects O h r d id dt issuer et bag items = collect_subjects E rq dg et bag xs.
Proof.
  intros r d rq dg id dt issuer et items xs D R G F.
  assert (H : exists v, get_attr h r "ctxHandler" = Ok v /\ maybe (fun v n => v = PHandler n) (rq_ctxHandler rq) v).
  { destruct R as (a & (Q & _) & _ & _ & _ & _ & H & _). injection Q as ->. exact H. }
  destruct H as (hv & GH & MH).
  induction F as [|v x items xs V F IH]; intro bag; [reflexivity|].
  cbn [o_collect_subjects collect_subjects]. destruct V as [V _].
  destruct (for_attributes_ok _ _ _ V) as (l & its & A & I & Q).
  rewrite A. cbn [bind]. rewrite I. cbn [bind]. rewrite (o_collect_attrs_ok dg id dt issuer et its _ D Q).
  destruct (collect_attrs dg et bag (sb_attributes x)) as [bag1|]; [|reflexivity]. cbn [bind].
  rewrite GH. cbn [bind]. destruct (rq_ctxHandler rq) as [n|]; cbn in MH; subst hv.
  - rewrite (HP _ _ _ _ R G). destruct (en_pip E rq dg) as [ans|]; [|reflexivity]. cbn [bind].
    destruct (add_pip_values et bag1 ans); [apply IH | reflexivity].
  - cbn [bind PNone]. apply IH.
Qed.

Lemma o_collect_resources_ok : forall d id dt issuer et items xs, dg_values d id dt issuer ->
  Forall2 (for_resource h) items xs -> forall bag,
  o_collect_resources h id dt issuer et bag items = collect_resources d et bag xs.
Proof.
  intros d id dt issuer et items xs D F. induction F as [|v x items xs V F IH]; intro bag; [reflexivity|].
  cbn [o_collect_resources collect_resources]. destruct V as [V _].
  destruct (for_attributes_ok _ _ _ V) as (l & its & A & I & Q).
  rewrite A. cbn [bind]. rewrite I. cbn [bind]. rewrite (o_collect_attrs_ok d id dt issuer et its _ D Q).
  destruct (collect_attrs d et bag (rs_attributes x)); [apply IH | reflexivity].
Qed.

Variable c : pval.
Variable ctx : context.
Hypothesis HCtx : for_context h c ctx.

Lemma context_cases :
  (exists r rq, c = PRef r /\ ctx = CtxRequest rq /\ is_request h c = Some r /\ for_request h (PRef r) rq) \/
  (ctx = CtxOther /\ is_request h c = None).
Proof.
  destruct ctx as [rq|].
  - left. destruct HCtx as (r & (Q & attrs & N) & H). exists r, rq. rewrite Q. cbn. rewrite N.
    repeat split; auto. exists r. split; [split; [reflexivity | eauto] | exact H].
  - right. split; [reflexivity|]. cbn in HCtx. unfold is_request. destruct c as [| a | | | | |]; try reflexivity.
    destruct (nth_error h a) as [[cl attrs| | |]|] eqn:N; try reflexivity.
    destruct cl; try reflexivity. exfalso. exact (HCtx a attrs eq_refl N).
Qed.

Lemma o_eval_designator_ok : forall v d, for_designator h v d ->
  exists a, v = PRef a /\ (exists attrs, nth_error h a = Some (PInst (KDesignator (dg_kind d)) attrs)) /\
    o_eval_designator O h (dg_kind d) a c = eval_designator E d ctx.
Proof.
  intros v d F. pose proof F as F0. destruct F as (a & (-> & N) & (v1 & G1 & M1) & (v2 & G2 & M2) & (v3 & G3 & M3) & (v4 & G4 & M4)).
  exists a. split; [reflexivity|]. split; [exact N|].
  unfold o_eval_designator, eval_designator.
  destruct context_cases as [(r & rq & -> & -> & IR & R)|[-> IR]]; rewrite IR; [|reflexivity].
  rewrite G2. cbn [bind]. rewrite G1. cbn [bind]. rewrite G3. cbn [bind].
  rewrite (o_class_for_ok _ _ M2).
  assert (D : dg_values d v1 v2 v3) by (repeat split; assumption).
  pose proof R as (r' & (Q & _) & (s1 & GS & LS) & (s2 & GR & LR) & (s3 & GA & MA) & (s4 & GE & ME) & _ & _).
  injection Q as <-.
  match goal with |- bind ?x _ = bind ?y _ => assert (Q : x = y) end.
  { destruct (dg_kind d).
    - rewrite GS. cbn [bind]. destruct (list_items_ok _ _ _ _ LS) as (its & I & Q). rewrite I. cbn [bind].
      apply o_collect_subjects_ok; assumption.
    - rewrite GR. cbn [bind]. destruct (list_items_ok _ _ _ _ LR) as (its & I & Q). rewrite I. cbn [bind].
      apply o_collect_resources_ok; assumption.
    - rewrite GA. cbn [bind]. destruct (rq_action rq) as [xs|]; cbn in MA; [|subst s3; reflexivity].
      destruct (for_attributes_ok _ _ _ MA) as (l & its & A & I & Q). rewrite A. cbn [bind]. rewrite I. cbn [bind].
      apply o_collect_attrs_ok; assumption.
    - rewrite GE. cbn [bind]. destruct (rq_environment rq) as [xs|]; cbn in ME; [|subst s4; reflexivity].
      destruct (for_attributes_ok _ _ _ ME) as (l & its & A & I & Q). rewrite A. cbn [bind]. rewrite I. cbn [bind].
      apply o_collect_attrs_ok; assumption. }
  rewrite Q. same_bind bag.
  rewrite G4. cbn [bind]. unfold o_check_present. cbn in M4. unfold for_bool in M4. subst v4. reflexivity.
Qed.

Lemma o_eval_selector_ok : forall v s, for_selector h v s ->
  exists a, v = PRef a /\ (exists attrs, nth_error h a = Some (PInst KSelector attrs)) /\
    o_eval_selector O h a c = eval_selector E s ctx.
Proof.
  intros v s (a & (-> & N) & (v1 & G1 & M1) & (v2 & G2 & M2) & (v3 & G3 & M3)).
  exists a. split; [reflexivity|]. split; [exact N|].
  unfold o_eval_selector, eval_selector.
  destruct context_cases as [(r & rq & -> & -> & IR & R)|[-> IR]]; rewrite IR; [|reflexivity].
  pose proof R as (r' & (Q & _) & _ & _ & _ & _ & _ & (sv & GS & MS)). injection Q as <-.
  rewrite GS. cbn [bind]. destruct (rq_selector rq) as [n|]; cbn in MS; subst sv; [|reflexivity].
  rewrite G2. cbn [bind]. destruct (sl_dataType s) as [dt|]; cbn in M2; unfold for_string in M2; subst v2;
    [|reflexivity].
  cbn [class_for]. rewrite HC. destruct (dict_get dt (en_classes E)) as [cls|]; [|reflexivity].
  rewrite G1. cbn [bind]. rewrite (HX _ _ _ _ R M1). destruct (en_xpath E rq (sl_path s)) as [ts|]; [|reflexivity].
  cbn [bind]. destruct (selector_loop cls dt [] ts) as [bag|]; [|reflexivity]. cbn [bind]. rewrite G3. cbn [bind].
  unfold o_check_present. destruct (sl_mustBePresent s); cbn in M3; [unfold for_bool in M3|]; subst v3; reflexivity.
Qed.

Lemma for_exprs_forall2 : forall vs xs, for_exprs h vs xs -> Forall2 (for_expr h) vs xs.
Proof. induction vs; intros xs F; inversion F; subst; constructor; auto. Qed.

Lemma o_eval_expr_ok : forall x v n, for_expr h v x -> expr_depth x <= n ->
  o_eval_expr O h n c v = eval_expr E ctx x.
Proof.
  intro x. induction x as [fid f args IH|y|d|s] using expr_ind'; intros v n F L; inversion F; subst; clear F;
    (destruct n as [|n]; [cbn [expr_depth] in L; lia|]).
  - match goal with
    | I : instance h _ KApply _, F : attr_is h _ "function" _, L : get_attr h _ "expressions" = _,
      NL : nth_error h _ = Some (PTypedList _ _) |- _ =>
        destruct I as (-> & attrs & N); destruct F as (fv & G & M); cbn [o_eval_expr eval_expr]; rewrite N, L;
        cbn [bind list_items]; rewrite NL; cbn [bind]
    end.
    match goal with |- bind ?x _ = bind ?y _ => assert (Q : x = y) end.
    { eapply mapM_forall2; [apply for_exprs_forall2; eassumption|]. intros w y I W.
      rewrite Forall_forall in IH. apply (IH y I); [exact W|]. cbn [expr_depth] in L.
      apply (list_max_map _ expr_depth args); [lia | exact I]. }
    rewrite Q. destruct (mapM (eval_expr E ctx) args); [|reflexivity]. cbn [bind]. rewrite G. cbn [bind].
    destruct f as [f|]; cbn in M; [unfold for_function in M|]; subst fv; cbn; [rewrite HF|]; reflexivity.
  - destruct H1 as (a & -> & N). cbn. rewrite N. reflexivity.
  - destruct (o_eval_designator_ok _ _ H1) as (a & -> & (attrs & N) & Q). cbn. rewrite N. exact Q.
  - destruct (o_eval_selector_ok _ _ H1) as (a & -> & (attrs & N) & Q). cbn. rewrite N. exact Q.
Qed.

Lemma o_eval_match_ok : forall k v m, for_match h k v m -> o_eval_match O h c v = eval_match E ctx m.
Proof.
  intros k v m (a & (-> & N) & _ & (v1 & G1 & M1) & (v2 & G2 & M2) & (v3 & G3 & M3) & (v4 & G4 & M4)).
  unfold o_eval_match, eval_match, attr. rewrite G3. cbn [bind].
  match goal with |- bind ?x _ = bind ?y _ => assert (Q : x = y) end.
  { destruct (mt_designator m) as [d|]; cbn in M3.
    - destruct (o_eval_designator_ok _ _ M3) as (b & -> & (attrs & Nb) & Q). rewrite Nb. exact Q.
    - subst v3. rewrite G4. cbn [bind]. destruct (mt_selector m) as [s|]; cbn in M4; [|subst v4; reflexivity].
      destruct (o_eval_selector_ok _ _ M4) as (b & -> & (attrs & Nb) & Q). rewrite Nb. exact Q. }
  rewrite Q. same_bind bag. rewrite G1. cbn [bind]. rewrite G2. cbn [bind].
  rewrite (mapM_ext_in _ _ _ (match_fn_apply E m)); [reflexivity|].
  intros x _. unfold match_fn_apply. destruct (mt_fn m) as [f|]; cbn in M1; [unfold for_function in M1|]; subst v1;
    [|reflexivity].
  rewrite HF. destruct (mt_value m) as [y|]; cbn in M2.
  - rewrite (proj2 (for_value_dataType _ _ M2)). reflexivity.
  - subst v2. reflexivity.
Qed.

Lemma o_match_child_ok : forall k v ms, for_child h k v ms -> o_match_child O h c v = match_child E ctx ms.
Proof.
  intros k v ms (a & (-> & N) & (l & G & L)). unfold o_match_child, match_child, attr. rewrite G. cbn [bind].
  destruct (list_items_ok _ _ _ _ L) as (its & I & Q). rewrite I. cbn [bind].
  rewrite (mapM_forall2 _ _ _ _ (o_eval_match O h c) (eval_match E ctx) its ms Q); [reflexivity|].
  intros x y _ M. eapply o_eval_match_ok; exact M.
Qed.

Lemma o_section_loop_ok : forall k items xs, Forall2 (for_child h k) items xs -> forall b,
  o_section_loop O h c b items = section_loop E ctx b xs.
Proof.
  intros k items xs F. induction F as [|v x items xs V F IH]; intro b; [reflexivity|].
  cbn [o_section_loop section_loop]. rewrite (o_match_child_ok k v x V).
  destruct (match_child E ctx x) as [r|]; [apply IH | reflexivity].
Qed.

Lemma o_match_section_ok : forall k a name xs,
  attr_is h a name (listing h (Forall2 (for_child h k)) xs) ->
  o_match_section O h c (PRef a) name = match_section E ctx xs.
Proof.
  intros k a name xs (l & G & L). unfold o_match_section, attr. rewrite G. cbn [bind].
  destruct (list_items_ok _ _ _ _ L) as (its & I & Q). rewrite I. cbn [bind].
  destruct Q as [|v x its xs V Q]; [reflexivity|]. unfold match_section. eapply o_section_loop_ok.
  constructor; eassumption.
Qed.

Lemma o_target_match_ok : forall v t, for_target h v t -> o_target_match O h c v = target_match E ctx t.
Proof.
  intros v t (a & (-> & N) & S1 & S2 & S3 & S4). unfold o_target_match, target_match, mapM.
  rewrite (o_match_section_ok _ _ _ _ S1), (o_match_section_ok _ _ _ _ S2), (o_match_section_ok _ _ _ _ S3),
    (o_match_section_ok _ _ _ _ S4). reflexivity.
Qed.

Lemma o_check_target_ok : forall a t, attr_is h a "target" (maybe (for_target h) t) ->
  o_check_target O h c (PRef a) = match t with Some t => target_match E ctx t | None => Ok true end.
Proof.
  intros a t (v & G & M). unfold o_check_target, attr. rewrite G. cbn [bind].
  destruct t as [t|]; cbn in M; [|subst v; reflexivity].
  rewrite <- (o_target_match_ok _ _ M). destruct M as (b & (-> & _) & _). reflexivity.
Qed.

(** The effect of a rule *)
Lemma o_effect_value_ok : forall v r, for_rule h v r ->
  o_effect_value h v = match rl_effect r with
                       | Some EffPermit => Ok (PNat (NStr "Permit"))
                       | Some EffDeny => Ok (PNat (NStr "Deny"))
                       | None => Raise EAttributeError
                       end.
Proof.
  intros v r (a & (-> & N) & _ & (w & G & M) & _). unfold o_effect_value, attr. rewrite G. cbn [bind].
  destruct (rl_effect r) as [e|]; cbn in M; [|subst w; reflexivity].
  destruct M as (b & -> & Nb). unfold get_attr. rewrite Nb. destruct e; reflexivity.
Qed.

Lemma o_rule_eval_ok : forall v r n, for_rule h v r -> rule_depth r <= n ->
  o_rule_eval O h n c v = rule_eval E ctx r.
Proof.
  intros v r n F L. unfold o_rule_eval, rule_eval. f_equal. unfold o_rule_body, rule_body.
  pose proof (o_effect_value_ok v r F) as EV. destruct F as (a & (-> & N) & _ & _ & T & (w & G & M) & _).
  rewrite (o_check_target_ok _ _ T).
  same_bind b.
  destruct (negb b); [reflexivity|]. unfold attr at 1. rewrite G. cbn [bind]. rewrite EV.
  match goal with |- bind ?x _ = bind ?y _ => assert (Q : x = y) end.
  { unfold rule_depth in L. destruct (rl_condition r) as [cond|]; cbn in M; [|subst w; reflexivity].
    destruct M as (x & (-> & Nx) & (y & Gy & My)). unfold o_eval_condition, attr. rewrite Gy. cbn [bind eval_condition].
    destruct cond as [e|]; cbn in My.
    - apply o_eval_expr_ok; assumption.
    - subst y. unfold eval_condition. destruct n; reflexivity. }
  rewrite Q. same_bind s.
  destruct (truthy s); [|reflexivity]. destruct (rl_effect r) as [[|]|]; reflexivity.
Qed.

(** ** Combining *)

Lemma rules_combined : forall n items rs, Forall2 (for_rule h) items rs ->
  list_max (map rule_depth rs) <= n -> forall alg,
  o_combine_rules h alg (o_rule_eval O h n c) items = combine_rules alg (rule_eval E ctx) rs.
Proof.
  intros n items rs F L.
  assert (Q : Forall2 (fun v r => for_rule h v r /\ o_rule_eval O h n c v = rule_eval E ctx r) items rs).
  { clear -F L HF HC HP HX HCtx. induction F as [|v r items rs V F IH]; constructor.
    - split; [exact V|]. apply o_rule_eval_ok; [exact V|]. rewrite list_max_cons in L. lia.
    - apply IH. rewrite list_max_cons in L. lia. }
  clear F L. intros [| |]; cbn [o_combine_rules combine_rules].
  - generalize false at 1 4. generalize false at 1 3. generalize false.
    induction Q as [|v r items rs [V A] Q IH]; intros x y z; [reflexivity|].
    cbn [o_rules_deny_overrides rules_deny_overrides]. rewrite A. destruct (rule_eval E ctx r) as [d|]; [|reflexivity].
    cbn [bind]. destruct d; try reflexivity; try apply IH.
    unfold o_effect_is_deny. rewrite (o_effect_value_ok v r V).
    destruct (rl_effect r) as [[|]|]; [apply IH | apply IH | reflexivity].
  - generalize false at 1 4. generalize false at 1 3. generalize false.
    induction Q as [|v r items rs [V A] Q IH]; intros x y z; [reflexivity|].
    cbn [o_rules_permit_overrides rules_permit_overrides]. rewrite A. destruct (rule_eval E ctx r) as [d|]; [|reflexivity].
    cbn [bind]. destruct d; try reflexivity; try apply IH.
    unfold o_effect_is_permit. rewrite (o_effect_value_ok v r V).
    destruct (rl_effect r) as [[|]|]; [apply IH | apply IH | reflexivity].
  - induction Q as [|v r items rs [V A] Q IH]; [reflexivity|].
    cbn [o_first_applicable rules_first_applicable]. rewrite A. destruct (rule_eval E ctx r) as [[]|];
      cbn [bind]; try reflexivity; apply IH.
Qed.

Lemma policies_combined : forall ev items ps,
  Forall2 (fun v p => ev v = policy_eval E ctx p) items ps -> forall alg,
  o_combine_policies alg ev items = combine_policies alg (policy_eval E ctx) ps.
Proof.
  intros ev items ps Q [| |]; cbn [o_combine_policies combine_policies].
  - generalize false. induction Q as [|v r items rs A Q IH]; intros x; [reflexivity|].
    cbn [o_policies_deny_overrides policies_deny_overrides]. rewrite A.
    destruct (policy_eval E ctx r) as [[]|]; cbn [bind]; try reflexivity; apply IH.
  - generalize false at 1 3. generalize false. induction Q as [|v r items rs A Q IH]; intros x y; [reflexivity|].
    cbn [o_policies_permit_overrides policies_permit_overrides]. rewrite A.
    destruct (policy_eval E ctx r) as [[]|]; cbn [bind]; try reflexivity; apply IH.
  - induction Q as [|v r items rs A Q IH]; [reflexivity|].
    cbn [o_first_applicable policies_first_applicable]. rewrite A.
    destruct (policy_eval E ctx r) as [[]|]; cbn [bind]; try reflexivity; apply IH.
Qed.

Lemma for_policies_forall2 : forall vs xs, for_policies h vs xs -> Forall2 (for_policy h) vs xs.
Proof. induction vs; intros xs F; inversion F; subst; constructor; auto. Qed.

Lemma o_policy_eval_ok : forall p v n, for_policy h v p -> policy_depth p <= n ->
  o_policy_eval O h n c v = policy_eval E ctx p.
Proof.
  intro p. induction p as [m t alg rules|m t alg ps IH] using policybase_ind'; intros v n F L;
    cbn [policy_depth] in L; (destruct n as [|n]; [lia|]); inversion F; subst; clear F;
    match goal with I : instance h _ _ _ |- _ => destruct I as (-> & attrs & N) end;
    cbn [o_policy_eval policy_eval]; rewrite N; f_equal; unfold with_target;
    match goal with T : attr_is h _ "target" _ |- _ => rewrite (o_check_target_ok _ _ T) end;
    same_bind b; (destruct (negb b); [reflexivity|]).
  - match goal with A : attr_is h _ "ruleCombiningAlg" _, R : attr_is h _ "rules" _ |- _ =>
      destruct A as (av & GA & MA); destruct R as (l & GR & LR) end.
    rewrite GA. cbn [bind]. destruct alg as [x|]; cbn in MA; [unfold for_algorithm in MA|]; subst av; [|reflexivity].
    rewrite GR. cbn [bind]. destruct (list_items_ok _ _ _ _ LR) as (its & I & Q). rewrite I. cbn [bind].
    apply rules_combined; [exact Q | lia].
  - match goal with A : attr_is h _ "policyCombiningAlg" _, R : get_attr h _ "policies" = _,
      NL : nth_error h _ = Some (PTypedList _ _), P : for_policies h _ _ |- _ =>
      destruct A as (av & GA & MA); rename R into GR; rename NL into NL'; rename P into FP end.
    rewrite GA. cbn [bind]. destruct alg as [x|]; cbn in MA; [unfold for_algorithm in MA|]; subst av; [|reflexivity].
    rewrite GR. cbn [bind list_items]. rewrite NL'. cbn [bind].
    apply policies_combined. apply for_policies_forall2 in FP. clear -IH FP L.
    induction FP as [|v p vs ps V F IH']; constructor.
    + inversion IH; subst. apply H1; [exact V|]. rewrite list_max_cons in L. lia.
    + inversion IH; subst. apply IH'; [exact H2|]. rewrite list_max_cons in L. lia.
Qed.
End Refine.

(** ** Histories without the operations that need care *)
Definition plain (o : oop) : bool :=
  match o with
  | OInsert _ _ _ | ONewList _ _ => false
  | OSet _ name _ => negb (String.eqb name "attributeValues")
  | _ => true
  end.
Lemma plain_careful : forall cm ops s, forallb plain ops = true -> careful_history cm s ops.
Proof.
  intros cm ops. induction ops as [|o ops IH]; intros s P; [exact I|]. cbn in P.
  apply Bool.andb_true_iff in P. destruct P as [P Q]. split; [|apply IH, Q].
  destruct o; try exact I; try discriminate P. cbn in P |- *. intros attrs l t items _ ->. discriminate P.
Qed.
