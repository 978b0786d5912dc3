(** Access lists: proofs. *)
From Verif Require Import Eval SpecEval EvalFacts EvalFacts2 EvalFacts3 EvalFacts4 SpecAccess.
From Verif Require Import Readers SpecRead ReadFacts4 ContextXml SpecContext ContextFacts Service SpecService ServiceFacts.
From Verif Require PropertiesRead PropertiesEval.
Local Open Scope list_scope.

Definition strv (s : string) : attrval := mkAV StringAV xsd_string (NStr s).
Definition fact_attr (fact : string * string) : attribute :=
  mkAttribute (Some (fst fact)) (Some xsd_string) None [strv (snd fact)].
Definition question (k : designator_kind) (id : string) : designator :=
  mkDesignator k (Some id) (Some xsd_string) None false.
Definition values_of (id : string) (facts : list (string * string)) : list string :=
  map snd (filter (fun f => String.eqb (fst f) id) facts).

Lemma values_in : forall id facts v, In v (values_of id facts) <-> In (id, v) facts.
Proof.
  intros id facts v. unfold values_of. rewrite in_map_iff. split.
  - intros ([i w] & <- & H). apply filter_In in H. destruct H as (H & E). cbn in E.
    apply String.eqb_eq in E. subst i. exact H.
  - intros H. exists (id, v). split; [reflexivity|]. apply filter_In. split; [exact H|apply String.eqb_refl].
Qed.

Lemma check_strs : forall vs, mapM (bag_check (Some StringAV)) (map (fun s => PAttr (strv s)) vs) = Ok (map strv vs).
Proof.
  induction vs as [|v vs IH]; [reflexivity|]. cbn [map]. rewrite mapM_cons, IH. reflexivity.
Qed.
Lemma extend_strs : forall bag vs,
  bag_extend (Some StringAV) (map strv bag) (map (fun s => PAttr (strv s)) vs) = Ok (map strv (bag ++ vs)).
Proof. intros bag vs. unfold bag_extend. rewrite check_strs. cbn [bind]. rewrite map_app. reflexivity. Qed.

Lemma attr_match_fact : forall k id f, attr_match (question k id) (fact_attr f) = String.eqb (fst f) id.
Proof.
  intros k id f. unfold attr_match, question, fact_attr. cbn [at_id dg_id at_dataType dg_dataType dg_issuer].
  replace (ostr_eqb (Some xsd_string) (Some xsd_string)) with true by reflexivity.
  rewrite !Bool.andb_true_r. reflexivity.
Qed.
Lemma collect_facts : forall k id facts bag,
  collect_attrs (question k id) (Some StringAV) (map strv bag) (map fact_attr facts) =
  Ok (map strv (bag ++ values_of id facts)).
Proof.
  intros k id. induction facts as [|f facts IH]; intros bag.
  - unfold values_of. cbn [map filter collect_attrs]. rewrite app_nil_r. reflexivity.
  - cbn [map collect_attrs]. rewrite attr_match_fact. unfold values_of. cbn [filter].
    destruct (String.eqb (fst f) id).
    + change (map PAttr (typed_values (question k id) (fact_attr f)))
        with (map (fun s => PAttr (strv s)) [snd f]).
      rewrite extend_strs. cbn [bind]. rewrite IH. cbn [map]. rewrite <- app_assoc. reflexivity.
    + apply IH.
Qed.

Lemma str_eq : forall a b, av_eq (strv a) (strv b) = Ok (String.eqb a b).
Proof. reflexivity. Qed.
Lemma contains_str : forall bag s, bag_contains (map strv bag) (PAttr (strv s)) = Ok (existsb (fun b => String.eqb b s) bag).
Proof.
  induction bag as [|b bag IH]; intros s; [reflexivity|]. cbn [map bag_contains existsb]. rewrite str_eq. cbn [bind].
  destruct (String.eqb b s); [reflexivity|apply IH].
Qed.
Lemma filter_new_strs : forall bag vs, filter_new (map strv bag) (map (fun s => PAttr (strv s)) vs) =
  Ok (map (fun s => PAttr (strv s)) (filter (fun s => negb (existsb (fun b => String.eqb b s) bag)) vs)).
Proof.
  intros bag. induction vs as [|v vs IH]; [reflexivity|]. cbn [map filter_new filter]. rewrite contains_str. cbn [bind].
  rewrite IH. cbn [bind]. destruct (existsb (fun b => String.eqb b v) bag); reflexivity.
Qed.
Lemma pip_strs : forall bag vs, exists new,
  add_pip_values (Some StringAV) (map strv bag) (Some (map (fun s => PAttr (strv s)) vs)) = Ok (map strv (bag ++ new)) /\
  forall v, In v (bag ++ new) <-> In v bag \/ In v vs.
Proof.
  intros bag vs. destruct bag as [|b bag'] eqn:Eb.
  - exists vs. unfold add_pip_values. cbn [map bind]. split; [apply (extend_strs [])|].
    intros v. cbn [app In]. tauto.
  - rewrite <- Eb. exists (filter (fun s => negb (existsb (fun b => String.eqb b s) bag)) vs). split.
    + unfold add_pip_values.
      replace (match map strv bag with
               | [] => Ok (map (fun s => PAttr (strv s)) vs)
               | _ :: _ => filter_new (map strv bag) (map (fun s => PAttr (strv s)) vs)
               end) with (filter_new (map strv bag) (map (fun s => PAttr (strv s)) vs))
        by (rewrite Eb; reflexivity).
      rewrite filter_new_strs. cbn [bind]. apply extend_strs.
    + intros v. rewrite in_app_iff, filter_In. split; [tauto|]. intros [H|H]; [auto|].
      destruct (existsb (fun b => String.eqb b v) bag) eqn:E; [|auto].
      apply existsb_exists in E. destruct E as (x & Hx & E). apply String.eqb_eq in E. subst x. auto.
Qed.

Section Evaluate.
Variable E : env.
Variable a : access.
Variables handler selector : option N.
Variable knows : string -> list string.
Variable ids : string -> Prop.
Hypothesis Hclass : dict_get xsd_string (en_classes E) = Some StringAV.
Hypothesis Hsource : source_knows E (asked a handler selector) ids knows.
Let r := asked a handler selector.
Let c := CtxRequest r.
Let matches := fe_match (en_fenv E).

Definition facts_of (k : designator_kind) (id v : string) : Prop :=
  match k with
  | DSubject => In (id, v) (ax_subject a) \/ In v (knows id)
  | DResource => In (id, v) (ax_resource a)
  | DAction => In (id, v) (ax_action a)
  | DEnvironment => False
  end.

Lemma asked_subjects : rq_subjects r = [mkSubject
  (Some "urn:oasis:names:tc:xacml:1.0:subject-category:access-subject") (map fact_attr (ax_subject a))].
Proof. reflexivity. Qed.
Lemma asked_resources : rq_resources r = [mkResource None (map fact_attr (ax_resource a))].
Proof. reflexivity. Qed.
Lemma asked_action : rq_action r = Some (map fact_attr (ax_action a)).
Proof. reflexivity. Qed.

Lemma retrieved : forall k id, k <> DEnvironment -> (k = DSubject -> ids id) -> exists vs,
  eval_designator E (question k id) c = Ok (PBag (Some StringAV) (map strv vs)) /\
  forall v, In v vs <-> facts_of k id v.
Proof.
  intros k id Hk Hi. subst c. cbn [eval_designator].
  replace (class_for E (dg_dataType (question k id))) with (Some StringAV) by (symmetry; exact Hclass).
  assert (P : forall vs, check_present false (Some StringAV) (map strv vs) = Ok (PBag (Some StringAV) (map strv vs)))
    by (intros []; reflexivity).
  destruct k; cbn [dg_kind question]; [| | |contradiction].
  - rewrite asked_subjects. cbn [collect_subjects sb_attributes].
    pose proof (collect_facts DSubject id (ax_subject a) []) as C. cbn [map app] in C.
    fold (question DSubject id). rewrite C. cbn [bind]. pose proof Hsource as S. fold r in S. unfold source_knows in S.
    destruct (rq_ctxHandler r).
    + destruct (S id (Hi eq_refl)) as [Q|(K & Q)]; change (mkDesignator DSubject (Some id) (Some xsd_string) None false)
        with (question DSubject id) in Q; rewrite Q; cbn [bind].
      * destruct (pip_strs (values_of id (ax_subject a)) (knows id)) as (new & Hn & Hin).
        change (fun s => PAttr (mkAV StringAV xsd_string (NStr s))) with (fun s => PAttr (strv s)). rewrite Hn.
        cbn [bind]. exists (values_of id (ax_subject a) ++ new). split; [apply P|].
        intros v. rewrite Hin, values_in. reflexivity.
      * cbn [add_pip_values bind]. exists (values_of id (ax_subject a)). split; [apply P|].
        intros v. cbn [facts_of]. rewrite K, values_in. cbn [In]. tauto.
    + cbn [bind]. exists (values_of id (ax_subject a)). split; [apply P|].
      intros v. cbn [facts_of]. rewrite (S id), values_in. cbn [In]. tauto.
  - rewrite asked_resources. cbn [collect_resources rs_attributes].
    pose proof (collect_facts DResource id (ax_resource a) []) as C. cbn [map app] in C.
    fold (question DResource id). rewrite C. cbn [bind].
    exists (values_of id (ax_resource a)). split; [apply P|]. intros v. apply values_in.
  - rewrite asked_action.
    pose proof (collect_facts DAction id (ax_action a) []) as C. cbn [map app] in C.
    fold (question DAction id). rewrite C. cbn [bind].
    exists (values_of id (ax_action a)). split; [apply P|]. intros v. apply values_in.
Qed.

Definition fn_of (m : manner) : fn := match m with Exactly => FnEqual StringAV | Matching => FnRegexp StringAV end.
Definition match_of (k : designator_kind) (q : requirement) : matchel :=
  mkMatch (Some (manner_urn (q_manner q))) (Some (fn_of (q_manner q))) (Some (strv (q_text q)))
    (Some (question k (q_attribute q))) None.

Lemma match_meets : forall k q, k <> DEnvironment -> (k = DSubject -> ids (q_attribute q)) ->
  (q_manner q = Matching -> fe_compile (en_fenv E) (q_text q) = None) ->
  exists b, eval_match E c (match_of k q) = Ok b /\ (b = true <-> meets matches (facts_of k) q).
Proof.
  intros k q Hk Hi Hc. destruct (retrieved k (q_attribute q) Hk Hi) as (vs & Hd & Hin).
  set (test := fun v => match q_manner q with Exactly => String.eqb (q_text q) v | Matching => matches (q_text q) v end).
  assert (HM : mapM (match_fn_apply E (match_of k q)) (map strv vs) = Ok (map (fun v => py_bool (test v)) vs)).
  { clear Hd Hin. induction vs as [|v vs IH]; [reflexivity|]. cbn [map]. rewrite mapM_cons, IH.
    replace (match_fn_apply E (match_of k q) (strv v)) with (Ok (py_bool (test v))); [reflexivity|].
    unfold match_fn_apply, match_of, test. cbn [mt_fn mt_value]. destruct (q_manner q).
    - reflexivity.
    - cbn [fn_of fn_eval]. unfold regexp_eval.
      change (av_isinstance (strv (q_text q)) StringAV) with true. change (av_isinstance (strv v) StringAV) with true.
      cbv iota. cbn [av_value strv]. unfold regexp_values. rewrite (Hc eq_refl). reflexivity. }
  exists (existsb test vs). split.
  - unfold eval_match. cbn [mt_designator match_of]. rewrite Hd. cbn [bind bag_items]. rewrite HM. cbn [bind].
    f_equal. clear. induction vs as [|v vs IH]; [reflexivity|]. cbn [map existsb]. rewrite IH. reflexivity.
  - rewrite existsb_exists. unfold meets, test. split.
    + intros (v & Hv & T). exists v. split; [apply Hin, Hv|].
      destruct (q_manner q); [symmetry; apply String.eqb_eq, T|exact T].
    + intros (v & Hv & T). exists v. split; [apply Hin, Hv|].
      destruct (q_manner q); [subst v; apply String.eqb_refl|exact T].
Qed.

Definition target_of (l : line) : target :=
  mkTarget (map (map (match_of DSubject)) (ln_subject l)) (map (map (match_of DResource)) (ln_resource l))
    (map (map (match_of DAction)) (ln_action l)) [].
Definition rule_of (l : line) : rule := mkRule (Some (ln_name l)) (Some (ln_says l)) (Some (target_of l)) None None.

Definition sound_section (k : designator_kind) (alternatives : list (list requirement)) : Prop :=
  forall qs q, In qs alternatives -> In q qs ->
    (k = DSubject -> ids (q_attribute q)) /\
    (q_manner q = Matching -> fe_compile (en_fenv E) (q_text q) = None).
Definition sound_line (l : line) : Prop :=
  sound_section DSubject (ln_subject l) /\ sound_section DResource (ln_resource l) /\ sound_section DAction (ln_action l).

Lemma section_meets : forall k alternatives, k <> DEnvironment -> sound_section k alternatives ->
  (section_satisfied E c (map (map (match_of k)) alternatives) <-> restricted_to matches (facts_of k) alternatives).
Proof.
  intros k alts Hk Hs. unfold section_satisfied, restricted_to. split.
  - intros [H|(ch & Hch & H)]; [left; destruct alts; [reflexivity|discriminate H]|right].
    apply in_map_iff in Hch. destruct Hch as (qs & <- & Hqs). exists qs. split; [exact Hqs|]. intros q Hq.
    specialize (H (match_of k q) (in_map _ _ _ Hq)).
    destruct (match_meets k q Hk (proj1 (Hs qs q Hqs Hq)) (proj2 (Hs qs q Hqs Hq))) as (b & Hb & B). apply B. congruence.
  - intros [->|(qs & Hqs & H)]; [left; reflexivity|right]. exists (map (match_of k) qs).
    split; [apply in_map, Hqs|]. intros m Hm. apply in_map_iff in Hm. destruct Hm as (q & <- & Hq).
    destruct (match_meets k q Hk (proj1 (Hs qs q Hqs Hq)) (proj2 (Hs qs q Hqs Hq))) as (b & Hb & B). rewrite Hb. f_equal. apply B, H, Hq.
Qed.

Lemma target_about : forall l, sound_line l ->
  exists b, target_match E c (target_of l) = Ok b /\ (b = true <-> about matches knows a l).
Proof.
  intros l (S1 & S2 & S3).
  destruct (target_match_total E c (target_of l)) as (b & Hb).
  - intros m Hm. unfold target_matches in Hm. apply in_concat in Hm. destruct Hm as (ch & Hch & Hm).
    cbn [target_of tg_subjects tg_resources tg_actions tg_environments] in Hch.
    rewrite !in_app_iff, !in_map_iff in Hch.
    destruct Hch as [(qs & <- & Hqs)|[(qs & <- & Hqs)|[(qs & <- & Hqs)|[]]]]; apply in_map_iff in Hm;
      destruct Hm as (q & <- & Hq).
    + destruct (match_meets DSubject q) as (b & -> & _); [discriminate|exact (proj1 (S1 qs q Hqs Hq))|exact (proj2 (S1 qs q Hqs Hq))|reflexivity].
    + destruct (match_meets DResource q) as (b & -> & _); [discriminate|exact (proj1 (S2 qs q Hqs Hq))|exact (proj2 (S2 qs q Hqs Hq))|reflexivity].
    + destruct (match_meets DAction q) as (b & -> & _); [discriminate|exact (proj1 (S3 qs q Hqs Hq))|exact (proj2 (S3 qs q Hqs Hq))|reflexivity].
  - exists b. split; [exact Hb|]. rewrite (target_match_ok E c _ b Hb).
    cbn [target_of tg_subjects tg_resources tg_actions tg_environments].
    rewrite !section_meets by (discriminate || assumption). unfold about, facts_of. split; [tauto|].
    intros (H1 & H2 & H3). repeat (split; [assumption|]). left. reflexivity.
Qed.

Lemma line_rule : forall l, sound_line l ->
  (about matches knows a l /\ rule_eval E c (rule_of l) = Ok (verdict (ln_says l))) \/
  (~ about matches knows a l /\ rule_eval E c (rule_of l) = Ok NotApplicable).
Proof.
  intros l Hs. destruct (target_about l Hs) as (b & Hb & B). unfold rule_eval, rule_body. cbn [rl_target rule_of].
  rewrite Hb. cbn [bind]. destruct b; cbn [negb].
  - left. split; [apply B; reflexivity|]. cbn [rl_condition rl_effect rule_of bind].
    replace (truthy (py_bool true)) with true by reflexivity. destruct (ln_says l); reflexivity.
  - right. split; [intros H; apply B in H; discriminate H|reflexivity].
Qed.

Lemma list_policy : forall m alg lines d, patterns_compile (en_fenv E) lines ->
  (forall id, asks_for_subject lines id -> ids id) ->
  list_says matches knows lines a alg d ->
  policy_eval E c (PPolicy m None (Some alg) (map rule_of lines)) = Ok d.
Proof.
  intros m alg lines d Hp Hids.
  assert (L : forall l, In l lines ->
    (about matches knows a l /\ rule_eval E c (rule_of l) = Ok (verdict (ln_says l))) \/
    (~ about matches knows a l /\ rule_eval E c (rule_of l) = Ok NotApplicable)).
  { intros l Hl. apply line_rule. split; [|split]; intros qs q Hqs Hq.
    - split; [intros _; apply Hids; exists l, qs, q; auto|]. apply (Hp l qs q Hl); [rewrite !in_app_iff; auto|exact Hq].
    - split; [discriminate|]. apply (Hp l qs q Hl); [rewrite !in_app_iff; auto|exact Hq].
    - split; [discriminate|]. apply (Hp l qs q Hl); [rewrite !in_app_iff; auto|exact Hq]. }
  assert (T : target_accepts E c None) by (intros t' H; discriminate H).
  assert (G : forall r0, In r0 (map rule_of lines) -> rl_effect r0 <> None /\ is_ok (rule_eval E c r0) = true).
  { intros r0 H. apply in_map_iff in H. destruct H as (l & <- & Hl). split; [discriminate|].
    destruct (L l Hl) as [(_ & ->)|(_ & ->)]; reflexivity. }
  assert (SS : forall e, (exists r0, In r0 (map rule_of lines) /\ rule_eval E c r0 = Ok (verdict e)) <->
                          someone_says matches knows lines a e).
  { intros e. split.
    - intros (r0 & H & Hr). apply in_map_iff in H. destruct H as (l & <- & Hl). exists l.
      destruct (L l Hl) as [(A & B)|(A & B)]; rewrite B in Hr; [|destruct e; discriminate Hr].
      repeat (split; [assumption|]). destruct (ln_says l), e; (reflexivity || discriminate Hr).
    - intros (l & Hl & A & <-). exists (rule_of l). split; [apply in_map, Hl|].
      destruct (L l Hl) as [(_ & B)|(B & _)]; [exact B|contradiction]. }
  assert (NI : forall e, ~ exists r0, In r0 (map rule_of lines) /\ rl_effect r0 = Some e /\ rule_eval E c r0 = Ok Indeterminate).
  { intros e (r0 & H & _ & Hr). apply in_map_iff in H. destruct H as (l & <- & Hl).
    destruct (L l Hl) as [(_ & B)|(_ & B)]; rewrite B in Hr; [destruct (ln_says l)|]; discriminate Hr. }
  assert (NA : (forall l, In l lines -> ~ about matches knows a l) ->
               forall r0, In r0 (map rule_of lines) -> rule_eval E c r0 = Ok NotApplicable).
  { intros N r0 H. apply in_map_iff in H. destruct H as (l & <- & Hl).
    destruct (L l Hl) as [(A & _)|(_ & B)]; [destruct (N l Hl A)|exact B]. }
  pose proof (deny_rules_table E c m None _ T G) as (D1 & D2 & _ & D4).
  pose proof (permit_rules_table E c m None _ T G) as (P1 & P2 & _ & P4).
  pose proof (SS EffDeny) as SD. pose proof (SS EffPermit) as SP. cbn [verdict] in SD, SP.
  intros H. destruct H as [before l after -> Hb Hl|H|H1 H2|H|H1 H2|alg H].
  - pose proof (rules_first_applicable_spec E c m None (map rule_of (before ++ l :: after)) T) as F.
    refine (first_applicable_functional _ _ _ F _). rewrite !map_app. cbn [map].
    eapply FAfirst.
    + destruct (L l) as [(_ & B)|(B & _)]; [apply in_elt|rewrite B; reflexivity|contradiction].
    + intros o Ho. apply in_map_iff in Ho. destruct Ho as (r0 & <- & Ho). apply in_map_iff in Ho.
      destruct Ho as (l' & <- & Hl'). destruct (L l') as [(A & _)|(_ & B)];
        [apply in_app_iff; auto|destruct (Hb l' Hl' A)|exact B].
    + destruct (ln_says l); discriminate.
  - apply D1, SD, H.
  - apply D2. split; [apply SP, H2|]. split; [intros K; apply H1, SD, K|apply NI].
  - apply P1, SP, H.
  - apply P2. split; [apply SD, H2|]. split; [intros K; apply H1, SP, K|apply NI].
  - destruct alg.
    + apply D4, NA, H.
    + apply P4, NA, H.
    + pose proof (rules_first_applicable_spec E c m None (map rule_of lines) T) as F.
      refine (first_applicable_functional _ _ _ F _). apply FAnone. intros o Ho. apply in_map_iff in Ho.
      destruct Ho as (r0 & <- & Ho). apply NA; assumption.
Qed.
End Evaluate.
