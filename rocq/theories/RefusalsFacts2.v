(** Lemmas for C99: targets, rules and policies that are refused have a mistake. *)
From Verif Require Import Readers SpecText SpecSetters SpecRead SpecRefusals.
From Verif Require Import EvalFacts StringFacts SettersFacts TextFacts ReadFacts RefusalsFacts.
Open Scope string_scope.

Section Blame.
Variable E : renv.
Hypothesis HE : default_readers E.

Ltac inl := repeat (first [left; reflexivity|right]).
Ltac not_in := let H := fresh in intros H; cbn [In app understood not_implemented no_class map fst] in H;
  repeat (destruct H as [H|H]; [congruence|]); exact H.
Ltac case_name n s := destruct (String.eqb_spec (ln n) s) as [?Hn|?Hn].
Ltac named := apply called_is; [reflexivity|assumption|assumption].

(** ** Matches *)
Lemma match_has : forall k id f l m, (forall c, In c l -> is_elem c) ->
  foldM (match_child E k) l (mkMatch id f None None None) = Ok m ->
  (mt_selector m <> None -> exists c, In c l /\ ln c = "AttributeSelector") /\
  (mt_designator m <> None -> exists c, In c l /\ ln c = designator_tag k).
Proof.
  intros k id f l. induction l as [|x l IH] using rev_ind; intros m Hel H.
  { injection H as <-. split; intros H; destruct (H eq_refl). }
  rewrite foldM_snoc in H. apply bind_ok in H. destruct H as (m1 & Hm1 & H).
  assert (is_elem x) as He by (apply Hel, in_or_app; right; left; reflexivity).
  destruct (IH m1) as [I1 I2]; [intros c Hc; apply Hel, in_or_app; left; exact Hc|exact Hm1|].
  assert (forall s, (exists c, In c l /\ ln c = s) -> exists c, In c (l ++ [x]) /\ ln c = s) as Hmore.
  { intros s (c & Hc & Hs). exists c. split; [apply in_or_app; left; exact Hc|exact Hs]. }
  unfold match_child in H. rewrite local_ln in H by exact He. cbn [bind] in H.
  case_name x "AttributeValue".
  { apply bind_ok in H. destruct H as (v & _ & H). injection H as <-. cbn [mt_selector mt_designator]. split; auto. }
  destruct (String.eqb_spec (ln x) (designator_name k)) as [N1|N1].
  { destruct (mt_selector m1); [discriminate H|]. apply bind_ok in H. destruct H as (d & _ & H). injection H as <-.
    cbn [mt_selector mt_designator]. split; [congruence|]. intros _. exists x. rewrite <- designator_name_tag.
    split; [apply in_or_app; right; left; reflexivity|exact N1]. }
  case_name x "AttributeSelector"; [|discriminate H].
  destruct (mt_designator m1); [discriminate H|]. apply bind_ok in H. destruct H as (d & _ & H). injection H as <-.
  cbn [mt_selector mt_designator]. split; [|congruence]. intros _. exists x.
  split; [apply in_or_app; right; left; reflexivity|assumption].
Qed.

Lemma in_elems_called : forall s n c, has_char close_brace s = false -> In c (elems n) -> ln c = s ->
  elems_called s n <> [].
Proof.
  intros s n c Hb Hc Hs H. assert (In c (elems_called s n)) as Hi; [|rewrite H in Hi; exact Hi].
  apply filter_In. split; [exact Hc|]. apply called_is; [exact Hb|exact (elems_is n c Hc)|exact Hs].
Qed.

Lemma match_in : forall k, k <> DEnvironment -> In (match_tag k, designator_tag k) matches.
Proof. intros []; intros H; [inl|inl|inl|congruence]. Qed.

Lemma match_blame : forall k n e, k <> DEnvironment -> called (match_tag k) n = true ->
  read_match E k n = Raise e -> wrong E n e.
Proof.
  intros k n e Hk Hc H. pose proof (match_in k Hk) as Hin.
  assert (called_one_of with_children n) as Hw
    by (exists (match_tag k); split; [destruct k; [cbn; inl|cbn; inl|cbn; inl|congruence]|exact Hc]).
  assert ((let* _ := expect (match_name k) n in
      let* id := required n "MatchId" in
      let* f := load_fn E id in
      foldM (match_child E k) (elements (el_kids n)) (mkMatch (Some id) (Some f) None None None)) = Raise e) as H'
    by (destruct k; [exact H|exact H|exact H|congruence]).
  clear H. rename H' into H. apply bind_raise in H. destruct H as [H|(u & _ & H)].
  { exfalso. eapply expect_raise; [|exact Hc|]; [destruct k; reflexivity|].
    destruct k; exact H. }
  apply bind_raise in H. destruct H as [H|(id & Hid & H)].
  { apply required_raise in H. destruct H as [H ->]. apply wrong_self.
    apply (lacks_attribute E n (match_tag k) "MatchId"); [|exact Hc|exact H].
    destruct k; [inl|inl|inl|congruence]. }
  apply required_ok in Hid. apply bind_raise in H. destruct H as [H|(f & _ & H)].
  { apply load_fn_raise in H. apply wrong_self.
    apply (lacks_function E n (match_tag k) "MatchId" id); [|exact Hc|exact Hid|exact H].
    destruct k; [inl|inl|inl|congruence]. }
  rewrite elements_elems in H. apply foldM_raise in H. destruct H as (pre & c & post & m & Hel & Hpre & H).
  assert (In c (elems n)) as Hcn by (rewrite Hel; apply in_or_app; right; left; reflexivity).
  assert (forall x, In x pre -> In x (elems n)) as Hpn by (intros x Hx; rewrite Hel; apply in_or_app; left; exact Hx).
  assert (is_elem c) as He by exact (elems_is n c Hcn).
  apply match_has in Hpre; [|intros x Hx; apply (elems_is n), Hpn, Hx]. destruct Hpre as [I1 I2].
  assert (has_char close_brace (designator_tag k) = false) as Hb by (destruct k; reflexivity).
  unfold match_child in H. rewrite local_ln in H by exact He. cbn [bind] in H.
  case_name c "AttributeValue".
  { apply bind_raise in H. destruct H as [H|(v & _ & H)]; [|discriminate H].
    apply (wrong_below E n c); [exact Hw|exact Hcn|]. apply wrong_self, (value_blame E HE); [named|exact H]. }
  destruct (String.eqb_spec (ln c) (designator_name k)) as [N1|N1]; rewrite designator_name_tag in N1.
  { destruct (mt_selector m) as [s|].
    - injection H as <-. apply wrong_self, (two_sources E n (match_tag k) (designator_tag k)); [exact Hin|exact Hc| |].
      + apply (in_elems_called _ n c); assumption.
      + destruct I1 as (x & Hx & Hs); [discriminate|].
        apply (in_elems_called _ n x); [reflexivity|apply Hpn, Hx|exact Hs].
    - apply bind_raise in H. destruct H as [H|(v & _ & H)]; [|discriminate H].
      apply (wrong_below E n c); [exact Hw|exact Hcn|].
      apply wrong_self, (designator_blame E k); [exact Hk|apply called_is; assumption|exact H]. }
  case_name c "AttributeSelector".
  { destruct (mt_designator m) as [s|].
    - injection H as <-. apply wrong_self, (two_sources E n (match_tag k) (designator_tag k)); [exact Hin|exact Hc| |].
      + destruct I2 as (x & Hx & Hs); [discriminate|].
        apply (in_elems_called _ n x); [exact Hb|apply Hpn, Hx|exact Hs].
      + apply (in_elems_called _ n c); [reflexivity|assumption|assumption].
    - apply bind_raise in H. destruct H as [H|(v & _ & H)]; [|discriminate H].
      apply (wrong_below E n c); [exact Hw|exact Hcn|].
      apply wrong_self, selector_blame; [named|exact H]. }
  injection H as <-. apply wrong_self, (stray_in_match E n (match_tag k) (designator_tag k) c); [exact Hin|exact Hc|exact Hcn|].
  apply (stray _ n); [exact Hcn|destruct k; reflexivity|]. not_in.
Qed.

(** ** Targets *)
Definition child_content (k : designator_kind) : content :=
  match k with
  | DEnvironment => mkContent [] [] ["EnvironmentMatch"]
  | _ => mkContent [match_tag k] [] []
  end.
Lemma child_in : forall k, In (child_tag k, child_content k) contents.
Proof. intros []; inl. Qed.
Lemma container_in : forall k, In (container_tag k, mkContent [child_tag k] [] []) contents.
Proof. intros []; inl. Qed.
Lemma contents_children : forall tag ct n, In (tag, ct) contents -> called tag n = true -> called_one_of with_children n.
Proof.
  intros tag ct n H Hc. exists tag. split; [|exact Hc]. unfold with_children. apply in_or_app. left.
  apply in_map_iff. exists (tag, ct). split; [reflexivity|exact H].
Qed.

Lemma child_blame : forall k n e, called (child_tag k) n = true -> read_target_child E k n = Raise e -> wrong E n e.
Proof.
  intros k n e Hc H. unfold read_target_child in H. apply bind_raise in H. destruct H as [H|(u & _ & H)].
  { exfalso. eapply expect_raise; [|exact Hc|destruct k; exact H]. destruct k; reflexivity. }
  rewrite elements_elems in H. apply foldM_raise in H. destruct H as (pre & c & post & m & Hel & _ & H).
  assert (In c (elems n)) as Hcn by (rewrite Hel; apply in_or_app; right; left; reflexivity).
  assert (is_elem c) as He by exact (elems_is n c Hcn).
  rewrite local_ln in H by exact He. cbn [bind] in H.
  destruct (String.eqb_spec (ln c) (match_name k)) as [N1|N1].
  - apply bind_raise in H. destruct H as [H|(v & _ & H)]; [|discriminate H].
    assert (called (match_tag k) c = true) as Hcc by (apply called_is; [destruct k; reflexivity|exact He|destruct k; exact N1]).
    assert (k = DEnvironment \/ k <> DEnvironment) as [->|Hk] by (destruct k; [right|right|right|left]; congruence).
    + injection H as <-. apply wrong_self, (classless_child E n _ _ c (child_in DEnvironment)); [exact Hc|exact Hcn|].
      exists "EnvironmentMatch". split; [inl|exact Hcc].
    + apply (wrong_below E n c); [exact (contents_children _ _ _ (child_in k) Hc)|exact Hcn|].
      apply (match_blame k); assumption.
  - injection H as <-. apply wrong_self, (stray_child E n _ _ c (child_in k)); [exact Hc|exact Hcn|].
    apply (stray _ n); [exact Hcn|destruct k; reflexivity|].
    destruct k; cbn [match_name] in N1; cbn [child_content match_tag]; not_in.
Qed.

Lemma container_blame : forall k acc n e, called (container_tag k) n = true ->
  read_container E k acc n = Raise e -> wrong E n e.
Proof.
  intros k acc n e Hc H. unfold read_container in H.
  rewrite elements_elems in H. apply foldM_raise in H. destruct H as (pre & c & post & m & Hel & _ & H).
  assert (In c (elems n)) as Hcn by (rewrite Hel; apply in_or_app; right; left; reflexivity).
  assert (is_elem c) as He by exact (elems_is n c Hcn).
  apply bind_raise in H. destruct H as [H|(v & _ & H)]; [|discriminate H].
  destruct (called (child_tag k) c) eqn:Hcc.
  - apply (wrong_below E n c); [exact (contents_children _ _ _ (container_in k) Hc)|exact Hcn|].
    apply (child_blame k); assumption.
  - assert (e = EXMLParseError) as ->.
    { unfold read_target_child in H. apply bind_raise in H. destruct H as [H|(u & H & _)].
      - unfold expect in H. rewrite local_ln in H by exact He. cbn [bind] in H.
        destruct (String.eqb (ln c) (target_child_name k)); [discriminate H|injection H as <-; reflexivity].
      - apply expect_ok in H; [|destruct k; reflexivity]. destruct k; cbn [child_tag target_child_name] in *; congruence. }
    apply wrong_self, (stray_child E n _ _ c (container_in k)); [exact Hc|exact Hcn|].
    cbn [understood not_implemented no_class app]. intros (s & [<-|[]] & Hs). congruence.
Qed.

Lemma target_blame : forall n e, called "Target" n = true -> read_target E n = Raise e -> wrong E n e.
Proof.
  intros n e Hc H. unfold read_target in H. apply bind_raise in H. destruct H as [H|(u & _ & H)].
  { destruct (expect_raise "Target" n e eq_refl Hc H). }
  rewrite elements_elems in H. apply foldM_raise in H. destruct H as (pre & c & post & m & Hel & _ & H).
  assert (In c (elems n)) as Hcn by (rewrite Hel; apply in_or_app; right; left; reflexivity).
  assert (is_elem c) as He by exact (elems_is n c Hcn).
  assert (In ("Target", mkContent ["Subjects"; "Resources"; "Actions"; "Environments"] [] []) contents) as Hin by inl.
  assert (wrong E c e -> wrong E n e) as Hb
    by (apply (wrong_below E n c); [exact (contents_children _ _ _ Hin Hc)|exact Hcn]).
  rewrite local_ln in H by exact He. cbn [bind] in H.
  case_name c "Subjects".
  { apply bind_raise in H. destruct H as [H|(v & _ & H)]; [|discriminate H].
    apply Hb. apply container_blame in H; [exact H|named]. }
  case_name c "Resources".
  { apply bind_raise in H. destruct H as [H|(v & _ & H)]; [|discriminate H].
    apply Hb. apply container_blame in H; [exact H|named]. }
  case_name c "Actions".
  { apply bind_raise in H. destruct H as [H|(v & _ & H)]; [|discriminate H].
    apply Hb. apply container_blame in H; [exact H|named]. }
  case_name c "Environments".
  { apply bind_raise in H. destruct H as [H|(v & _ & H)]; [|discriminate H].
    apply Hb. apply container_blame in H; [exact H|named]. }
  injection H as <-. apply wrong_self, (stray_child E n _ _ c Hin); [exact Hc|exact Hcn|].
  apply (stray _ n); [exact Hcn|reflexivity|not_in].
Qed.

(** ** Rules *)
Lemma effect_raise : forall s e, effect_of s = Raise e -> e = EAttributeError /\ s <> "Permit" /\ s <> "Deny".
Proof.
  intros s e. unfold effect_of, effect_set, EFFECT_TYPES. cbn [str_in existsb].
  destruct (String.eqb_spec s "Deny") as [->|H1]; [discriminate|].
  destruct (String.eqb_spec s "Permit") as [->|H2]; [discriminate|].
  cbn [orb]. intros [= <-]. repeat split; assumption.
Qed.

Lemma rule_blame : forall n e, called "Rule" n = true -> read_rule E n = Raise e -> wrong E n e.
Proof.
  intros n e Hc H. unfold read_rule in H. apply bind_raise in H. destruct H as [H|(u & _ & H)].
  { destruct (expect_raise "Rule" n e eq_refl Hc H). }
  apply bind_raise in H. destruct H as [H|(id & _ & H)].
  { apply required_raise in H. destruct H as [H ->].
    apply wrong_self, (lacks_attribute E n "Rule" "RuleId"); [inl|exact Hc|exact H]. }
  apply bind_raise in H. destruct H as [H|(s & Hs & H)].
  { apply required_raise in H. destruct H as [H ->].
    apply wrong_self, (lacks_attribute E n "Rule" "Effect"); [inl|exact Hc|exact H]. }
  apply required_ok in Hs. apply bind_raise in H. destruct H as [H|(ef & _ & H)].
  { apply effect_raise in H. destruct H as (-> & H1 & H2). apply wrong_self, (bad_effect E n s); assumption. }
  rewrite elements_elems in H. apply foldM_raise in H. destruct H as (pre & c & post & m & Hel & _ & H).
  assert (In c (elems n)) as Hcn by (rewrite Hel; apply in_or_app; right; left; reflexivity).
  assert (is_elem c) as He by exact (elems_is n c Hcn).
  assert (In ("Rule", mkContent ["Description"; "Condition"; "Target"] [] []) contents) as Hin by inl.
  assert (wrong E c e -> wrong E n e) as Hb
    by (apply (wrong_below E n c); [exact (contents_children _ _ _ Hin Hc)|exact Hcn]).
  rewrite local_ln in H by exact He. cbn [bind] in H.
  case_name c "Description"; [discriminate H|].
  case_name c "Condition".
  { apply bind_raise in H. destruct H as [H|(v & _ & H)]; [|discriminate H].
    apply Hb, (condition_blame E HE); [named|exact H]. }
  case_name c "Target".
  { apply bind_raise in H. destruct H as [H|(v & _ & H)]; [|discriminate H].
    apply Hb, target_blame; [named|exact H]. }
  injection H as <-. apply wrong_self, (stray_child E n _ _ c Hin); [exact Hc|exact Hcn|].
  apply (stray _ n); [exact Hcn|reflexivity|not_in].
Qed.

(** ** Policies *)
Lemma defaults_blame : forall n e, called "PolicyDefaults" n = true -> read_defaults n = Raise e -> mistake E n e.
Proof.
  intros n e Hc H.
  assert (forall v, ~ defaults_doc n v) as Hd by (intros v Hv; apply read_defaults_iff in Hv; congruence).
  unfold read_defaults in H. apply bind_raise in H. destruct H as [H|(u & _ & H)].
  { destruct (expect_raise "PolicyDefaults" n e eq_refl Hc H). }
  destruct n as [tag a t kids|t]; [|discriminate Hc]. cbn [el_kids] in H.
  destruct kids as [|[tg at_ x sub|x] [|c2 r]].
  - injection H as <-. apply bad_defaults; [exact Hc|exact Hd|congruence].
  - assert (e = EXMLParseError) as ->; [|apply bad_defaults; [exact Hc|exact Hd|congruence]].
    cbn [local_name bind] in H. destruct (String.eqb (get_local_part tg) "XPathVersion"); [|congruence].
    cbn [el_text] in H. destruct x; congruence.
  - injection H as <-. apply bad_defaults; [exact Hc|exact Hd|congruence].
  - injection H as <-. apply (comment_in_defaults E _ tag a t x); [exact Hc|reflexivity].
  - injection H as <-. apply bad_defaults; [exact Hc|exact Hd|congruence].
Qed.

Lemma rule_alg_raise : forall id e, rule_alg_of id = Raise e -> e = ETypeError /\ rule_algorithm id = None.
Proof.
  intros id e H. assert (rule_algorithm id = None) as Hn.
  { destruct (rule_algorithm id) as [a|] eqn:Ha; [|reflexivity]. apply rule_alg_iff in Ha. congruence. }
  split; [|exact Hn]. revert H. unfold rule_alg_of, policy_alg_step, policy_alg_from_id. cbn [pa_factory policy_alg_new].
  destruct (dict_get id RULE_ALG_MAP) as [[b| |]|]; cbn; congruence.
Qed.

Lemma rule_read_id : forall n r, read_rule E n = Ok r -> rl_id r <> None /\ xml_attr "RuleId" n = rl_id r.
Proof.
  intros n r H. apply (read_rule_iff E HE) in H. destruct H as (_ & _ & (id & ef & H1 & _ & H2 & _) & _).
  split; congruence.
Qed.

Lemma policy_fold_rules : forall l a, (forall c, In c l -> is_elem c) ->
  foldM (policy_child E) l (mkPacc None None None []) = Ok a ->
  forall i, In i (map rl_id (pc_rules a)) -> exists l1 k l2, l = (l1 ++ k :: l2)%list /\ ln k = "Rule" /\ xml_attr "RuleId" k = i.
Proof.
  intros l. induction l as [|x l IH] using rev_ind; intros a Hel H i Hi.
  { injection H as <-. destruct Hi. }
  rewrite foldM_snoc in H. apply bind_ok in H. destruct H as (a1 & Ha1 & H).
  assert (is_elem x) as He by (apply Hel, in_or_app; right; left; reflexivity).
  assert (In i (map rl_id (pc_rules a1)) ->
    exists l1 k l2, (l ++ [x])%list = (l1 ++ k :: l2)%list /\ ln k = "Rule" /\ xml_attr "RuleId" k = i) as Hmore.
  { intros Hi1. destruct (IH a1) with (i := i) as (l1 & k & l2 & -> & H1 & H2); [|exact Ha1|exact Hi1|].
    - intros c Hc; apply Hel, in_or_app; left; exact Hc.
    - exists l1, k, (l2 ++ [x])%list. split; [rewrite <- app_assoc; reflexivity|split; assumption]. }
  unfold policy_child in H. rewrite local_ln in H by exact He. cbn [bind] in H.
  case_name x "Description"; [injection H as <-; exact (Hmore Hi)|].
  case_name x "PolicyDefaults"; [apply bind_ok in H; destruct H as (v & _ & H); injection H as <-; exact (Hmore Hi)|].
  case_name x "Target"; [apply bind_ok in H; destruct H as (v & _ & H); injection H as <-; exact (Hmore Hi)|].
  case_name x "CombinerParameters"; [discriminate H|].
  case_name x "RuleCombinerParameters"; [discriminate H|].
  case_name x "VariableDefinition"; [discriminate H|].
  case_name x "Rule".
  2:{ case_name x "Obligations"; discriminate H. }
  apply bind_ok in H. destruct H as (r & Hr & H).
  destruct (existsb (opt_eqb String.eqb (rl_id r)) (map rl_id (pc_rules a1))); [discriminate H|].
  injection H as <-. cbn [pc_rules] in Hi. rewrite map_app in Hi. apply in_app_or in Hi.
  destruct Hi as [Hi|[<-|[]]]; [exact (Hmore Hi)|].
  exists l, x, []. split; [reflexivity|]. split; [assumption|]. apply rule_read_id in Hr. apply Hr.
Qed.

Lemma policy_blame : forall n e, called "Policy" n = true -> read_policy E n = Raise e -> wrong E n e.
Proof.
  intros n e Hc H. unfold read_policy in H. apply bind_raise in H. destruct H as [H|(u & _ & H)].
  { destruct (expect_raise "Policy" n e eq_refl Hc H). }
  apply bind_raise in H. destruct H as [H|(id & _ & H)].
  { apply required_raise in H. destruct H as [H ->].
    apply wrong_self, (lacks_attribute E n "Policy" "PolicyId"); [inl|exact Hc|exact H]. }
  apply bind_raise in H. destruct H as [H|(s & Hs & H)].
  { apply required_raise in H. destruct H as [H ->].
    apply wrong_self, (lacks_attribute E n "Policy" "RuleCombiningAlgId"); [inl|exact Hc|exact H]. }
  apply required_ok in Hs. apply bind_raise in H. destruct H as [H|(alg & _ & H)].
  { apply rule_alg_raise in H. destruct H as (-> & H). apply wrong_self, (bad_rule_algorithm E n s); assumption. }
  apply bind_raise in H. destruct H as [H|(acc & _ & H)]; [|discriminate H].
  rewrite elements_elems in H. apply foldM_raise in H. destruct H as (pre & c & post & a & Hel & Hpre & H).
  assert (In c (elems n)) as Hcn by (rewrite Hel; apply in_or_app; right; left; reflexivity).
  assert (is_elem c) as He by exact (elems_is n c Hcn).
  assert (forall x, In x pre -> is_elem x) as Hpe
    by (intros x Hx; apply (elems_is n); rewrite Hel; apply in_or_app; left; exact Hx).
  assert (In ("Policy", mkContent ["Description"; "PolicyDefaults"; "Target"; "Rule"]
       ["CombinerParameters"; "RuleCombinerParameters"; "Obligations"] ["VariableDefinition"]) contents) as Hin by inl.
  assert (wrong E c e -> wrong E n e) as Hb
    by (apply (wrong_below E n c); [exact (contents_children _ _ _ Hin Hc)|exact Hcn]).
  unfold policy_child in H. rewrite local_ln in H by exact He. cbn [bind] in H.
  case_name c "Description"; [discriminate H|].
  case_name c "PolicyDefaults".
  { apply bind_raise in H. destruct H as [H|(v & _ & H)]; [|discriminate H].
    apply Hb, wrong_self, defaults_blame; [named|exact H]. }
  case_name c "Target".
  { apply bind_raise in H. destruct H as [H|(v & _ & H)]; [|discriminate H].
    apply Hb, target_blame; [named|exact H]. }
  assert (forall s, ln c = s -> In s ["CombinerParameters"; "RuleCombinerParameters"; "Obligations"] ->
            Raise ENotImplementedError = @Raise pacc e -> wrong E n e) as Hni.
  { intros x Hx Hs' H'. injection H' as <-.
    apply wrong_self, (unimplemented_child E n _ _ c Hin); [exact Hc|exact Hcn|].
    apply one_of_ln; [exact He|reflexivity|rewrite Hx; exact Hs']. }
  case_name c "CombinerParameters"; [apply (Hni "CombinerParameters"); [assumption|inl|exact H]|].
  case_name c "RuleCombinerParameters"; [apply (Hni "RuleCombinerParameters"); [assumption|inl|exact H]|].
  case_name c "VariableDefinition".
  { injection H as <-. apply wrong_self, (classless_child E n _ _ c Hin); [exact Hc|exact Hcn|].
    apply one_of_ln; [exact He|reflexivity|]. cbn [no_class In]. left. congruence. }
  case_name c "Rule".
  { apply bind_raise in H. destruct H as [H|(r & Hr & H)].
    - apply Hb, rule_blame; [named|exact H].
    - destruct (existsb (opt_eqb String.eqb (rl_id r)) (map rl_id (pc_rules a))) eqn:Hx; [|discriminate H].
      injection H as <-. apply existsb_opt_iff in Hx.
      apply (policy_fold_rules pre a Hpe Hpre) in Hx. destruct Hx as (l1 & k & l2 & -> & Hk & Hki).
      apply rule_read_id in Hr. destruct Hr as [Hr1 Hr2]. destruct (rl_id r) as [i|] eqn:Hi; [|congruence].
      apply wrong_self, (same_rule_twice E n l1 k l2 c post i); [exact Hc| | | |exact Hki|exact Hr2].
      + rewrite Hel, <- app_assoc. reflexivity.
      + apply called_is; [reflexivity|apply Hpe, in_or_app; right; left; reflexivity|exact Hk].
      + named. }
  case_name c "Obligations"; [apply (Hni "Obligations"); [assumption|inl|exact H]|].
  injection H as <-. apply wrong_self, (stray_child E n _ _ c Hin); [exact Hc|exact Hcn|].
  apply (stray _ n); [exact Hcn|reflexivity|not_in].
Qed.

(** The element that is not a policy at all. *)
Lemma policy_root : forall n e, called "Policy" n = false -> read_policy E n = Raise e ->
  e = match n with Elem _ _ _ _ => EXMLParseError | Comment _ => EAttributeError end.
Proof.
  intros [tag a t kids|t] e Hc H; unfold read_policy in H; apply bind_raise in H.
  - rewrite (called_ln "Policy" (Elem tag a t kids) eq_refl I) in Hc.
    unfold expect in H. cbn [local_name bind] in H. cbn [ln] in Hc. rewrite Hc in H. cbn [negb] in H.
    destruct H as [H|(u & H & _)]; congruence.
  - destruct H as [H|(u & H & _)]; [cbn in H|discriminate H]. congruence.
Qed.
End Blame.
