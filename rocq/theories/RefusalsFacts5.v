(** Lemmas for C99: requests and responses. *)
From Verif Require Import Readers ContextXml SpecText SpecSetters SpecRead SpecRefusals.
From Verif Require Import EvalFacts StringFacts SettersFacts TextFacts ReadFacts RefusalsFacts RefusalsFacts3.
Open Scope string_scope.

Lemma expect_blame : forall tag n e, has_char close_brace tag = false -> expect tag n = Raise e -> wrong_root tag n e.
Proof.
  intros tag n e Hb H. destruct n as [t a x kids|x].
  - unfold wrong_root. rewrite (called_ln tag (Elem t a x kids) Hb I). unfold expect in H. cbn [local_name bind] in H.
    cbn [ln]. destruct (String.eqb (get_local_part t) tag); [discriminate H|].
    injection H as <-. split; reflexivity.
  - injection H as <-. split; reflexivity.
Qed.

Lemma foldM_ok_in : forall A B (f : A -> B -> res A) l a b x, foldM f l a = Ok b -> In x l ->
  exists c d, f c x = Ok d.
Proof.
  intros A B f l. induction l as [|y l IH]; intros a b x H Hx; [destruct Hx|].
  cbn [foldM] in H. apply bind_ok in H. destruct H as (c & Hc & H).
  destruct Hx as [<-|Hx]; [exists a, c; exact Hc|exact (IH c b x H Hx)].
Qed.

Section Context.
Variable cm : list (string * avclass).

Ltac inl := repeat (first [left; reflexivity|right]).
Ltac case_name n s := destruct (String.eqb_spec (ln n) s) as [?Hn|?Hn].
Ltac named := apply called_is; [reflexivity|assumption|assumption].

Lemma cw_self : forall n e, context_mistake cm n e -> context_wrong cm n e.
Proof. intros n e H. exists n. split; [apply cp_self|exact H]. Qed.
Lemma cw_below : forall tag names n k e, In (tag, names) context_children -> called tag n = true ->
  In k (elems n) -> called_one_of names k -> context_wrong cm k e -> context_wrong cm n e.
Proof.
  intros tag names n k e H1 H2 H3 H4 (m & Hm & H). exists m.
  split; [apply (cp_below m tag names n k); assumption|exact H].
Qed.

Lemma av_new_raise : forall k t e, av_new k (match t with Some s => NStr s | None => NNone end) = Raise e ->
  e = ETypeError /\ ac_type k <> NTStr /\ t <> None.
Proof.
  intros k [s|] e H; [|discriminate H]. cbn [av_new] in H. unfold av_set_value in H. cbn [av_class] in H.
  destruct (ac_type k); cbn [native_isinstance bind] in H; try discriminate H; injection H as <-;
    repeat split; congruence.
Qed.
Lemma av_new_string : forall k t v, av_new k (match t with Some s => NStr s | None => NNone end) = Ok v ->
  ac_type k <> NTStr -> t <> None -> False.
Proof.
  intros k [s|] v H Hk Ht; [|congruence]. cbn [av_new] in H. unfold av_set_value in H. cbn [av_class] in H.
  destruct (ac_type k); cbn [native_isinstance bind] in H; congruence.
Qed.

Lemma string_attr_raise : forall a n e, string_attr a n = Raise e -> xml_attr a n = None /\ e = ETypeError.
Proof.
  intros a n e H. unfold string_attr in H. rewrite attrs_get in H. destruct (xml_attr a n); [discriminate H|].
  injection H as <-. split; reflexivity.
Qed.
Lemma string_attr_ok : forall a n s, string_attr a n = Ok s -> xml_attr a n = Some s.
Proof.
  intros a n s H. unfold string_attr in H. rewrite attrs_get in H. destruct (xml_attr a n); congruence.
Qed.

(** ** What is refused has a mistake *)
Lemma attribute_blame : forall n e, called "Attribute" n = true -> attribute_of_xml cm n = Raise e ->
  context_mistake cm n e.
Proof.
  intros n e Hc H. unfold attribute_of_xml in H. apply bind_raise in H. destruct H as [H|(u & _ & H)].
  { destruct (expect_raise "Attribute" n e eq_refl Hc H). }
  apply bind_raise in H. destruct H as [H|(id & _ & H)].
  { apply string_attr_raise in H. destruct H as [H ->]. apply (cm_attribute cm n "AttributeId"); [inl|exact Hc|exact H]. }
  apply bind_raise in H. destruct H as [H|(dt & Hdt & H)].
  { apply string_attr_raise in H. destruct H as [H ->]. apply (cm_attribute cm n "DataType"); [inl|exact Hc|exact H]. }
  apply string_attr_ok in Hdt. cbv zeta in H. rewrite elements_elems in H.
  destruct (el_kids n) as [|k0 ks] eqn:Hk.
  { injection H as <-. destruct n as [tag a x kids|x]; [|discriminate Hc]. cbn [el_kids] in Hk. subst kids.
    apply (cm_empty cm _ tag a x); [exact Hc|reflexivity]. }
  apply bind_raise in H. destruct H as [H|(vs & _ & H)]; [|discriminate H].
  apply mapM_raise in H. destruct H as (pre & c & post & ys & Hel & H & _).
  assert (In c (elems n)) as Hcn by (rewrite Hel; apply in_or_app; right; left; reflexivity).
  assert (is_elem c) as He by exact (elems_is n c Hcn).
  rewrite local_ln in H by exact He. cbn [bind] in H.
  destruct (String.eqb_spec (ln c) "AttributeValue") as [N|N].
  2:{ injection H as <-. apply (cm_not_value cm n c); [exact Hc|exact Hcn|].
      rewrite called_ln by (reflexivity || exact He). apply String.eqb_neq, N. }
  assert (called "AttributeValue" c = true) as Hcc by named.
  destruct (dict_get dt cm) as [k|] eqn:Hcl.
  2:{ injection H as <-. apply (cm_type cm n c dt); assumption. }
  rewrite text_get in H by exact He. apply av_new_raise in H. destruct H as (-> & H1 & H2).
  apply (cm_value cm n c dt k); assumption.
Qed.

Definition attribute_parts : list string := ["Subject"; "Resource"; "Action"; "Environment"].
Lemma attribute_part_in : forall tag, In tag attribute_parts -> In (tag, ["Attribute"]) context_children.
Proof. intros tag [<-|[<-|[<-|[<-|[]]]]]; inl. Qed.

Lemma attributes_blame : forall tag n e, In tag attribute_parts -> called tag n = true ->
  attributes_of_xml cm n = Raise e -> context_wrong cm n e.
Proof.
  intros tag n e Ht Hc H. unfold attributes_of_xml in H. rewrite elements_elems in H.
  apply foldM_raise in H. destruct H as (pre & c & post & b & Hel & _ & H).
  assert (In c (elems n)) as Hcn by (rewrite Hel; apply in_or_app; right; left; reflexivity).
  assert (is_elem c) as He by exact (elems_is n c Hcn).
  rewrite local_ln in H by exact He. cbn [bind] in H.
  case_name c "Attribute"; [|discriminate H].
  apply bind_raise in H. destruct H as [H|(a & _ & H)]; [|discriminate H].
  assert (called "Attribute" c = true) as Hcc by named.
  apply (cw_below tag ["Attribute"] n c); [apply attribute_part_in, Ht|exact Hc|exact Hcn| |].
  - exists "Attribute". split; [left; reflexivity|exact Hcc].
  - apply cw_self, attribute_blame; assumption.
Qed.

Lemma subject_blame : forall n e, called "Subject" n = true -> subject_of_xml cm n = Raise e -> context_wrong cm n e.
Proof.
  intros n e Hc H. unfold subject_of_xml in H. apply bind_raise in H. destruct H as [H|(u & _ & H)].
  { destruct (expect_raise "Subject" n e eq_refl Hc H). }
  cbv zeta in H. apply bind_raise in H. destruct H as [H|(a & _ & H)]; [|discriminate H].
  apply (attributes_blame "Subject"); [inl|exact Hc|exact H].
Qed.
Lemma part_blame : forall tag n e, In tag ["Action"; "Environment"] -> called tag n = true ->
  part_of_xml tag cm n = Raise e -> context_wrong cm n e.
Proof.
  intros tag n e Ht Hc H. unfold part_of_xml in H. apply bind_raise in H. destruct H as [H|(u & _ & H)].
  { exfalso. apply (expect_raise tag n e); [destruct Ht as [<-|[<-|[]]]; reflexivity|exact Hc|exact H]. }
  apply (attributes_blame tag); [|exact Hc|exact H]. destruct Ht as [<-|[<-|[]]]; inl.
Qed.
Lemma resource_blame : forall n e, called "Resource" n = true -> resource_of_xml cm n = Raise e -> context_wrong cm n e.
Proof.
  intros n e Hc H. unfold resource_of_xml in H. apply bind_raise in H. destruct H as [H|(u & _ & H)].
  { destruct (expect_raise "Resource" n e eq_refl Hc H). }
  rewrite elements_elems in H.
  apply foldM_raise in H. destruct H as (pre & c & post & b & Hel & _ & H).
  assert (In c (elems n)) as Hcn by (rewrite Hel; apply in_or_app; right; left; reflexivity).
  assert (is_elem c) as He by exact (elems_is n c Hcn).
  rewrite local_ln in H by exact He. cbn [bind] in H.
  case_name c "Attribute".
  - apply bind_raise in H. destruct H as [H|(a & _ & H)]; [|discriminate H].
    assert (called "Attribute" c = true) as Hcc by named.
    apply (cw_below "Resource" ["Attribute"] n c); [apply attribute_part_in; inl|exact Hc|exact Hcn| |].
    + exists "Attribute". split; [left; reflexivity|exact Hcc].
    + apply cw_self, attribute_blame; assumption.
  - case_name c "ResourceContent"; discriminate H.
Qed.

Lemma request_blame : forall n e, called "Request" n = true -> request_of_xml cm n = Raise e -> context_wrong cm n e.
Proof.
  intros n e Hc H. unfold request_of_xml in H. apply bind_raise in H. destruct H as [H|(u & _ & H)].
  { destruct (expect_raise "Request" n e eq_refl Hc H). }
  rewrite elements_elems in H.
  apply foldM_raise in H. destruct H as (pre & c & post & b & Hel & _ & H).
  assert (In c (elems n)) as Hcn by (rewrite Hel; apply in_or_app; right; left; reflexivity).
  assert (is_elem c) as He by exact (elems_is n c Hcn).
  assert (In ("Request", attribute_parts) context_children) as Hin by inl.
  assert (forall s, In s attribute_parts -> called s c = true -> context_wrong cm c e -> context_wrong cm n e) as Hb.
  { intros s Hs Hcs. apply (cw_below "Request" attribute_parts n c); [exact Hin|exact Hc|exact Hcn|exists s; split; assumption]. }
  rewrite local_ln in H by exact He. cbn [bind] in H.
  case_name c "Subject".
  { apply bind_raise in H. destruct H as [H|(a & _ & H)]; [|discriminate H].
    apply (Hb "Subject"); [inl|named|]. apply subject_blame; [named|exact H]. }
  case_name c "Resource".
  { apply bind_raise in H. destruct H as [H|(a & _ & H)]; [|discriminate H].
    apply (Hb "Resource"); [inl|named|]. apply resource_blame; [named|exact H]. }
  case_name c "Action".
  { apply bind_raise in H. destruct H as [H|(a & _ & H)]; [|discriminate H].
    apply (Hb "Action"); [inl|named|]. apply (part_blame "Action"); [inl|named|exact H]. }
  case_name c "Environment".
  { apply bind_raise in H. destruct H as [H|(a & _ & H)]; [|discriminate H].
    apply (Hb "Environment"); [inl|named|]. apply (part_blame "Environment"); [inl|named|exact H]. }
  injection H as <-. apply cw_self, (cm_stray cm n "Request" attribute_parts c); [inl|exact Hin|exact Hc|exact Hcn|].
  apply (stray _ n); [exact Hcn|reflexivity|]. intros Hx. repeat (destruct Hx as [Hx|Hx]; [congruence|]). exact Hx.
Qed.

Lemma decision_text : forall s, decision_of_str s = None <-> ~ In s ["Permit"; "Deny"; "Indeterminate"; "NotApplicable"].
Proof.
  intros s. unfold decision_of_str. cbn [In].
  repeat match goal with |- context [String.eqb s ?t] => destruct (String.eqb_spec s t) as [->|?] end;
    split; try discriminate; try reflexivity; try (intros H; exfalso; apply H; auto 10; fail).
  intros _ H. repeat (destruct H as [H|H]; [congruence|]). exact H.
Qed.

Lemma decision_blame : forall n e, called "Decision" n = true -> decision_of_xml n = Raise e -> context_mistake cm n e.
Proof.
  intros n e Hc H. unfold decision_of_xml in H. apply bind_raise in H. destruct H as [H|(u & _ & H)].
  { destruct (expect_raise "Decision" n e eq_refl Hc H). }
  rewrite text_get in H by exact (called_elem _ _ Hc). destruct (xml_text n) as [s|] eqn:Ht.
  2:{ injection H as <-. apply cm_no_decision; assumption. }
  destruct (decision_of_str s) as [d|] eqn:Hd; [discriminate H|]. injection H as <-.
  apply (cm_decision cm n s); [exact Hc|exact Ht|apply decision_text, Hd].
Qed.

Lemma result_blame : forall n e, called "Result" n = true -> result_of_xml n = Raise e -> context_wrong cm n e.
Proof.
  intros n e Hc H. unfold result_of_xml in H. apply bind_raise in H. destruct H as [H|(u & _ & H)].
  { destruct (expect_raise "Result" n e eq_refl Hc H). }
  rewrite elements_elems in H.
  apply foldM_raise in H. destruct H as (pre & c & post & b & Hel & _ & H).
  assert (In c (elems n)) as Hcn by (rewrite Hel; apply in_or_app; right; left; reflexivity).
  assert (is_elem c) as He by exact (elems_is n c Hcn).
  assert (In ("Result", ["Decision"]) context_children) as Hin by inl.
  rewrite local_ln in H by exact He. cbn [bind] in H.
  case_name c "Decision".
  - apply bind_raise in H. destruct H as [H|(a & _ & H)]; [|discriminate H].
    assert (called "Decision" c = true) as Hcc by named.
    apply (cw_below "Result" ["Decision"] n c); [exact Hin|exact Hc|exact Hcn| |].
    + exists "Decision". split; [left; reflexivity|exact Hcc].
    + apply cw_self, decision_blame; assumption.
  - injection H as <-. apply cw_self, (cm_stray cm n "Result" ["Decision"] c); [inl|exact Hin|exact Hc|exact Hcn|].
    apply (stray _ n); [exact Hcn|reflexivity|]. intros Hx. repeat (destruct Hx as [Hx|Hx]; [congruence|]). exact Hx.
Qed.

Lemma response_blame : forall n e, called "Response" n = true -> response_of_xml n = Raise e -> context_wrong cm n e.
Proof.
  intros n e Hc H. unfold response_of_xml in H. apply bind_raise in H. destruct H as [H|(u & _ & H)].
  { destruct (expect_raise "Response" n e eq_refl Hc H). }
  rewrite elements_elems in H.
  apply mapM_raise in H. destruct H as (pre & c & post & ys & Hel & H & _).
  assert (In c (elems n)) as Hcn by (rewrite Hel; apply in_or_app; right; left; reflexivity).
  assert (is_elem c) as He by exact (elems_is n c Hcn).
  assert (In ("Response", ["Result"]) context_children) as Hin by inl.
  rewrite local_ln in H by exact He. cbn [bind] in H.
  case_name c "Result".
  - assert (called "Result" c = true) as Hcc by named.
    apply (cw_below "Response" ["Result"] n c); [exact Hin|exact Hc|exact Hcn| |].
    + exists "Result". split; [left; reflexivity|exact Hcc].
    + apply result_blame; assumption.
  - injection H as <-. apply cw_self, (cm_stray cm n "Response" ["Result"] c); [inl|exact Hin|exact Hc|exact Hcn|].
    apply (stray _ n); [exact Hcn|reflexivity|]. intros Hx. repeat (destruct Hx as [Hx|Hx]; [congruence|]). exact Hx.
Qed.

(** ** What is read has none *)
Definition cclean (n : node) : Prop := forall m e, context_part m n -> ~ context_mistake cm m e.

Lemma cclean_at : forall tag names n, In (tag, names) context_children -> called tag n = true ->
  (forall e, ~ context_mistake cm n e) ->
  (forall k, In k (elems n) -> In (ln k) names -> cclean k) -> cclean n.
Proof.
  intros tag names n Hin Hc Hn Hk m e Hp Hm. inversion Hp as [H|t2 ns2 n' k H1 H2 H3 H4 H5].
  - subst n. exact (Hn e Hm).
  - subst n'. apply (Hk k H3) with (m := m) (e := e); [|exact H5|exact Hm].
    apply (table_ln _ _ t2 ns2 n) in H1; [|exact H2|reflexivity].
    apply (table_ln _ _ tag names n) in Hin; [|exact Hc|reflexivity].
    assert (ns2 = names).
    { revert H1 Hin. generalize (ln n). clear. intros s H1 H2. unfold context_children in H1, H2. cbn [In] in H1, H2.
      repeat (destruct H1 as [H1|H1]; [injection H1 as <- <-;
        repeat (destruct H2 as [H2|H2]; [first [discriminate H2|injection H2 as <-; reflexivity]|]); contradiction|]).
      contradiction. }
    subst ns2. apply one_of_ln in H4; [exact H4|exact (elems_is n k H3)|].
    revert Hin. generalize (ln n). clear. intros s H. unfold context_children in H. cbn [In] in H.
    repeat (destruct H as [H|H]; [injection H as <- <-; reflexivity|]). contradiction.
Qed.
Lemma cclean_leaf : forall n, is_elem n -> (forall e, ~ context_mistake cm n e) ->
  str_in (ln n) (map fst context_children) = false -> cclean n.
Proof.
  intros n He Hn Hs m e Hp Hm. inversion Hp as [H|t2 ns2 n' k H1 H2 H3 H4 H5].
  - subst n. exact (Hn e Hm).
  - subst n'. apply (table_ln _ _ t2 ns2 n) in H1; [|exact H2|reflexivity].
    assert (str_in (ln n) (map fst context_children) = true) as Hx; [|congruence].
    apply existsb_exists. exists (ln n). split; [|apply String.eqb_refl].
    apply in_map_iff. exists (ln n, ns2). split; [reflexivity|exact H1].
Qed.

Ltac ckinds Hm n Hl :=
  destruct Hm as [tag9 nm9 c9 Hcl Hi Hc Hin Hs1|a9 Hi Hc Ha|tg9 at9 tx9 Hc Hs1|c9 Hc Hin Hs1|c9 dt9 Hc Hin Hs1 Ha Hd
    |c9 dt9 k9 Hc Hin Hs1 Ha Hd Hk Ht|Hc Ht|s9 Hc Ht Hs1];
  try (exfalso; match goal with Hc : called ?s n = true |- _ =>
    apply (ln_is s n eq_refl) in Hc; rewrite Hl in Hc; discriminate Hc end);
  try match goal with Hi : In (?tag, ?a) context_children, Hc : called ?tag n = true |- _ =>
    assert (tag = ln n) as -> by (symmetry; apply ln_is;
      [let Hx := fresh in pose proof Hi as Hx; unfold context_children in Hx; cbn [In] in Hx;
       repeat (destruct Hx as [Hx|Hx]; [injection Hx as <- _; reflexivity|]); contradiction|exact Hc]);
    clear Hc; rewrite Hl in *;
    unfold context_children in Hi; cbn [In] in Hi;
    repeat (destruct Hi as [Hi|Hi]; [first [discriminate Hi|injection Hi as <-]|]); try contradiction
  end;
  try (exfalso; match goal with H : In _ closed_elements |- _ =>
    unfold closed_elements in H; cbn [In] in H; repeat (destruct H as [H|H]; [discriminate H|]); exact H end).

Lemma attribute_clean : forall n a, called "Attribute" n = true -> attribute_of_xml cm n = Ok a -> cclean n.
Proof.
  intros n a Hc0 H. pose proof (ln_is "Attribute" n eq_refl Hc0) as Hl.
  apply cclean_leaf; [exact (called_elem _ _ Hc0)| |rewrite Hl; reflexivity]. intros e Hm.
  unfold attribute_of_xml in H. apply bind_ok in H. destruct H as (u & _ & H).
  apply bind_ok in H. destruct H as (id & Hid & H). apply string_attr_ok in Hid.
  apply bind_ok in H. destruct H as (dt & Hdt & H). apply string_attr_ok in Hdt. cbv zeta in H.
  destruct (el_kids n) as [|k0 ks] eqn:Hk0; [discriminate H|]. rewrite <- Hk0, elements_elems in H.
  apply bind_ok in H. destruct H as (vs & Hvs & _). apply mapM_ok in Hvs.
  assert (forall c, In c (elems n) -> exists v, (let* l := local_name c in
      if String.eqb l "AttributeValue" then
        match dict_get dt cm with
        | None => Raise ETypeError
        | Some k => av_new k (match el_text c with Some t => NStr t | None => NNone end)
        end
      else Raise EXMLParseError) = Ok v) as Hval.
  { intros c Hc. destruct (Forall2_in_l _ _ _ _ _ c Hvs Hc) as (v & _ & Hv). exists v. exact Hv. }
  assert (forall c, In c (elems n) -> called "AttributeValue" c = true -> exists k v, dict_get dt cm = Some k /\
     av_new k (match xml_text c with Some t => NStr t | None => NNone end) = Ok v) as Hval2.
  { intros c Hc Hcc. destruct (Hval c Hc) as (v & Hv). pose proof (elems_is n c Hc) as He.
    rewrite local_ln, (ln_is "AttributeValue" c eq_refl Hcc), text_get in Hv by exact He. cbn [bind String.eqb Ascii.eqb Bool.eqb] in Hv.
    destruct (dict_get dt cm) as [k|]; [|discriminate Hv]. exists k, v. split; [reflexivity|exact Hv]. }
  clear Hc0. ckinds Hm n Hl.
  - destruct Hi as [<-|[<-|[]]]; congruence.
  - subst n. discriminate Hk0.
  - destruct (Hval c9 Hin) as (v & Hv). pose proof (elems_is n c9 Hin) as He.
    rewrite local_ln in Hv by exact He. rewrite called_ln in Hs1 by (reflexivity || exact He).
    cbn [bind] in Hv. rewrite Hs1 in Hv. discriminate Hv.
  - destruct (Hval2 c9 Hin Hs1) as (k & v & H1 & _). congruence.
  - destruct (Hval2 c9 Hin Hs1) as (k & v & H1 & H2). assert (k = k9) by congruence. subst k.
    exact (av_new_string _ _ _ H2 Hk Ht).
Qed.

Lemma attributes_clean : forall tag n l, In tag attribute_parts -> called tag n = true ->
  attributes_of_xml cm n = Ok l -> forall k, In k (elems n) -> In (ln k) ["Attribute"] -> cclean k.
Proof.
  intros tag n l Ht Hc H k Hk [Hn|[]]. unfold attributes_of_xml in H. rewrite elements_elems in H.
  destruct (foldM_ok_in _ _ _ _ _ _ k H Hk) as (acc & acc' & Hs).
  pose proof (elems_is n k Hk) as He. rewrite local_ln, <- Hn in Hs by exact He. cbn [bind String.eqb Ascii.eqb Bool.eqb] in Hs.
  apply bind_ok in Hs. destruct Hs as (a & Ha & _). apply (attribute_clean k a); [|exact Ha].
  apply called_is; [reflexivity|exact He|symmetry; exact Hn].
Qed.

Lemma part_no_mistake : forall tag n e, In tag attribute_parts -> called tag n = true -> ~ context_mistake cm n e.
Proof.
  intros tag n e Ht Hc0 Hm.
  assert (ln n = tag) as Hl by (apply ln_is; [destruct Ht as [<-|[<-|[<-|[<-|[]]]]]; reflexivity|exact Hc0]).
  clear Hc0. destruct Ht as [<-|[<-|[<-|[<-|[]]]]]; ckinds Hm n Hl.
Qed.

Lemma subject_clean : forall n s, called "Subject" n = true -> subject_of_xml cm n = Ok s -> cclean n.
Proof.
  intros n s Hc H. unfold subject_of_xml in H. apply bind_ok in H. destruct H as (u & _ & H). cbv zeta in H.
  apply bind_ok in H. destruct H as (l & Hl & _).
  apply (cclean_at "Subject" ["Attribute"]); [inl|exact Hc|intros e; apply (part_no_mistake "Subject"); [inl|exact Hc]|].
  apply (attributes_clean "Subject" n l); [inl|exact Hc|exact Hl].
Qed.
Lemma part_clean : forall tag n s, In tag ["Action"; "Environment"] -> called tag n = true ->
  part_of_xml tag cm n = Ok s -> cclean n.
Proof.
  intros tag n s Ht Hc H. unfold part_of_xml in H. apply bind_ok in H. destruct H as (u & _ & H).
  assert (In tag attribute_parts) as Ht' by (destruct Ht as [<-|[<-|[]]]; inl).
  apply (cclean_at tag ["Attribute"]); [apply attribute_part_in, Ht'|exact Hc|intros e; apply (part_no_mistake tag); assumption|].
  apply (attributes_clean tag n s); assumption.
Qed.
Lemma resource_clean : forall n s, called "Resource" n = true -> resource_of_xml cm n = Ok s -> cclean n.
Proof.
  intros n s Hc H. unfold resource_of_xml in H. apply bind_ok in H. destruct H as (u & _ & H).
  rewrite elements_elems in H.
  apply (cclean_at "Resource" ["Attribute"]); [inl|exact Hc|intros e; apply (part_no_mistake "Resource"); [inl|exact Hc]|].
  intros k Hk [Hn|[]]. destruct (foldM_ok_in _ _ _ _ _ _ k H Hk) as (acc & acc' & Hs).
  pose proof (elems_is n k Hk) as He. rewrite local_ln, <- Hn in Hs by exact He. cbn [bind String.eqb Ascii.eqb Bool.eqb] in Hs.
  apply bind_ok in Hs. destruct Hs as (a & Ha & _). apply (attribute_clean k a); [|exact Ha].
  apply called_is; [reflexivity|exact He|symmetry; exact Hn].
Qed.

Lemma request_clean : forall n r, called "Request" n = true -> request_of_xml cm n = Ok r -> cclean n.
Proof.
  intros n r Hc0 H. unfold request_of_xml in H. apply bind_ok in H. destruct H as (u & _ & H).
  rewrite elements_elems in H. pose proof (ln_is "Request" n eq_refl Hc0) as Hl.
  assert (forall k, In k (elems n) -> exists r r', (
           let* name := local_name k in
           if String.eqb name "Subject" then
             let* s := subject_of_xml cm k in
             Ok (mkRequest (rq_subjects r ++ [s]) (rq_resources r) (rq_action r)
                   (rq_environment r) None None)
           else if String.eqb name "Resource" then
             let* s := resource_of_xml cm k in
             Ok (mkRequest (rq_subjects r) (rq_resources r ++ [s]) (rq_action r)
                   (rq_environment r) None None)
           else if String.eqb name "Action" then
             let* a := part_of_xml "Action" cm k in
             Ok (mkRequest (rq_subjects r) (rq_resources r) (Some a) (rq_environment r) None None)
           else if String.eqb name "Environment" then
             let* a := part_of_xml "Environment" cm k in
             Ok (mkRequest (rq_subjects r) (rq_resources r) (rq_action r) (Some a) None None)
           else Raise EXMLParseError) = Ok r') as Hstep.
  { intros k Hk. exact (foldM_ok_in _ _ _ _ _ _ k H Hk). }
  apply (cclean_at "Request" attribute_parts); [inl|exact Hc0| |].
  - intros e Hm. clear Hc0. ckinds Hm n Hl. apply Hs1. pose proof (elems_is n c9 Hin) as He.
    apply one_of_ln; [exact He|reflexivity|]. destruct (Hstep c9 Hin) as (a & b & Hs).
    rewrite local_ln in Hs by exact He. cbn [bind] in Hs.
    case_name c9 "Subject"; [left; congruence|]. case_name c9 "Resource"; [right; left; congruence|].
    case_name c9 "Action"; [do 2 right; left; congruence|]. case_name c9 "Environment"; [do 3 right; left; congruence|discriminate Hs].
  - intros k Hk Hn. destruct (Hstep k Hk) as (a & b & Hs). pose proof (elems_is n k Hk) as He.
    rewrite local_ln in Hs by exact He. cbn [bind] in Hs.
    destruct Hn as [Hn|[Hn|[Hn|[Hn|[]]]]]; rewrite <- Hn in Hs; cbn [String.eqb Ascii.eqb Bool.eqb] in Hs;
      symmetry in Hn; apply bind_ok in Hs; destruct Hs as (x & Hx & _).
    + apply (subject_clean k x); [named|exact Hx].
    + apply (resource_clean k x); [named|exact Hx].
    + apply (part_clean "Action" k x); [inl|named|exact Hx].
    + apply (part_clean "Environment" k x); [inl|named|exact Hx].
Qed.

Lemma decision_clean : forall n d, called "Decision" n = true -> decision_of_xml n = Ok d -> cclean n.
Proof.
  intros n d Hc0 H. pose proof (ln_is "Decision" n eq_refl Hc0) as Hl.
  apply cclean_leaf; [exact (called_elem _ _ Hc0)| |rewrite Hl; reflexivity]. intros e Hm.
  unfold decision_of_xml in H. apply bind_ok in H. destruct H as (u & _ & H).
  rewrite text_get in H by exact (called_elem _ _ Hc0). clear Hc0. ckinds Hm n Hl; rewrite Ht in H.
  - discriminate H.
  - apply decision_text in Hs1. rewrite Hs1 in H. discriminate H.
Qed.

Lemma result_clean : forall n r, called "Result" n = true -> result_of_xml n = Ok r -> cclean n.
Proof.
  intros n r Hc0 H. unfold result_of_xml in H. apply bind_ok in H. destruct H as (u & _ & H).
  rewrite elements_elems in H. pose proof (ln_is "Result" n eq_refl Hc0) as Hl.
  assert (forall k, In k (elems n) -> ln k = "Decision" /\ exists d, decision_of_xml k = Ok d) as Hstep.
  { intros k Hk. destruct (foldM_ok_in _ _ _ _ _ _ k H Hk) as (a & b & Hs). pose proof (elems_is n k Hk) as He.
    rewrite local_ln in Hs by exact He. cbn [bind] in Hs. case_name k "Decision"; [|discriminate Hs].
    split; [assumption|]. apply bind_ok in Hs. destruct Hs as (d & Hd & _). exists d. exact Hd. }
  apply (cclean_at "Result" ["Decision"]); [inl|exact Hc0| |].
  - intros e Hm. clear Hc0. ckinds Hm n Hl. apply Hs1. pose proof (elems_is n c9 Hin) as He.
    destruct (Hstep c9 Hin) as [Hn _]. exists "Decision". split; [left; reflexivity|named].
  - intros k Hk _. destruct (Hstep k Hk) as [Hn (d & Hd)]. pose proof (elems_is n k Hk) as He.
    apply (decision_clean k d); [named|exact Hd].
Qed.

Lemma response_clean : forall n r, called "Response" n = true -> response_of_xml n = Ok r -> cclean n.
Proof.
  intros n r Hc0 H. unfold response_of_xml in H. apply bind_ok in H. destruct H as (u & _ & H).
  rewrite elements_elems in H. pose proof (ln_is "Response" n eq_refl Hc0) as Hl. apply mapM_ok in H.
  assert (forall k, In k (elems n) -> ln k = "Result" /\ exists d, result_of_xml k = Ok d) as Hstep.
  { intros k Hk. destruct (Forall2_in_l _ _ _ _ _ k H Hk) as (b & _ & Hs). pose proof (elems_is n k Hk) as He.
    rewrite local_ln in Hs by exact He. cbn [bind] in Hs. case_name k "Result"; [|discriminate Hs].
    split; [assumption|exists b; exact Hs]. }
  apply (cclean_at "Response" ["Result"]); [inl|exact Hc0| |].
  - intros e Hm. clear Hc0. ckinds Hm n Hl. apply Hs1. pose proof (elems_is n c9 Hin) as He.
    destruct (Hstep c9 Hin) as [Hn _]. exists "Result". split; [left; reflexivity|named].
  - intros k Hk _. destruct (Hstep k Hk) as [Hn (d & Hd)]. pose proof (elems_is n k Hk) as He.
    apply (result_clean k d); [named|exact Hd].
Qed.
End Context.
