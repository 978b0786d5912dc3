(** Lemmas for C99: a policy that is read has no mistake. *)
From Verif Require Import Readers SpecText SpecSetters SpecRead SpecRefusals.
From Verif Require Import EvalFacts StringFacts SettersFacts TextFacts ReadFacts RefusalsFacts RefusalsFacts2.
Open Scope string_scope.

Lemma table_ln : forall A (L : list (string * A)) tag a n, In (tag, a) L -> called tag n = true ->
  forallb (fun p => negb (has_char close_brace (fst p))) L = true -> In (ln n, a) L.
Proof.
  intros A L tag a n H Hc Hb. rewrite forallb_forall in Hb. specialize (Hb _ H). cbn [fst] in Hb.
  apply Bool.negb_true_iff in Hb. rewrite (ln_is tag n Hb Hc). exact H.
Qed.

Section Clean.
Variable E : renv.
Hypothesis HE : default_readers E.

Definition clean (n : node) : Prop := forall m e, part m n -> ~ mistake E m e.

Lemma clean_at : forall n, (forall e, ~ mistake E n e) ->
  (forall k, In k (elems n) -> clean k) -> clean n.
Proof.
  intros n Hn Hk m e Hp Hm. inversion Hp as [H|n' k H1 H2 H3].
  - subst n. exact (Hn e Hm).
  - subst n'. exact (Hk k H2 m e H3 Hm).
Qed.

Lemma clean_leaf : forall n, is_elem n -> (forall e, ~ mistake E n e) -> ~ In (ln n) with_children -> clean n.
Proof.
  intros n He Hn Hw m e Hp Hm. inversion Hp as [H|n' k H1 H2 H3].
  - subst n. exact (Hn e Hm).
  - subst n'. apply one_of_ln in H1; [auto|exact He|reflexivity].
Qed.

Ltac no_in := let H := fresh in intros H; cbn in H;
  repeat (destruct H as [H|H]; [discriminate H|]); exact H.

(** Goes through the kinds of mistake an element called [name] can have. *)
Ltac tables n Hl :=
  repeat match goal with
  | Hi : In (?tag, ?a) ?L, Hc : called ?tag n = true |- _ =>
      apply (table_ln _ L tag a n) in Hi; [|exact Hc|reflexivity]; clear Hc; rewrite Hl in Hi;
      cbv [needed function_names contents matches] in Hi; cbn [In] in Hi;
      repeat (destruct Hi as [Hi|Hi]; [first [discriminate Hi|injection Hi as Hi]|]); try contradiction
  end.
Ltac other n Hl := exfalso;
  match goal with Hc : called ?s n = true |- _ =>
    apply (ln_is s n eq_refl) in Hc; rewrite Hl in Hc; discriminate Hc end.
Ltac kinds Hm n Hl :=
  destruct Hm as [tag9 at9 Hi Hc Ha|tag9 at9 id9 e9 Hi Hc Ha Hnf|s9 Hc Ha Hs1 Hs2|id9 Hc Ha Hs1|id9 Hc Ha Hs1
    |dt9 Hc Ha Hs1|dt9 Hc Ha Hs1|Hc Hs1|dt9 cl9 Hc Ha Hs1 Hs2
    |tag9 ct9 c9 Hi Hc Hin Hs1|tag9 ct9 c9 Hi Hc Hin Hs1|tag9 ct9 c9 Hi Hc Hin Hs1
    |tag9 d9 c9 Hi Hc Hin Hs1|tag9 d9 Hi Hc Hs1 Hs2|Hc Hs1|c9 Hc Hin Hs1
    |l1 k1 l2 k2 l3 id9 Hc Hel Hq1 Hq2 Ha Ha2|Hc Hs1 Hs2|tg9 ats9 tx9 t9 Hc Hs1|c9 Hc Hin Hs1];
  try (other n Hl); tables n Hl.

Lemma implements_no : forall id f e, implements E id f -> no_function E id e -> False.
Proof. intros id f e H Hn. unfold implements in H. inversion Hn; congruence. Qed.

Lemma value_clean : forall n v, value_doc E n v -> clean n.
Proof.
  intros n v (Hc0 & dt0 & c0 & s0 & Ha0 & (Hc1 & Hc2 & Hc3) & Ht0 & _).
  pose proof (ln_is "AttributeValue" n eq_refl Hc0) as Hl.
  apply clean_leaf; [exact (called_elem _ _ Hc0)| |rewrite Hl; no_in].
  intros e Hm. kinds Hm n Hl; subst; congruence.
Qed.

Lemma designator_clean : forall n d, designator_doc n d -> clean n.
Proof.
  intros n d (Hc0 & Hk & H1 & H2 & H3 & H4 & _).
  assert (exists k, k <> DEnvironment /\ ln n = designator_tag k) as (k & Hk' & Hl).
  { exists (dg_kind d). split; [exact Hk|]. apply ln_is; [destruct (dg_kind d); reflexivity|exact Hc0]. }
  apply clean_leaf; [exact (called_elem _ _ Hc0)| |rewrite Hl; destruct k; no_in].
  intros e Hm. clear Hc0. destruct k; [| | |congruence]; cbn [designator_tag] in Hl;
    kinds Hm n Hl; subst; congruence.
Qed.

Lemma selector_clean : forall n d, selector_doc n d -> clean n.
Proof.
  intros n d (Hc0 & H1 & H2 & H3 & H4 & _).
  pose proof (ln_is "AttributeSelector" n eq_refl Hc0) as Hl.
  apply clean_leaf; [exact (called_elem _ _ Hc0)| |rewrite Hl; no_in].
  intros e Hm. clear Hc0. kinds Hm n Hl; subst; congruence.
Qed.

Lemma description_clean : forall n, called "Description" n = true -> clean n.
Proof.
  intros n Hc0. pose proof (ln_is "Description" n eq_refl Hc0) as Hl.
  apply clean_leaf; [exact (called_elem _ _ Hc0)| |rewrite Hl; no_in].
  intros e Hm. clear Hc0. kinds Hm n Hl.
Qed.

Lemma defaults_clean : forall n v, defaults_doc n v -> clean n.
Proof.
  intros n v Hd. pose proof (proj1 Hd) as Hc0. pose proof (ln_is "PolicyDefaults" n eq_refl Hc0) as Hl.
  apply clean_leaf; [exact (called_elem _ _ Hc0)| |rewrite Hl; no_in].
  intros e Hm. clear Hc0. kinds Hm n Hl.
  - exact (Hs1 v Hd).
  - destruct Hd as (_ & tag & a & t' & k & -> & Hk & _). injection Hs1 as _ _ _ ->. discriminate Hk.
Qed.

Definition expr_names : list string :=
  ["Apply"; "AttributeValue"; "SubjectAttributeDesignator"; "ResourceAttributeDesignator";
   "ActionAttributeDesignator"; "AttributeSelector"].
Lemma expr_name : forall n e, expr_doc E n e -> is_elem n /\ In (ln n) expr_names.
Proof.
  intros n e H. inversion H as [? v Hv|? d Hd|? s Hs|? id f args Hc Hid Hf Hargs]; subst.
  - destruct Hv as [Hc _]. split; [exact (called_elem _ _ Hc)|]. rewrite (ln_is "AttributeValue" n eq_refl Hc). cbn; auto 10.
  - destruct Hd as (Hc & Hk & _). split; [exact (called_elem _ _ Hc)|].
    rewrite (ln_is (designator_tag (dg_kind d)) n); [|destruct (dg_kind d); reflexivity|exact Hc].
    destruct (dg_kind d); [cbn; auto 10|cbn; auto 10|cbn; auto 10|congruence].
  - destruct Hs as [Hc _]. split; [exact (called_elem _ _ Hc)|]. rewrite (ln_is "AttributeSelector" n eq_refl Hc). cbn; auto 10.
  - split; [exact (called_elem _ _ Hc)|]. rewrite (ln_is "Apply" n eq_refl Hc). cbn; auto 10.
Qed.

(** A child with one of the names [ok] is not stray, unimplemented or without a class. *)
Lemma named_in : forall ok names n, In (ln n) ok -> is_elem n ->
  forallb (fun s => negb (has_char close_brace s)) names = true ->
  forallb (fun s => str_in s names) ok = true -> called_one_of names n.
Proof.
  intros ok names n H He Hb Hok. apply one_of_ln; [exact He|exact Hb|].
  rewrite forallb_forall in Hok. specialize (Hok _ H). unfold str_in in Hok. apply existsb_exists in Hok.
  destruct Hok as (s & Hs & Heq). apply String.eqb_eq in Heq. subst s. exact Hs.
Qed.
Lemma named_out : forall ok names n, In (ln n) ok -> is_elem n ->
  forallb (fun s => negb (has_char close_brace s)) names = true ->
  forallb (fun s => negb (str_in s names)) ok = true -> ~ called_one_of names n.
Proof.
  intros ok names n H He Hb Hok H'. apply one_of_ln in H'; [|exact He|exact Hb].
  rewrite forallb_forall in Hok. specialize (Hok _ H). apply Bool.negb_true_iff in Hok.
  assert (str_in (ln n) names = true) as Hx; [|congruence].
  apply existsb_exists. exists (ln n). split; [exact H'|apply String.eqb_refl].
Qed.
Lemma named_not : forall ok s n, In (ln n) ok -> has_char close_brace s = false ->
  str_in s ok = false -> called s n = true -> False.
Proof.
  intros ok s n H Hb Hok Hc. apply (ln_is s n Hb) in Hc. subst s.
  assert (str_in (ln n) ok = true) as Hx; [|congruence].
  apply existsb_exists. exists (ln n). split; [exact H|apply String.eqb_refl].
Qed.

Lemma Forall2_in_l : forall A B (R : A -> B -> Prop) l r x, Forall2 R l r -> In x l -> exists y, In y r /\ R x y.
Proof.
  intros A B R l r x H. induction H as [|a b l r Hab H IH]; intros Hx; [destruct Hx|].
  destruct Hx as [<-|Hx]; [exists b; split; [left; reflexivity|exact Hab]|].
  destruct (IH Hx) as (y & Hy & Hr). exists y. split; [right; exact Hy|exact Hr].
Qed.

(** Deals with the mistakes about the names of children. *)
Ltac child_kinds Hkids :=
  match goal with
  | Hct : mkContent _ _ _ = _ |- _ => subst
  | _ => idtac
  end;
  match goal with
  | Hs : ~ called_one_of _ ?c, Hin : In ?c _ |- _ =>
      apply Hs; destruct (Hkids c Hin); eapply named_in; [eassumption|assumption|reflexivity|reflexivity]
  | Hs : called_one_of ?names ?c, Hin : In ?c _ |- _ =>
      destruct (Hkids c Hin); eapply (named_out _ names c); [eassumption|assumption|reflexivity|reflexivity|exact Hs]
  | Hs : called ?s ?c = true, Hin : In ?c _ |- _ =>
      destruct (Hkids c Hin); eapply (named_not _ s c); [eassumption|reflexivity|reflexivity|exact Hs]
  end.

Lemma expr_clean : forall n, forall e, expr_doc E n e -> clean n.
Proof.
  induction n as [t|tag a t kids IH] using node_ind'; intros x Hx; [destruct (expr_name _ _ Hx) as [[] _]|].
  set (n := Elem tag a t kids) in *.
  assert (forall k, In k (elems n) -> forall e, expr_doc E k e -> clean k) as IH'.
  { intros k Hk. rewrite Forall_forall in IH. apply IH. apply filter_In in Hk. apply Hk. }
  clearbody n. clear IH.
  inversion Hx as [? v Hv|? d Hd|? s Hs|? id f args Hc0 Hid Hf Hargs]; subst.
  - exact (value_clean n v Hv).
  - exact (designator_clean n d Hd).
  - exact (selector_clean n s Hs).
  - pose proof (ln_is "Apply" n eq_refl Hc0) as Hl.
    assert (forall k, In k (elems n) -> is_elem k /\ In (ln k) expr_names) as Hkids.
    { intros k Hk. destruct (Forall2_in_l _ _ _ _ _ k Hargs Hk) as (y & _ & Hy). exact (expr_name k y Hy). }
    apply clean_at.
    + intros e Hm. clear Hc0. kinds Hm n Hl; [subst; congruence| | | | |].
      * subst. assert (id9 = id) by congruence. subst. exact (implements_no id f _ Hf Hnf).
      * child_kinds Hkids.
      * child_kinds Hkids.
      * child_kinds Hkids.
      * child_kinds Hkids.
    + intros k Hk. destruct (Forall2_in_l _ _ _ _ _ k Hargs Hk) as (y & _ & Hy). exact (IH' k Hk y Hy).
Qed.

Lemma condition_clean : forall n e, condition_doc E n e -> clean n.
Proof.
  intros n x (Hc0 & k & Hk & Hka & Hd). pose proof (ln_is "Condition" n eq_refl Hc0) as Hl.
  apply clean_at.
  - intros e Hm. clear Hc0. kinds Hm n Hl. apply Hs1. exists k. split; assumption.
  - intros k' Hk'. rewrite Hk in Hk'. destruct Hk' as [<-|[]]. exact (expr_clean _ _ Hd).
Qed.

Lemma elems_named : forall n names, (forall c, In c (elems n) -> called_one_of names c) ->
  forallb (fun s => negb (has_char close_brace s)) names = true ->
  forall c, In c (elems n) -> is_elem c /\ In (ln c) names.
Proof.
  intros n names H Hb c Hc. pose proof (elems_is n c Hc) as He. split; [exact He|].
  apply one_of_ln; [exact He|exact Hb|exact (H c Hc)].
Qed.
Lemma in_called_of : forall n c s, has_char close_brace s = false -> In c (elems n) -> is_elem c -> s = ln c ->
  In c (elems_called s n).
Proof.
  intros n c s Hb Hc He Hs. apply filter_In. split; [exact Hc|]. apply called_is; [exact Hb|exact He|congruence].
Qed.

Lemma match_clean : forall k n m, match_doc E k n m -> clean n.
Proof.
  intros k n m (Hk & Hc0 & Hnames & Htwo & (id0 & f & _ & _ & Hid & Hf) & Hv & Hd & Hs).
  assert (has_char close_brace (match_tag k) = false) as Hb by (destruct k; reflexivity).
  assert (has_char close_brace (designator_tag k) = false) as Hb2 by (destruct k; reflexivity).
  pose proof (ln_is (match_tag k) n Hb Hc0) as Hl.
  assert (forall c, In c (elems n) -> is_elem c /\ In (ln c) ["AttributeValue"; designator_tag k; "AttributeSelector"]) as Hkids
    by (apply elems_named; [exact Hnames|destruct k; reflexivity]).
  apply clean_at.
  - intros e Hm. clear Hc0. destruct k; [| | |congruence]; cbn [match_tag designator_tag] in *;
      (kinds Hm n Hl;
       [subst; congruence
       |subst; assert (id9 = id0) by congruence; subst; exact (implements_no id0 f _ Hf Hnf)
       |subst; apply Hs1, Hnames, Hin
       |subst; destruct Htwo as [Ht|Ht]; contradiction]).
  - intros c Hc. destruct (Hkids c Hc) as [He [N|[N|[N|[]]]]].
    + destruct Hv as [Hv _]. destruct (Hv c) as [v Hv']; [apply in_called_of; auto|exact (value_clean c v Hv')].
    + destruct Hd as [Hd _]. destruct (Hd c) as [v [Hv' _]]; [apply in_called_of; auto|exact (designator_clean c v Hv')].
    + destruct Hs as [Hs _]. destruct (Hs c) as [v Hv']; [apply in_called_of; auto|exact (selector_clean c v Hv')].
Qed.

Lemma match_name_of : forall k n m, match_doc E k n m -> k <> DEnvironment /\ is_elem n /\ ln n = match_tag k.
Proof.
  intros k n m (Hk & Hc & _). split; [exact Hk|]. split; [exact (called_elem _ _ Hc)|].
  apply ln_is; [destruct k; reflexivity|exact Hc].
Qed.

Lemma child_clean : forall k n ms, child_doc E k n ms -> clean n.
Proof.
  intros k n ms (Hc0 & H).
  assert (forall c, In c (elems n) -> k <> DEnvironment /\ is_elem c /\ ln c = match_tag k /\ clean c) as Hkids.
  { intros c Hc. destruct (Forall2_in_l _ _ _ _ _ c H Hc) as (m & _ & Hm).
    destruct (match_name_of k c m Hm) as (H1 & H2 & H3). repeat split; try assumption. exact (match_clean k c m Hm). }
  pose proof (ln_is (child_tag k) n ltac:(destruct k; reflexivity) Hc0) as Hl.
  apply clean_at; [|intros c Hc; apply (Hkids c Hc)].
  intros e Hm. clear Hc0. destruct k; cbn [child_tag match_tag] in *.
  - assert (forall c, In c (elems n) -> is_elem c /\ In (ln c) ["SubjectMatch"]) as Hk2
      by (intros c Hc; destruct (Hkids c Hc) as (_ & H1 & H2 & _); split; [exact H1|left; congruence]).
    kinds Hm n Hl; child_kinds Hk2.
  - assert (forall c, In c (elems n) -> is_elem c /\ In (ln c) ["ResourceMatch"]) as Hk2
      by (intros c Hc; destruct (Hkids c Hc) as (_ & H1 & H2 & _); split; [exact H1|left; congruence]).
    kinds Hm n Hl; child_kinds Hk2.
  - assert (forall c, In c (elems n) -> is_elem c /\ In (ln c) ["ActionMatch"]) as Hk2
      by (intros c Hc; destruct (Hkids c Hc) as (_ & H1 & H2 & _); split; [exact H1|left; congruence]).
    kinds Hm n Hl; child_kinds Hk2.
  - kinds Hm n Hl; destruct (Hkids _ Hin) as (Hx & _); congruence.
Qed.

Lemma container_clean : forall k n, called (container_tag k) n = true ->
  (forall c, In c (elems n) -> exists ms, child_doc E k c ms) -> clean n.
Proof.
  intros k n Hc0 H.
  pose proof (ln_is (container_tag k) n ltac:(destruct k; reflexivity) Hc0) as Hl.
  apply clean_at; [|intros c Hc; destruct (H c Hc) as [ms Hms]; exact (child_clean k c ms Hms)].
  assert (forall c, In c (elems n) -> is_elem c /\ In (ln c) [child_tag k]) as Hkids.
  { intros c Hc. destruct (H c Hc) as [ms [Hx _]]. split; [exact (called_elem _ _ Hx)|left].
    symmetry. apply ln_is; [destruct k; reflexivity|exact Hx]. }
  intros e Hm. clear Hc0. destruct k; cbn [container_tag child_tag] in *; kinds Hm n Hl; child_kinds Hkids.
Qed.

Lemma target_clean : forall n t, target_doc E n t -> clean n.
Proof.
  intros n t (Hc0 & Hnames & H). pose proof (ln_is "Target" n eq_refl Hc0) as Hl.
  assert (forall c, In c (elems n) -> is_elem c /\ In (ln c) ["Subjects"; "Resources"; "Actions"; "Environments"]) as Hkids
    by (apply elems_named; [exact Hnames|reflexivity]).
  apply clean_at.
  - intros e Hm. clear Hc0. kinds Hm n Hl; child_kinds Hkids.
  - intros c Hc. destruct (Hkids c Hc) as [He Hn].
    assert (exists k, ln c = container_tag k) as [k Hk].
    { destruct Hn as [N|[N|[N|[N|[]]]]]; [exists DSubject|exists DResource|exists DAction|exists DEnvironment]; symmetry; exact N. }
    assert (has_char close_brace (container_tag k) = false) as Hb by (destruct k; reflexivity).
    apply (container_clean k); [apply called_is; assumption|].
    intros c' Hc'. destruct (Forall2_in_l _ _ _ _ _ c' (H k)) as (ms & _ & Hms); [|exists ms; exact Hms].
    apply in_flat_map. exists c. split; [apply in_called_of; auto|exact Hc'].
Qed.

Lemma rule_clean : forall n r, rule_doc E n r -> clean n.
Proof.
  intros n r (Hc0 & Hnames & (id0 & ef & _ & _ & Hid & Hef) & [Ht _] & (cc & [Hcc _] & _) & _).
  pose proof (ln_is "Rule" n eq_refl Hc0) as Hl.
  assert (forall c, In c (elems n) -> is_elem c /\ In (ln c) ["Description"; "Condition"; "Target"]) as Hkids
    by (apply elems_named; [exact Hnames|reflexivity]).
  apply clean_at.
  - intros e Hm. clear Hc0. kinds Hm n Hl; try (child_kinds Hkids).
    + subst; congruence.
    + subst; congruence.
    + destruct ef; cbn [effect_name] in Hef; congruence.
  - intros c Hc. destruct (Hkids c Hc) as [He [N|[N|[N|[]]]]].
    + apply description_clean, called_is; auto.
    + destruct (Hcc c) as [v Hv]; [apply in_called_of; auto|exact (condition_clean c v Hv)].
    + destruct (Ht c) as [v Hv]; [apply in_called_of; auto|exact (target_clean c v Hv)].
Qed.

Lemma rule_ids : forall l rules, Forall2 (rule_doc E) (filter (called "Rule") l) rules ->
  map (xml_attr "RuleId") (filter (called "Rule") l) = map rl_id rules.
Proof.
  intros l rules H. remember (filter (called "Rule") l) as L eqn:HL. clear HL.
  induction H as [|x y L rules Hxy H IH]; [reflexivity|]. cbn [map]. rewrite IH. f_equal.
  destruct Hxy as (_ & _ & (id & ef & H1 & _ & H2 & _) & _). congruence.
Qed.

Lemma policy_clean : forall n p, policy_doc E n p -> clean n.
Proof.
  intros n p (Hc0 & Hnames & id0 & algId & alg & desc & xp & tg & rules & _ & Hid & Hai & Ha0 & _ & [Hx _] & [Ht _] & Hr & Hnd).
  pose proof (ln_is "Policy" n eq_refl Hc0) as Hl.
  assert (forall c, In c (elems n) -> is_elem c /\ In (ln c) ["Description"; "PolicyDefaults"; "Target"; "Rule"]) as Hkids
    by (apply elems_named; [exact Hnames|reflexivity]).
  apply clean_at.
  - intros e Hm. clear Hc0. kinds Hm n Hl; try (child_kinds Hkids).
    + subst; congruence.
    + subst; congruence.
    + congruence.
    + rewrite <- (rule_ids _ _ Hr) in Hnd. rewrite Hel in Hnd.
      rewrite filter_app in Hnd. cbn [filter] in Hnd. rewrite Hq1 in Hnd.
      rewrite filter_app in Hnd. cbn [filter] in Hnd. rewrite Hq2 in Hnd.
      rewrite map_app in Hnd. cbn [map] in Hnd. apply NoDup_remove_2 in Hnd. apply Hnd.
      apply in_or_app. right. rewrite map_app. apply in_or_app. right. left. congruence.
  - intros c Hc. destruct (Hkids c Hc) as [He [N|[N|[N|[N|[]]]]]].
    + apply description_clean, called_is; auto.
    + destruct (Hx c) as [v Hv]; [apply in_called_of; auto|exact (defaults_clean c v Hv)].
    + destruct (Ht c) as [v Hv]; [apply in_called_of; auto|exact (target_clean c v Hv)].
    + destruct (Forall2_in_l _ _ _ _ _ c Hr) as (v & _ & Hv); [apply in_called_of; auto|exact (rule_clean c v Hv)].
Qed.

End Clean.
