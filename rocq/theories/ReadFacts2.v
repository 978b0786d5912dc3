(** Lemmas for C44: canonical documents. *)
From Verif Require Import Readers SpecText SpecSetters SpecRead.
From Verif Require Import EvalFacts StringFacts SettersFacts TextFacts ReadFacts.

Lemma str_app_assoc : forall a b c : string, (a ++ (b ++ c) = (a ++ b) ++ c)%string.
Proof. intros a b c. induction a as [|x a IH]; [reflexivity|]. cbn [append]. rewrite IH. reflexivity. Qed.

Section W.
Variable E : renv.
Hypothesis HE : default_readers E.
Variable ns : option string.
Notation el := (el ns).

Lemma ln_el : forall name a t k, has_char close_brace name = false -> ln (el name a t k) = name.
Proof.
  intros name a t k Hn. unfold SpecRead.el. cbn [ln]. apply local_iff. split; [exact Hn|].
  destruct ns as [u|]; [|left; reflexivity]. right. exists ("{" ++ u)%string.
  rewrite <- str_app_assoc. reflexivity.
Qed.

Lemma called_el : forall s name a t k, has_char close_brace s = false ->
  has_char close_brace name = false -> called s (el name a t k) = String.eqb name s.
Proof.
  intros s name a t k Hs Hn. rewrite called_ln; [|exact Hs|exact I]. rewrite ln_el by exact Hn. reflexivity.
Qed.

Lemma filter_map_called : forall A (w : A -> node) s b (l : list A),
  (forall x, called s (w x) = b) -> filter (called s) (map w l) = if b then map w l else [].
Proof.
  intros A w s b l H. induction l as [|x l IH]; [destruct b; reflexivity|].
  cbn [map filter]. rewrite H, IH. destruct b; reflexivity.
Qed.

Lemma filter_opt_called : forall A (w : A -> node) s b (o : option A),
  (forall x, called s (w x) = b) -> filter (called s) (opt_el w o) = if b then opt_el w o else [].
Proof.
  intros A w s b [x|] H; cbn [opt_el filter]; [rewrite H|]; destruct b; reflexivity.
Qed.

Lemma last_one_opt : forall A (w : A -> node) (R : node -> A -> Prop) o,
  (forall x, o = Some x -> R (w x) x) -> last_one R (opt_el w o) o.
Proof.
  intros A w R [x|] H; cbn [opt_el].
  - split.
    + intros k [<-|[]]. exists x. apply H. reflexivity.
    + cbn [rev app]. exists x. split; [reflexivity|apply H; reflexivity].
  - apply last_one_nil. reflexivity.
Qed.

Lemma elems_el : forall name a t kids, (forall k, In k kids -> is_elem k) -> elems (el name a t kids) = kids.
Proof.
  intros name a t kids H. unfold SpecRead.el. cbn [elems].
  induction kids as [|k kids IH]; [reflexivity|]. cbn [filter].
  assert (is_elem k) as Hk by (apply H; left; reflexivity).
  destruct k as [tg at_ x sub|x]; [|destruct Hk]. f_equal. apply IH.
  intros k' Hk'. apply H. right. exact Hk'.
Qed.

Lemma text_el : forall name a t kids, xml_text (el name a t kids) = t.
Proof. reflexivity. Qed.
Lemma attr_el : forall s name a t kids, xml_attr s (el name a t kids) = dict_get s a.
Proof. reflexivity. Qed.

Lemma opt_el_is : forall A (w : A -> node) o k, (forall x, is_elem (w x)) -> In k (opt_el w o) -> is_elem k.
Proof. intros A w [x|] k H; [intros [<-|[]]; apply H|intros []]. Qed.
Lemma map_el_is : forall A (w : A -> node) l k, (forall x, is_elem (w x)) -> In k (map w l) -> is_elem k.
Proof. intros A w l k H Hk. apply in_map_iff in Hk. destruct Hk as (x & <- & _). apply H. Qed.

Lemma Forall2_map_l : forall A (w : A -> node) (R : node -> A -> Prop) l,
  (forall x, In x l -> R (w x) x) -> Forall2 R (map w l) l.
Proof.
  intros A w R l H. induction l as [|x l IH]; cbn [map]; constructor.
  - apply H. left. reflexivity.
  - apply IH. intros y Hy. apply H. right. exact Hy.
Qed.

Lemma expr_is : forall e, is_elem (write_expr ns e).
Proof. intros []; exact I. Qed.
Lemma policy_is : forall p, is_elem (write_policy ns p).
Proof. intros []; exact I. Qed.

(** ** Writing gives a document with that meaning *)
Lemma write_value_doc : forall v, writable_value E v -> value_doc E (write_value ns v) v.
Proof.
  intros [c dt x] (Ht & s & Hx & _). cbn in *. subst x. unfold value_doc, write_value.
  split; [rewrite called_el; reflexivity|]. exists dt, c, s.
  split; [reflexivity|]. split; [exact Ht|]. split; reflexivity.
Qed.

Lemma truth_text : forall b, truth (bool_text b) = b.
Proof. intros []; reflexivity. Qed.

Lemma write_designator_doc : forall d, writable_designator d -> designator_doc (write_designator ns d) d.
Proof.
  intros [k id dt is m] (Hk & Hid & Hdt). unfold designator_doc, write_designator.
  cbn [dg_kind dg_id dg_dataType dg_issuer dg_mustBePresent] in *. rewrite !attr_el.
  destruct id as [id|]; [|congruence]. destruct dt as [dt|]; [|congruence].
  split; [rewrite called_el, String.eqb_refl by (destruct k; reflexivity); reflexivity|].
  split; [exact Hk|].
  destruct is as [is|]; cbn [opt_attr app dict_get String.eqb Ascii.eqb Bool.eqb]; rewrite truth_text;
    (split; [reflexivity|]; split; [discriminate|]; split; [reflexivity|]; split; [discriminate|]; split; reflexivity).
Qed.

Lemma write_selector_doc : forall s, writable_selector s -> selector_doc (write_selector ns s) s.
Proof.
  intros [p dt m] (Hp & Hdt). unfold selector_doc, write_selector.
  cbn [sl_path sl_dataType sl_mustBePresent] in *. rewrite !attr_el.
  destruct p as [p|]; [|congruence]. destruct dt as [dt|]; [|congruence].
  split; [rewrite called_el; reflexivity|].
  destruct m as [m|]; cbn [opt_attr option_map app dict_get String.eqb Ascii.eqb Bool.eqb]; rewrite ?truth_text;
    (split; [reflexivity|]; split; [discriminate|]; split; [reflexivity|]; split; [discriminate|]; reflexivity).
Qed.

Lemma expr_ind' : forall P : expr -> Prop,
  (forall v, P (XValue v)) -> (forall d, P (XDesignator d)) -> (forall s, P (XSelector s)) ->
  (forall id f args, Forall P args -> P (XApply id f args)) -> forall e, P e.
Proof.
  intros P Hv Hd Hs Ha. fix IH 1. intros [id f args|v|d|s].
  - apply Ha. induction args as [|x l IHl]; constructor; [apply IH|exact IHl].
  - apply Hv.
  - apply Hd.
  - apply Hs.
Qed.

Lemma write_expr_doc : forall e, writable_expr E e -> expr_doc E (write_expr ns e) e.
Proof.
  induction e as [v|d|s|id f args IH] using expr_ind'; intros H; inversion H; subst.
  - apply doc_value, write_value_doc. assumption.
  - apply doc_designator, write_designator_doc. assumption.
  - apply doc_selector, write_selector_doc. assumption.
  - cbn [write_expr]. apply doc_apply.
    + rewrite called_el; reflexivity.
    + reflexivity.
    + assumption.
    + rewrite elems_el by (intros k Hk; revert Hk; apply map_el_is, expr_is).
      apply Forall2_map_l. intros x Hx. rewrite Forall_forall in *. auto.
Qed.

Lemma write_match_doc : forall k m, writable_match E k m -> match_doc E k (write_match ns k m) m.
Proof.
  intros k [id f v d s] (Hk & (id' & f' & Hid & Hf & Hi) & Hv & Hd & Hs & Hor).
  cbn [mt_id mt_fn mt_value mt_designator mt_selector] in *. subst id f.
  unfold match_doc, write_match. cbn [mt_id mt_fn mt_value mt_designator mt_selector opt_attr].
  unfold elems_called. rewrite elems_el.
  2:{ intros c Hc. apply in_app_or in Hc. destruct Hc as [Hc|Hc]; [revert Hc; apply opt_el_is; intros; exact I|].
      apply in_app_or in Hc. destruct Hc as [Hc|Hc]; revert Hc; apply opt_el_is; intros; exact I. }
  assert (forall x, d = Some x -> dg_kind x = k) as Hdk by (intros x Hx; apply Hd, Hx).
  assert (filter (called (designator_tag k)) (opt_el (write_value ns) v ++ opt_el (write_designator ns) d ++ opt_el (write_selector ns) s)
          = opt_el (write_designator ns) d) as F1.
  { rewrite !filter_app. rewrite (filter_opt_called _ _ _ false).
    2:{ intros x. unfold write_value. rewrite called_el by (destruct k; reflexivity). destruct k; reflexivity. }
    rewrite (filter_opt_called _ (write_selector ns) _ false).
    2:{ intros x. unfold write_selector. rewrite called_el by (destruct k; reflexivity). destruct k; reflexivity. }
    rewrite app_nil_r. cbn [app]. destruct d as [x|]; [|reflexivity]. cbn [opt_el filter].
    unfold write_designator. rewrite (Hdk x eq_refl), called_el, String.eqb_refl by (destruct k; reflexivity). reflexivity. }
  assert (filter (called "AttributeSelector") (opt_el (write_value ns) v ++ opt_el (write_designator ns) d ++ opt_el (write_selector ns) s)
          = opt_el (write_selector ns) s) as F2.
  { rewrite !filter_app. rewrite (filter_opt_called _ (write_value ns) _ false).
    2:{ intros x. unfold write_value. rewrite called_el by reflexivity. reflexivity. }
    rewrite (filter_opt_called _ (write_selector ns) _ true).
    2:{ intros x. unfold write_selector. rewrite called_el by reflexivity. reflexivity. }
    rewrite (filter_opt_called _ (write_designator ns) _ false); [reflexivity|].
    intros x. unfold write_designator. rewrite called_el by (destruct (dg_kind x); reflexivity). destruct (dg_kind x); reflexivity. }
  assert (filter (called "AttributeValue") (opt_el (write_value ns) v ++ opt_el (write_designator ns) d ++ opt_el (write_selector ns) s)
          = opt_el (write_value ns) v) as F3.
  { rewrite !filter_app. rewrite (filter_opt_called _ (write_value ns) _ true).
    2:{ intros x. unfold write_value. rewrite called_el by reflexivity. reflexivity. }
    rewrite (filter_opt_called _ (write_selector ns) _ false).
    2:{ intros x. unfold write_selector. rewrite called_el by reflexivity. reflexivity. }
    rewrite (filter_opt_called _ (write_designator ns) _ false); [apply app_nil_r|].
    intros x. unfold write_designator. rewrite called_el by (destruct (dg_kind x); reflexivity). destruct (dg_kind x); reflexivity. }
  rewrite F1, F2, F3.
  split; [exact Hk|].
  split; [rewrite called_el, String.eqb_refl by (destruct k; reflexivity); reflexivity|].
  split.
  { intros c Hc. apply in_app_or in Hc. destruct Hc as [Hc|Hc].
    { exists "AttributeValue". split; [left; reflexivity|]. destruct v as [v|]; [|destruct Hc].
      destruct Hc as [<-|[]]. unfold write_value. rewrite called_el; reflexivity. }
    apply in_app_or in Hc. destruct Hc as [Hc|Hc].
    - exists (designator_tag k). split; [right; left; reflexivity|]. destruct d as [d|]; [|destruct Hc].
      destruct Hc as [<-|[]]. unfold write_designator.
      rewrite (Hdk d eq_refl), called_el, String.eqb_refl by (destruct k; reflexivity). reflexivity.
    - exists "AttributeSelector". split; [right; right; left; reflexivity|]. destruct s as [s|]; [|destruct Hc].
      destruct Hc as [<-|[]]. unfold write_selector. rewrite called_el; reflexivity. }
  split; [destruct Hor as [->| ->]; [left|right]; reflexivity|].
  split; [exists id', f'; repeat (split; [reflexivity|]); exact Hi|].
  split; [apply last_one_opt; intros x Hx; apply write_value_doc, Hv, Hx|].
  split; [apply last_one_opt; intros x Hx; split; [apply write_designator_doc, Hd, Hx|apply Hd, Hx]|].
  apply last_one_opt; intros x Hx; apply write_selector_doc, Hs, Hx.
Qed.

Lemma write_child_doc : forall k ms, (forall m, In m ms -> writable_match E k m) ->
  child_doc E k (write_child ns k ms) ms.
Proof.
  intros k ms H. unfold child_doc, write_child.
  split; [rewrite called_el, String.eqb_refl by (destruct k; reflexivity); reflexivity|].
  rewrite elems_el by (intros c Hc; revert Hc; apply map_el_is; intros; exact I).
  apply Forall2_map_l. intros m Hm. apply write_match_doc, H, Hm.
Qed.

Lemma container_is : forall k l c, In c (write_container ns k l) -> is_elem c.
Proof. intros k [|x l] c; [intros []|intros [<-|[]]; exact I]. Qed.

Lemma container_elems : forall k l, flat_map elems (write_container ns k l) = map (write_child ns k) l.
Proof.
  intros k [|x l]; [reflexivity|]. unfold write_container. cbn [flat_map]. rewrite app_nil_r.
  apply elems_el. intros c Hc. revert Hc. apply map_el_is. intros; exact I.
Qed.

Lemma container_filter : forall k k' l, filter (called (container_tag k)) (write_container ns k' l)
  = if String.eqb (container_tag k') (container_tag k) then write_container ns k' l else [].
Proof.
  intros k k' [|x l]; unfold write_container; [destruct (String.eqb _ _); reflexivity|].
  cbn [filter]. rewrite called_el by (destruct k, k'; reflexivity).
  destruct (String.eqb (container_tag k') (container_tag k)); reflexivity.
Qed.

Lemma write_target_doc : forall t, writable_target E t -> target_doc E (write_target ns t) t.
Proof.
  intros t H. unfold target_doc, write_target, elems_called. rewrite elems_el.
  2:{ intros c Hc. apply in_flat_map in Hc. destruct Hc as (k & _ & Hc). exact (container_is _ _ _ Hc). }
  split; [rewrite called_el; reflexivity|]. split.
  - intros c Hc. apply in_flat_map in Hc. destruct Hc as (k & _ & Hc).
    exists (container_tag k). split; [destruct k; cbn; tauto|].
    unfold write_container in Hc. destruct (target_part k t); [destruct Hc|]. destruct Hc as [<-|[]].
    rewrite called_el, String.eqb_refl by (destruct k; reflexivity). reflexivity.
  - intros k.
    assert (flat_map elems (filter (called (container_tag k))
      (flat_map (fun k => write_container ns k (target_part k t)) [DSubject; DResource; DAction; DEnvironment]))
      = map (write_child ns k) (target_part k t)) as ->.
    { cbn [flat_map]. rewrite !filter_app, !container_filter. rewrite !flat_map_app.
      destruct k; cbn [container_tag String.eqb Ascii.eqb Bool.eqb filter flat_map];
        rewrite container_elems, ?app_nil_r; reflexivity. }
    apply Forall2_map_l. intros ms Hms. apply write_child_doc. intros m Hm. exact (H k ms m Hms Hm).
Qed.

Lemma description_written : forall l o, writable_description o ->
  filter (called "Description") l = opt_el (write_description ns) o -> o = descr l.
Proof.
  intros l o H Hf. unfold descr. rewrite Hf. destruct o as [t|]; [|reflexivity].
  cbn [opt_el map last_some write_description]. unfold write_description. rewrite text_el.
  specialize (H t eq_refl). destruct t as [|c t]; [reflexivity|]. cbn [option_map].
  rewrite (trimmed_strip _ _ H). reflexivity.
Qed.

Definition cond_el (c : option (option expr)) : list node :=
  match c with Some (Some e) => [write_condition ns e] | _ => [] end.

Lemma write_condition_doc : forall id f args, writable_expr E (XApply id f args) ->
  condition_doc E (write_condition ns (XApply id f args)) (XApply id f args).
Proof.
  intros id f args H. unfold condition_doc, write_condition.
  split; [rewrite called_el; reflexivity|]. eexists. split.
  { apply elems_el. intros k [<-|[]]. apply expr_is. }
  split; [cbn [write_expr]; rewrite called_el; reflexivity|]. apply write_expr_doc, H.
Qed.

Lemma write_rule_doc : forall r, writable_rule E r -> rule_doc E (write_rule ns r) r.
Proof.
  intros [id ef t c d] (Hid & Hef & Ht & Hc & Hd).
  cbn [rl_id rl_effect rl_target rl_condition rl_description] in *.
  destruct id as [id|]; [|congruence]. destruct ef as [ef|]; [|congruence].
  unfold rule_doc, write_rule. cbn [rl_id rl_effect rl_target rl_condition rl_description option_map opt_attr app].
  fold (cond_el c).
  assert (forall k, In k (opt_el (write_description ns) d ++ opt_el (write_target ns) t ++ cond_el c) -> is_elem k) as Hel.
  { intros k Hk. apply in_app_or in Hk. destruct Hk as [Hk|Hk]; [revert Hk; apply opt_el_is; intros; exact I|].
    apply in_app_or in Hk. destruct Hk as [Hk|Hk]; [revert Hk; apply opt_el_is; intros; exact I|].
    destruct c as [[e|]|]; [destruct Hk as [<-|[]]; exact I|destruct Hk|destruct Hk]. }
  rewrite description_iff. unfold elems_called. rewrite elems_el by exact Hel.
  assert (forall s, has_char close_brace s = false ->
    filter (called s) (opt_el (write_description ns) d ++ opt_el (write_target ns) t ++ cond_el c) =
    (if String.eqb "Description" s then opt_el (write_description ns) d else []) ++
    (if String.eqb "Target" s then opt_el (write_target ns) t else []) ++
    (if String.eqb "Condition" s then cond_el c else [])) as HF.
  { intros s Hs. rewrite !filter_app.
    rewrite (filter_opt_called _ (write_description ns) s (String.eqb "Description" s))
      by (intros; apply called_el; [exact Hs|reflexivity]).
    rewrite (filter_opt_called _ (write_target ns) s (String.eqb "Target" s))
      by (intros; apply called_el; [exact Hs|reflexivity]).
    f_equal. f_equal. destruct c as [[e|]|]; cbn [cond_el filter];
      [|destruct (String.eqb _ _); reflexivity|destruct (String.eqb _ _); reflexivity].
    unfold write_condition at 1. rewrite called_el by (exact Hs || reflexivity). reflexivity. }
  split; [rewrite called_el; reflexivity|]. split.
  { intros k Hk. apply in_app_or in Hk. destruct Hk as [Hk|Hk].
    { exists "Description". split; [left; reflexivity|]. destruct d as [d|]; [|destruct Hk].
      destruct Hk as [<-|[]]. unfold write_description. rewrite called_el; reflexivity. }
    apply in_app_or in Hk. destruct Hk as [Hk|Hk].
    - exists "Target". split; [right; right; left; reflexivity|]. destruct t as [t|]; [|destruct Hk].
      destruct Hk as [<-|[]]. unfold write_target. rewrite called_el; reflexivity.
    - exists "Condition". split; [right; left; reflexivity|]. destruct c as [[e|]|]; [|destruct Hk|destruct Hk].
      destruct Hk as [<-|[]]. unfold write_condition. rewrite called_el; reflexivity. }
  split.
  { exists id, ef. split; [reflexivity|]. split; [reflexivity|]. split; reflexivity. }
  split.
  { rewrite HF by reflexivity. cbn [String.eqb Ascii.eqb Bool.eqb app]. rewrite app_nil_r.
    apply last_one_opt. intros x Hx. apply write_target_doc, Ht, Hx. }
  split.
  { rewrite HF by reflexivity. cbn [String.eqb Ascii.eqb Bool.eqb app].
    destruct c as [c|].
    - destruct (Hc c eq_refl) as (fid & f & args & -> & Hw). exists (Some (XApply fid f args)).
      split; [|reflexivity]. cbn [cond_el]. split.
      + intros k [<-|[]]. exists (XApply fid f args). apply write_condition_doc, Hw.
      + cbn [rev app]. exists (XApply fid f args). split; [reflexivity|apply write_condition_doc, Hw].
    - exists None. split; [apply last_one_nil; reflexivity|reflexivity]. }
  apply description_written; [exact Hd|]. rewrite HF by reflexivity.
  cbn [String.eqb Ascii.eqb Bool.eqb app]. apply app_nil_r.
Qed.

Lemma write_policy_doc : forall m t alg rules, writable E (PPolicy m t alg rules) ->
  policy_doc E (write_policy ns (PPolicy m t alg rules)) (PPolicy m t alg rules).
Proof.
  intros [id ve ai d xp] t alg rules H. inversion H as [? ? ? ? Hm Hx Ha Ht Hr Hnd|]; subst. clear H.
  destruct Hm as (Hid & Hai & (v & Hv & Hv0) & Hd).
  cbn [pm_id pm_version pm_algId pm_description pm_xpathVersion] in *. subst ve.
  destruct id as [id|]; [|congruence]. destruct ai as [ai|]; [|congruence].
  destruct (Ha ai eq_refl) as [Hal Han]. clear Ha.
  destruct alg as [alg|]; [|congruence].
  unfold policy_doc. cbn [write_policy pm_id pm_version pm_algId pm_description pm_xpathVersion opt_attr app].
  set (kids := opt_el (write_description ns) d ++ opt_el (write_defaults ns) xp ++ opt_el (write_target ns) t ++ map (write_rule ns) rules).
  assert (forall k, In k kids -> is_elem k) as Hel.
  { intros k Hk. unfold kids in Hk. apply in_app_or in Hk. destruct Hk as [Hk|Hk]; [revert Hk; apply opt_el_is; intros; exact I|].
    apply in_app_or in Hk. destruct Hk as [Hk|Hk]; [revert Hk; apply opt_el_is; intros; exact I|].
    apply in_app_or in Hk. destruct Hk as [Hk|Hk]; [revert Hk; apply opt_el_is; intros; exact I|].
    revert Hk; apply map_el_is; intros; exact I. }
  unfold elems_called. rewrite elems_el by exact Hel.
  assert (forall s, has_char close_brace s = false ->
    filter (called s) kids =
    (if String.eqb "Description" s then opt_el (write_description ns) d else []) ++
    (if String.eqb "PolicyDefaults" s then opt_el (write_defaults ns) xp else []) ++
    (if String.eqb "Target" s then opt_el (write_target ns) t else []) ++
    (if String.eqb "Rule" s then map (write_rule ns) rules else [])) as HF.
  { intros s Hs. unfold kids. rewrite !filter_app.
    rewrite (filter_opt_called _ (write_description ns) s (String.eqb "Description" s))
      by (intros; apply called_el; [exact Hs|reflexivity]).
    rewrite (filter_opt_called _ (write_target ns) s (String.eqb "Target" s))
      by (intros; apply called_el; [exact Hs|reflexivity]).
    rewrite (filter_opt_called _ (write_defaults ns) s (String.eqb "PolicyDefaults" s))
      by (intros; apply called_el; [exact Hs|reflexivity]).
    rewrite (filter_map_called _ (write_rule ns) s (String.eqb "Rule" s))
      by (intros; apply called_el; [exact Hs|reflexivity]).
    reflexivity. }
  split; [rewrite called_el; reflexivity|]. split.
  { intros k Hk. unfold kids in Hk. apply in_app_or in Hk. destruct Hk as [Hk|Hk].
    { exists "Description". split; [left; reflexivity|]. destruct d as [d|]; [|destruct Hk].
      destruct Hk as [<-|[]]. unfold write_description. rewrite called_el; reflexivity. }
    apply in_app_or in Hk. destruct Hk as [Hk|Hk].
    { exists "PolicyDefaults". split; [right; left; reflexivity|]. destruct xp as [xp|]; [|destruct Hk].
      destruct Hk as [<-|[]]. unfold write_defaults. rewrite called_el; reflexivity. }
    apply in_app_or in Hk. destruct Hk as [Hk|Hk].
    - exists "Target". split; [right; right; left; reflexivity|]. destruct t as [t|]; [|destruct Hk].
      destruct Hk as [<-|[]]. unfold write_target. rewrite called_el; reflexivity.
    - exists "Rule". split; [right; right; right; left; reflexivity|]. apply in_map_iff in Hk.
      destruct Hk as (r & <- & _). unfold write_rule. rewrite called_el; reflexivity. }
  exists id, ai, alg, d, xp, t, rules.
  split.
  { unfold version_doc. rewrite attr_el. cbn [dict_get String.eqb Ascii.eqb Bool.eqb].
    destruct v as [|ch v]; [congruence|reflexivity]. }
  split; [reflexivity|]. split; [reflexivity|]. split; [symmetry; exact Hal|].
  split.
  { apply description_iff. rewrite elems_el by exact Hel. apply description_written; [exact Hd|].
    rewrite HF by reflexivity. cbn [String.eqb Ascii.eqb Bool.eqb app]. apply app_nil_r. }
  split.
  { rewrite HF by reflexivity. cbn [String.eqb Ascii.eqb Bool.eqb app]. rewrite app_nil_r.
    apply last_one_opt. intros x _. unfold defaults_doc, write_defaults.
    split; [rewrite called_el; reflexivity|]. eexists _, _, _, _. split; [reflexivity|].
    split; [rewrite called_el; reflexivity|reflexivity]. }
  split.
  { rewrite HF by reflexivity. cbn [String.eqb Ascii.eqb Bool.eqb app]. rewrite app_nil_r.
    apply last_one_opt. intros x Hxx. apply write_target_doc, Ht, Hxx. }
  split; [|exact Hnd].
  rewrite HF by reflexivity. cbn [String.eqb Ascii.eqb Bool.eqb app].
  apply Forall2_map_l. intros r Hri. rewrite Forall_forall in Hr. apply write_rule_doc, Hr, Hri.
Qed.

(** ** Canonical documents are what a parser can deliver *)
Lemma parsed_el : forall name a t kids, t <> Some "" -> NoDup (map fst a) ->
  (forall k, In k kids -> parsed k) -> parsed (el name a t kids).
Proof.
  intros name a t kids Ht Ha Hk. unfold SpecRead.el. apply parsed_elem; [exact Ht|exact Ha|].
  apply Forall_forall, Hk.
Qed.

Lemma in_opt_el : forall A (w : A -> node) o k, In k (opt_el w o) -> exists x, o = Some x /\ k = w x.
Proof. intros A w [x|] k H; [destruct H as [<-|[]]; exists x; split; reflexivity|destruct H]. Qed.

Ltac nodup := cbn;
  repeat (constructor; [cbn; intuition discriminate|]); constructor.

Lemma parsed_value : forall v, writable_value E v -> parsed (write_value ns v).
Proof.
  intros v (_ & s & Hs & Hne). unfold write_value. rewrite Hs. apply parsed_el.
  - intros [= ->]. apply Hne. reflexivity.
  - nodup.
  - intros k [].
Qed.

Lemma parsed_designator : forall d, parsed (write_designator ns d).
Proof.
  intros [k [id|] [dt|] [is|] m]; (apply parsed_el; [discriminate|nodup|intros c []]).
Qed.

Lemma parsed_selector : forall d, parsed (write_selector ns d).
Proof.
  intros [[p|] [dt|] [m|]]; (apply parsed_el; [discriminate|nodup|intros c []]).
Qed.

Lemma parsed_expr : forall e, writable_expr E e -> parsed (write_expr ns e).
Proof.
  induction e as [v|d|s|id f args IH] using expr_ind'; intros H; inversion H; subst; cbn [write_expr].
  - apply parsed_value. assumption.
  - apply parsed_designator.
  - apply parsed_selector.
  - apply parsed_el; [discriminate|nodup|]. intros k Hk. apply in_map_iff in Hk.
    destruct Hk as (x & <- & Hx). rewrite Forall_forall in *. auto.
Qed.

Lemma parsed_target : forall t, writable_target E t -> parsed (write_target ns t).
Proof.
  intros t H. apply parsed_el; [discriminate|constructor|]. intros c Hc. apply in_flat_map in Hc.
  destruct Hc as (k & _ & Hc). unfold write_container in Hc.
  destruct (target_part k t) as [|ms l] eqn:Et; [destruct Hc|]. destruct Hc as [<-|[]]. rewrite <- Et.
  apply parsed_el; [discriminate|constructor|]. intros c Hc. apply in_map_iff in Hc.
  destruct Hc as (ms' & <- & Hms). apply parsed_el; [discriminate|constructor|].
  intros c Hc. apply in_map_iff in Hc. destruct Hc as (m & <- & Hm).
  pose proof (H k ms' m Hms Hm) as (_ & (id & f & Hid & _) & Hv & _).
  unfold write_match. rewrite Hid. apply parsed_el; [discriminate|nodup|].
  intros x Hx. apply in_app_or in Hx. destruct Hx as [Hx|Hx].
  - apply in_opt_el in Hx. destruct Hx as (y & Hy & ->). apply parsed_value, Hv, Hy.
  - apply in_app_or in Hx. destruct Hx as [Hx|Hx]; apply in_opt_el in Hx; destruct Hx as (y & _ & ->).
    + apply parsed_designator.
    + apply parsed_selector.
Qed.

Lemma parsed_description : forall t, parsed (write_description ns t).
Proof.
  intros [|c t]; (apply parsed_el; [discriminate|constructor|intros k []]).
Qed.

Lemma parsed_rule : forall r, writable_rule E r -> parsed (write_rule ns r).
Proof.
  intros r (Hid & Hef & Ht & Hc & Hd). unfold write_rule.
  apply parsed_el; [discriminate|destruct (rl_id r), (rl_effect r); nodup|].
  intros x Hx. apply in_app_or in Hx. destruct Hx as [Hx|Hx].
  - apply in_opt_el in Hx. destruct Hx as (y & _ & ->). apply parsed_description.
  - apply in_app_or in Hx. destruct Hx as [Hx|Hx].
    + apply in_opt_el in Hx. destruct Hx as (y & Hy & ->). apply parsed_target, Ht, Hy.
    + destruct (rl_condition r) as [[e|]|]; [|destruct Hx|destruct Hx]. destruct Hx as [<-|[]].
      apply parsed_el; [discriminate|constructor|]. intros k [<-|[]].
      destruct (Hc _ eq_refl) as (id & f & args & [= ->] & Hw). apply parsed_expr, Hw.
Qed.

Lemma parsed_policy : forall p, writable E p -> parsed (write_policy ns p).
Proof.
  induction p as [m t alg rules|m t alg ps IH] using policybase_ind'; intros H; inversion H; subst; cbn [write_policy].
  - apply parsed_el; [discriminate|destruct (pm_id m), (pm_version m), (pm_algId m); nodup|].
    intros x Hx. apply in_app_or in Hx. destruct Hx as [Hx|Hx].
    { apply in_opt_el in Hx. destruct Hx as (y & _ & ->). apply parsed_description. }
    apply in_app_or in Hx. destruct Hx as [Hx|Hx].
    { apply in_opt_el in Hx. destruct Hx as (y & Hy & ->).
      apply parsed_el; [discriminate|constructor|]. intros k [<-|[]].
      apply parsed_el; [|constructor|intros k []]. intros [= ->]. congruence. }
    apply in_app_or in Hx. destruct Hx as [Hx|Hx].
    { apply in_opt_el in Hx. destruct Hx as (y & Hy & ->). apply parsed_target. auto. }
    apply in_map_iff in Hx. destruct Hx as (r & <- & Hr). apply parsed_rule.
    match goal with H : Forall (writable_rule E) _ |- _ => rewrite Forall_forall in H; apply H, Hr end.
  - apply parsed_el; [discriminate|destruct (pm_id m), (pm_version m), (pm_algId m); nodup|].
    intros x Hx. apply in_app_or in Hx. destruct Hx as [Hx|Hx].
    { apply in_opt_el in Hx. destruct Hx as (y & _ & ->). apply parsed_description. }
    apply in_app_or in Hx. destruct Hx as [Hx|Hx].
    { apply in_opt_el in Hx. destruct Hx as (y & Hy & ->). apply parsed_target. auto. }
    apply in_map_iff in Hx. destruct Hx as (r & <- & Hr). rewrite Forall_forall in *. auto.
Qed.

(** ** Only writable policies are read *)
Lemma parsed_elems : forall n k, parsed n -> In k (elems n) -> parsed k.
Proof.
  intros n k H Hk. destruct H as [tag a t kids Ht Ha Hks|t]; [|destruct Hk].
  cbn [elems] in Hk. apply filter_In in Hk. rewrite Forall_forall in Hks. apply Hks, Hk.
Qed.

Lemma parsed_text : forall n, parsed n -> xml_text n <> Some "".
Proof. intros n [tag a t kids Ht _ _|t]; [exact Ht|discriminate]. Qed.

Lemma value_writable : forall n v, parsed n -> value_doc E n v -> writable_value E v.
Proof.
  intros n v Hp (_ & dt & c & s & _ & Ht & Hs & ->). split; [exact Ht|]. exists s.
  split; [reflexivity|]. intros ->. exact (parsed_text n Hp Hs).
Qed.

Lemma designator_writable : forall n d, designator_doc n d -> writable_designator d.
Proof. intros n d (_ & Hk & _ & Hdt & _ & Hid & _). split; [exact Hk|split; assumption]. Qed.

Lemma selector_writable : forall n d, selector_doc n d -> writable_selector d.
Proof. intros n d (_ & _ & Hdt & _ & Hid & _). split; assumption. Qed.

Lemma expr_writable : forall e n, parsed n -> expr_doc E n e -> writable_expr E e.
Proof.
  induction e as [v|d|s|id f args IH] using expr_ind'; intros n Hp H; inversion H; subst.
  - apply wr_value. eapply value_writable; eassumption.
  - apply wr_designator. eapply designator_writable; eassumption.
  - apply wr_selector. eapply selector_writable; eassumption.
  - apply wr_apply; [assumption|].
    match goal with H : Forall2 _ _ _ |- _ => rename H into HF end.
    assert (forall k, In k (elems n) -> parsed k) as Hks by (intros k; apply parsed_elems, Hp).
    revert IH HF Hks. generalize (elems n). clear. intros l IH HF Hks.
    induction HF as [|k x l args Hkx HF IHF]; constructor.
    + inversion IH; subst. eapply H1; [|eassumption]. apply Hks. left. reflexivity.
    + inversion IH; subst. apply IHF; [assumption|]. intros k' Hk'. apply Hks. right. exact Hk'.
Qed.

Lemma last_one_in : forall A (R : node -> A -> Prop) l a, last_one R l (Some a) ->
  exists k, In k l /\ R k a.
Proof.
  intros A R l a [_ H]. destruct (rev l) as [|k r] eqn:Er; [discriminate H|].
  destruct H as (b & [= <-] & Hk). exists k. split; [|exact Hk]. apply in_rev. rewrite Er. left. reflexivity.
Qed.

Lemma in_called : forall s n k, In k (elems_called s n) -> In k (elems n).
Proof. intros s n k H. apply filter_In in H. apply H. Qed.

Lemma match_writable : forall k n m, parsed n -> match_doc E k n m -> writable_match E k m.
Proof.
  intros k n m Hp (Hk & _ & _ & Hor & (id & f & H1 & H2 & _ & H3) & Hv & Hd & Hs).
  split; [exact Hk|]. split; [exists id, f; split; [assumption|split; assumption]|].
  split.
  { intros v Ev. rewrite Ev in Hv. apply last_one_in in Hv. destruct Hv as (c & Hc & Hv).
    apply value_writable in Hv; [exact Hv|]. exact (parsed_elems _ _ Hp (in_called _ _ _ Hc)). }
  split.
  { intros v Ev. rewrite Ev in Hd. apply last_one_in in Hd. destruct Hd as (c & Hc & Hd & Hdk).
    split; [exact (designator_writable _ _ Hd)|exact Hdk]. }
  split.
  { intros v Ev. rewrite Ev in Hs. apply last_one_in in Hs. destruct Hs as (c & Hc & Hs).
    exact (selector_writable _ _ Hs). }
  destruct Hor as [Hor|Hor]; rewrite Hor in *.
  - left. apply last_one_nil in Hd. exact Hd.
  - right. apply last_one_nil in Hs. exact Hs.
Qed.

Lemma Forall2_in_r : forall A B (R : A -> B -> Prop) l r y, Forall2 R l r -> In y r -> exists x, In x l /\ R x y.
Proof.
  intros A B R l r y H. induction H as [|x z l r Hxz H IH]; intros Hy; [destruct Hy|].
  destruct Hy as [<-|Hy].
  - exists x. split; [left; reflexivity|exact Hxz].
  - destruct (IH Hy) as (x' & Hx' & Hr). exists x'. split; [right; exact Hx'|exact Hr].
Qed.

Lemma target_writable : forall n t, parsed n -> target_doc E n t -> writable_target E t.
Proof.
  intros n t Hp (_ & _ & H) k ms m Hms Hm.
  destruct (Forall2_in_r _ _ _ _ _ _ (H k) Hms) as (c & Hc & _ & HF).
  destruct (Forall2_in_r _ _ _ _ _ _ HF Hm) as (x & Hx & Hd).
  apply match_writable in Hd; [exact Hd|]. apply in_flat_map in Hc. destruct Hc as (y & Hy & Hc).
  apply parsed_elems with (n := c); [|exact Hx]. apply parsed_elems with (n := y); [|exact Hc].
  apply parsed_elems with (n := n); [exact Hp|]. exact (in_called _ _ _ Hy).
Qed.

Lemma strip_idem : forall s, trimmed (py_strip s) (py_strip s).
Proof.
  intros s. destruct (strip_trimmed s) as (l & r & _ & _ & _ & Hf & Hb).
  exists "", "". split; [cbn [append]; symmetry; apply app_empty_r|].
  split; [exact I|]. split; [exact I|]. split; assumption.
Qed.

Lemma description_writable : forall n o, description_doc n o -> writable_description o.
Proof.
  intros n o H t ->. apply description_iff in H. unfold descr in H.
  destruct (last_some _) as [s|]; [|discriminate H]. injection H as ->. apply strip_idem.
Qed.

Lemma rule_writable : forall n r, parsed n -> rule_doc E n r -> writable_rule E r.
Proof.
  intros n r Hp (_ & _ & (id & e & H1 & H2 & _) & Ht & (c & Hc & Hc') & Hd).
  split; [congruence|]. split; [congruence|]. split.
  { intros t Et. rewrite Et in Ht. apply last_one_in in Ht. destruct Ht as (k & Hk & Ht).
    apply target_writable in Ht; [exact Ht|]. exact (parsed_elems _ _ Hp (in_called _ _ _ Hk)). }
  split; [|exact (description_writable _ _ Hd)].
  intros c0 Ec. rewrite Ec in Hc'. destruct c as [e0|]; [|discriminate Hc']. injection Hc' as ->.
  apply last_one_in in Hc. destruct Hc as (k & Hk & _ & a & Ha & Hap & He).
  assert (parsed a) as Hpa.
  { apply parsed_elems with (n := k); [exact (parsed_elems _ _ Hp (in_called _ _ _ Hk))|].
    rewrite Ha. left. reflexivity. }
  pose proof (expr_writable _ _ Hpa He) as Hw.
  pose proof (called_elem _ _ Hap) as Hel. rewrite called_ln in Hap by (reflexivity || exact Hel).
  apply String.eqb_eq in Hap.
  inversion He as [? v Hv|? d Hdd|? s Hs|? fid f args _ _ _ _]; subst.
  - destruct Hv as [Hv _]. rewrite called_ln, Hap in Hv by (reflexivity || exact Hel). discriminate Hv.
  - destruct Hdd as [Hv _]. rewrite called_ln, Hap in Hv by (destruct (dg_kind d); reflexivity || exact Hel).
    destruct (dg_kind d); discriminate Hv.
  - destruct Hs as [Hv _]. rewrite called_ln, Hap in Hv by (reflexivity || exact Hel). discriminate Hv.
  - exists (Some fid), (Some f), args. split; [reflexivity|exact Hw].
Qed.

Lemma version_not_empty : forall n, version_doc n <> "".
Proof. intros n. unfold version_doc. destruct (xml_attr "Version" n) as [[|c s]|]; discriminate. Qed.

Lemma policy_writable : forall n p, parsed n -> policy_doc E n p -> writable E p.
Proof.
  intros n p Hp (_ & _ & id & ai & alg & d & xp & t & rules & -> & _ & _ & Ha & Hd & Hx & Ht & Hr & Hnd).
  apply wr_policy; cbn [pm_id pm_version pm_algId pm_description pm_xpathVersion].
  - split; [discriminate|]. split; [discriminate|]. split; [|exact (description_writable _ _ Hd)].
    exists (version_doc n). split; [reflexivity|apply version_not_empty].
  - intros ->. apply last_one_in in Hx. destruct Hx as (k & Hk & _ & tag & at_ & tx & c & -> & _ & Hc).
    pose proof (parsed_elems _ _ Hp (in_called _ _ _ Hk)) as Hpk. inversion Hpk as [? ? ? ? _ _ HF|]; subst.
    inversion HF; subst. exact (parsed_text c ltac:(assumption) Hc).
  - intros id' [= <-]. rewrite Ha. split; [reflexivity|discriminate].
  - intros t' ->. apply last_one_in in Ht. destruct Ht as (k & Hk & Ht).
    apply target_writable in Ht; [exact Ht|]. exact (parsed_elems _ _ Hp (in_called _ _ _ Hk)).
  - apply Forall_forall. intros r Hri. destruct (Forall2_in_r _ _ _ _ _ _ Hr Hri) as (k & Hk & Hrd).
    apply rule_writable in Hrd; [exact Hrd|]. exact (parsed_elems _ _ Hp (in_called _ _ _ Hk)).
  - exact Hnd.
Qed.
End W.
