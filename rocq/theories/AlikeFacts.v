(** Proofs about documents that differ in layout only. *)
From Verif Require Import Readers SpecText SpecSetters SpecRead SpecContext SpecAlike.
From Verif Require Import ReadFacts ReadFacts2 ReadFacts3 ReadFacts4 Strings StringFacts.

Scheme alike_ind' := Minimality for alike Sort Prop
  with alike_all_ind' := Minimality for alike_all Sort Prop.
Combined Scheme alike_mutind from alike_ind', alike_all_ind'.

Lemma alike_sym_mut :
  (forall n n', alike n n' -> alike n' n) /\ (forall l l', alike_all l l' -> alike_all l' l).
Proof.
  apply alike_mutind; intros.
  - apply alike_content. assumption.
  - apply alike_elem with (name := name); auto; intros; symmetry; auto.
  - apply alike_nil.
  - apply alike_cons; assumption.
  - apply alike_comment_r; assumption.
  - apply alike_comment_l; assumption.
Qed.
Definition alike_sym := proj1 alike_sym_mut.

(** ** Names *)
Definition brace_free (s : string) : bool :=
  forallb (fun c => negb (Ascii.eqb c "}"%char)) (list_ascii_of_string s).
Lemma brace_free_iff : forall s, brace_free s = true <-> plain_name s.
Proof.
  intros s. unfold brace_free, plain_name. rewrite forallb_forall. split.
  - intros H Hin. specialize (H _ Hin). discriminate H.
  - intros H c Hc. destruct (Ascii.eqb c "}") eqn:E; [|reflexivity].
    apply Ascii.eqb_eq in E. subst c. destruct (H Hc).
Qed.

Lemma las_app : forall a b,
  list_ascii_of_string (a ++ b) = (list_ascii_of_string a ++ list_ascii_of_string b)%list.
Proof. induction a as [|c a IH]; intros b; [reflexivity|]. cbn. rewrite IH. reflexivity. Qed.
Lemma las_inj : forall a b, list_ascii_of_string a = list_ascii_of_string b -> a = b.
Proof.
  intros a b H. rewrite <- (string_of_list_ascii_of_string a), <- (string_of_list_ascii_of_string b), H.
  reflexivity.
Qed.

Lemma suffix_spec : forall t s, suffix t s = true <-> exists p, s = (p ++ t)%string.
Proof.
  intros t s. induction s as [|c s IH]; cbn [suffix].
  - rewrite Bool.orb_false_r, String.eqb_eq. split.
    + intros <-. exists "". reflexivity.
    + intros ([|c p] & H); [exact H|discriminate H].
  - rewrite Bool.orb_true_iff, String.eqb_eq, IH. split.
    + intros [<-|(p & ->)]; [exists ""; reflexivity|exists (String c p); reflexivity].
    + intros ([|x p] & H); [left; exact H|right]. cbn in H. injection H as <- ->. exists p. reflexivity.
Qed.

Lemma last_brace : forall p q a b : list ascii, ~ In "}"%char a -> ~ In "}"%char b ->
  (p ++ "}"%char :: a)%list = (q ++ "}"%char :: b)%list -> a = b.
Proof.
  induction p as [|x p IH]; intros [|y q] a b Ha Hb H; cbn in H.
  - injection H as H. exact H.
  - injection H as <- H. destruct Ha. rewrite H. apply in_or_app. right. left. reflexivity.
  - injection H as -> H. destruct Hb. rewrite <- H. apply in_or_app. right. left. reflexivity.
  - injection H as <- H. exact (IH q a b Ha Hb H).
Qed.

Lemma called_tag : forall name tag x attrs text kids, plain_name name -> plain_name x ->
  tag_of name tag -> called x (Elem tag attrs text kids) = String.eqb name x.
Proof.
  intros name tag x attrs text kids Hn Hx Ht. cbn [called].
  destruct (String.eqb name x) eqn:E.
  - apply String.eqb_eq in E. subst x. inversion Ht as [|u]; subst.
    + rewrite String.eqb_refl. reflexivity.
    + apply Bool.orb_true_iff. right. apply suffix_spec. exists ("{" ++ u)%string.
      apply las_inj. repeat (rewrite las_app; cbn). reflexivity.
  - apply Bool.not_true_iff_false. rewrite Bool.orb_true_iff, String.eqb_eq, suffix_spec.
    apply String.eqb_neq in E. inversion Ht as [|u]; subst.
    + intros [H|(p & H)]; [exact (E H)|]. apply Hn. rewrite H, las_app. apply in_or_app. right. left. reflexivity.
    + intros [H|(p & H)].
      * apply Hx. rewrite <- H, !las_app. apply in_or_app. right. apply in_or_app. right. left. reflexivity.
      * apply E, las_inj. apply (f_equal list_ascii_of_string) in H. rewrite !las_app in H. cbn in H.
        exact (last_brace ("{"%char :: list_ascii_of_string u) _ _ _ Hn Hx H).
Qed.

Lemma alike_called : forall n n' x, brace_free x = true -> alike n n' -> called x n' = called x n.
Proof.
  intros n n' x Hx H. apply brace_free_iff in Hx. inversion H; subst; [reflexivity|].
  rewrite !(called_tag name); auto.
Qed.

Lemma alike_attr : forall n n' a, In a xacml_attributes -> alike n n' -> xml_attr a n' = xml_attr a n.
Proof. intros n n' a Ha H. inversion H; subst; [reflexivity|]. cbn [xml_attr]. symmetry. auto. Qed.

Lemma alike_text : forall n n' x, brace_free x = true -> In x elements_with_text ->
  called x n = true -> alike n n' -> xml_text n' = xml_text n.
Proof.
  intros n n' x Hx Hin Hc H. apply brace_free_iff in Hx. inversion H; subst; [reflexivity|].
  rewrite (called_tag name) in Hc by auto. apply String.eqb_eq in Hc. subst. cbn [xml_text]. symmetry. auto.
Qed.

Definition is_elem (k : node) : bool := match k with Elem _ _ _ _ => true | Comment _ => false end.
Lemma alike_all_elems : forall l l', alike_all l l' ->
  Forall2 alike (filter is_elem l) (filter is_elem l').
Proof.
  induction 1; cbn [filter is_elem]; auto.
  inversion H; subst; cbn [is_elem]; [|constructor; assumption].
  destruct n'; [|discriminate]. cbn [is_elem]. constructor; assumption.
Qed.
Lemma alike_elems : forall n n' x, called x n = true -> brace_free x = true -> x <> "ResourceContent" ->
  alike n n' -> Forall2 alike (elems n) (elems n').
Proof.
  intros n n' x Hc Hx Hr H. apply brace_free_iff in Hx. inversion H; subst.
  - destruct n' as [tag a t k|t]; [|discriminate]. destruct Hr.
    cbn [called] in Hc, H0. rewrite Bool.orb_true_iff, String.eqb_eq, suffix_spec in Hc, H0.
    assert (plain_name "ResourceContent") as Hp by (apply brace_free_iff; reflexivity).
    destruct Hc as [->|(p & Hc)], H0 as [Hq|(q & Hq)].
    + exact Hq.
    + destruct Hx. rewrite Hq, las_app. apply in_or_app. right. left. reflexivity.
    + destruct Hp. rewrite <- Hq, Hc, las_app. apply in_or_app. right. left. reflexivity.
    + rewrite Hc in Hq. apply las_inj. apply (f_equal list_ascii_of_string) in Hq. rewrite !las_app in Hq. cbn in Hq.
      exact (last_brace _ _ _ _ Hx Hp Hq).
  - apply alike_all_elems. assumption.
Qed.

Lemma alike_elems_called : forall l l' x, brace_free x = true -> Forall2 alike l l' ->
  Forall2 alike (filter (called x) l) (filter (called x) l').
Proof.
  intros l l' x Hx. induction 1 as [|k k' l l' Hk _ IH]; [constructor|]. cbn [filter].
  rewrite (alike_called k k' x Hx Hk). destruct (called x k); [constructor; assumption|exact IH].
Qed.

Lemma alike_allowed : forall names l l', forallb brace_free names = true -> Forall2 alike l l' ->
  (forall c, In c l -> called_one_of names c) -> forall c, In c l' -> called_one_of names c.
Proof.
  intros names l l' Hb Hl Ha c Hc. rewrite forallb_forall in Hb.
  destruct (Forall2_in_r _ _ _ _ _ _ Hl Hc) as (k & Hk & Hal).
  destruct (Ha k Hk) as (x & Hx & Hcx). exists x. split; [exact Hx|].
  rewrite (alike_called k c x (Hb x Hx) Hal). exact Hcx.
Qed.

(** ** Lists *)
Lemma Forall2_through : forall A (M : node -> A -> Prop) l l' as_,
  (forall k k' a, In k l -> alike k k' -> M k a -> M k' a) ->
  Forall2 alike l l' -> Forall2 M l as_ -> Forall2 M l' as_.
Proof.
  intros A M l l' as_ HM Hl. revert as_. induction Hl as [|k k' l l' Hk _ IH]; intros as_ H.
  - exact H.
  - inversion H; subst. constructor.
    + apply (HM k); [left; reflexivity|exact Hk|assumption].
    + apply IH; [|assumption]. intros; eapply HM; [right|..]; eassumption.
Qed.

Lemma Forall2_rev' : forall A B (R : A -> B -> Prop) l l', Forall2 R l l' -> Forall2 R (rev l) (rev l').
Proof.
  intros A B R. induction 1 as [|x y l l' H _ IH]; [constructor|]. cbn [rev].
  apply Forall2_app; [exact IH|]. constructor; [exact H|constructor].
Qed.

Lemma last_one_through : forall A (M : node -> A -> Prop) l l' o,
  (forall k k' a, In k l -> alike k k' -> M k a -> M k' a) ->
  Forall2 alike l l' -> last_one M l o -> last_one M l' o.
Proof.
  intros A M l l' o HM Hl (Hall & Hlast). split.
  - intros k' Hk'. destruct (Forall2_in_r _ _ _ _ _ _ Hl Hk') as (k & Hk & Ha).
    destruct (Hall k Hk) as (a & Hm). exists a. exact (HM k k' a Hk Ha Hm).
  - pose proof (Forall2_rev' _ _ _ _ _ Hl) as Hr.
    assert (forall k, In k (rev l) -> In k l) as Hin by (intros k; apply in_rev).
    destruct Hr as [|k k' r r' Hk _].
    + exact Hlast.
    + destruct Hlast as (a & -> & Hm). exists a. split; [reflexivity|].
      apply (HM k k'); [|exact Hk|exact Hm]. apply Hin. left. reflexivity.
Qed.

Lemma filter_called : forall x l k, In k (filter (called x) l) -> called x k = true.
Proof. intros x l k H. apply filter_In in H. apply H. Qed.

(** ** Policies *)
Ltac known := cbn [In xacml_attributes elements_with_text]; tauto.
Ltac bf := reflexivity.

Section Policies.
Variable E : renv.

Lemma value_alike : forall n n' v, alike n n' -> value_doc E n v -> value_doc E n' v.
Proof.
  intros n n' v H (Hc & dt & c & s & Hd & Ht & Hx & ->). split.
  - rewrite (fun B => alike_called n n' _ B H) by bf. exact Hc.
  - exists dt, c, s. rewrite (alike_attr n n' "DataType" ltac:(known) H).
    rewrite (alike_text n n' "AttributeValue" ltac:(bf) ltac:(known) Hc H). auto.
Qed.

Lemma designator_tag_free : forall k, brace_free (designator_tag k) = true.
Proof. intros []; reflexivity. Qed.

Lemma designator_alike : forall n n' d, alike n n' -> designator_doc n d -> designator_doc n' d.
Proof.
  intros n n' d H (Hc & Hd). unfold designator_doc.
  rewrite (alike_called n n' _ (designator_tag_free _) H).
  rewrite !(fun a I => alike_attr n n' a I H) by known. split; assumption.
Qed.

Lemma selector_alike : forall n n' s, alike n n' -> selector_doc n s -> selector_doc n' s.
Proof.
  intros n n' s H Hd. unfold selector_doc.
  rewrite (alike_called n n' "AttributeSelector" ltac:(bf) H).
  rewrite !(fun a I => alike_attr n n' a I H) by known. exact Hd.
Qed.

Lemma expr_alike : forall e n n', alike n n' -> expr_doc E n e -> expr_doc E n' e.
Proof.
  induction e as [v|d|s|id f args IH] using expr_ind'; intros n n' H Hd; inversion Hd; subst.
  - apply doc_value. eapply value_alike; eassumption.
  - apply doc_designator. eapply designator_alike; eassumption.
  - apply doc_selector. eapply selector_alike; eassumption.
  - match goal with Hc : called "Apply" n = true |- _ => rename Hc into Hca end.
    match goal with HF : Forall2 _ (elems n) args |- _ => rename HF into Hargs end.
    apply doc_apply.
    + rewrite (alike_called n n' "Apply" ltac:(bf) H). exact Hca.
    + rewrite (alike_attr n n' "FunctionId" ltac:(known) H). assumption.
    + assumption.
    + pose proof (alike_elems n n' "Apply" Hca ltac:(bf) ltac:(discriminate) H) as He.
      clear - IH He Hargs. revert IH Hargs. generalize args. clear args.
      induction He as [|k k' l l' Hk _ IHl]; intros args IH Hargs.
      * inversion Hargs; subst. constructor.
      * inversion Hargs; subst. inversion IH; subst. constructor; [eauto|]. apply IHl; assumption.
Qed.

Lemma condition_alike : forall n n' e, alike n n' -> condition_doc E n e -> condition_doc E n' e.
Proof.
  intros n n' e H (Hc & k & He & Ha & Hx). split.
  - rewrite (fun B => alike_called n n' _ B H) by bf. exact Hc.
  - pose proof (alike_elems n n' _ Hc ltac:(bf) ltac:(discriminate) H) as Hl. rewrite He in Hl.
    inversion Hl as [|? k' ? l' Hk Hl']; subst. inversion Hl'; subst. exists k'.
    split; [reflexivity|]. rewrite (fun B => alike_called k k' _ B Hk) by bf. split; [exact Ha|].
    exact (expr_alike e k k' Hk Hx).
Qed.

Lemma Forall2_nil_iff : forall A B (R : A -> B -> Prop) l l', Forall2 R l l' -> l = [] -> l' = [].
Proof. intros A B R l l' H ->. inversion H. reflexivity. Qed.

Lemma match_alike : forall k n n' m, alike n n' -> match_doc E k n m -> match_doc E k n' m.
Proof.
  intros k n n' m H (Hk & Hc & Hall & Hone & (id & f & H1 & H2 & H3 & H4) & Hv & Hd & Hs).
  assert (brace_free (match_tag k) = true /\ match_tag k <> "ResourceContent") as [Hb Hr]
    by (destruct k; split; (reflexivity || discriminate)).
  pose proof (alike_elems n n' _ Hc Hb Hr H) as He.
  pose proof (alike_elems_called _ _ (designator_tag k) (designator_tag_free k) He) as He1.
  pose proof (alike_elems_called _ _ "AttributeSelector" ltac:(bf) He) as He2.
  pose proof (alike_elems_called _ _ "AttributeValue" ltac:(bf) He) as He3.
  split; [exact Hk|]. split; [rewrite (alike_called n n' _ Hb H); exact Hc|].
  split; [|split; [|split; [|split; [|split]]]].
  - revert Hall. apply alike_allowed; [|exact He]. destruct k; reflexivity.
  - destruct Hone as [Ho|Ho]; [left; exact (Forall2_nil_iff _ _ _ _ _ He1 Ho)|right; exact (Forall2_nil_iff _ _ _ _ _ He2 Ho)].
  - exists id, f. rewrite (alike_attr n n' "MatchId" ltac:(known) H). auto.
  - revert Hv. apply last_one_through; [|exact He3]. intros a b v _. apply value_alike.
  - revert Hd. apply last_one_through; [|exact He1]. intros a b d _ Hab [Hd Hkd]. split; [|exact Hkd].
    exact (designator_alike a b d Hab Hd).
  - revert Hs. apply last_one_through; [|exact He2]. intros a b v _. apply selector_alike.
Qed.

Lemma child_alike : forall k n n' ms, alike n n' -> child_doc E k n ms -> child_doc E k n' ms.
Proof.
  intros k n n' ms H (Hc & HF).
  assert (brace_free (child_tag k) = true /\ child_tag k <> "ResourceContent") as [Hb Hr]
    by (destruct k; split; (reflexivity || discriminate)).
  split; [rewrite (alike_called n n' _ Hb H); exact Hc|].
  apply (Forall2_through _ _ (elems n)); [|exact (alike_elems n n' _ Hc Hb Hr H)|exact HF].
  intros a b m _. apply match_alike.
Qed.

Lemma target_alike : forall n n' t, alike n n' -> target_doc E n t -> target_doc E n' t.
Proof.
  intros n n' t H (Hc & Hall & HF). pose proof (alike_elems n n' _ Hc ltac:(bf) ltac:(discriminate) H) as He.
  split; [rewrite (fun B => alike_called n n' _ B H) by bf; exact Hc|]. split.
  - revert Hall. apply alike_allowed; [reflexivity|exact He].
  - intros k. assert (brace_free (container_tag k) = true /\ container_tag k <> "ResourceContent") as [Hb Hr]
      by (destruct k; split; (reflexivity || discriminate)).
    eapply Forall2_through; [|clear HF|exact (HF k)].
    + intros a b m _. apply child_alike.
    + pose proof (alike_elems_called _ _ (container_tag k) Hb He) as Hl.
      unfold elems_called in *. assert (forall x, In x (filter (called (container_tag k)) (elems n)) ->
        called (container_tag k) x = true) as Hx by (intros x; apply filter_called).
      revert Hx. induction Hl as [|a b l l' Hab _ IH]; intros Hx; [constructor|]. cbn [flat_map].
      apply Forall2_app; [|apply IH; intros; apply Hx; right; assumption].
      apply (alike_elems a b (container_tag k) (Hx a (or_introl eq_refl)) Hb Hr Hab).
Qed.

Lemma description_alike : forall n n' o, Forall2 alike (elems n) (elems n') ->
  description_doc n o -> description_doc n' o.
Proof.
  intros n n' o He. unfold description_doc, elems_called.
  pose proof (alike_elems_called _ _ "Description" ltac:(bf) He) as Hl.
  assert (map xml_text (filter (called "Description") (elems n')) =
          map xml_text (filter (called "Description") (elems n))) as ->; [|tauto].
  assert (forall x, In x (filter (called "Description") (elems n)) ->
        called "Description" x = true) as Hx by (intros x; apply filter_called).
  revert Hx. induction Hl as [|a b l l' Hab _ IH]; intros Hx; [reflexivity|]. cbn [map].
  rewrite IH by (intros; apply Hx; right; assumption).
  rewrite (alike_text a b "Description" ltac:(bf) ltac:(known) (Hx a (or_introl eq_refl)) Hab). reflexivity.
Qed.

Lemma rule_alike : forall n n' r, alike n n' -> rule_doc E n r -> rule_doc E n' r.
Proof.
  intros n n' r H (Hc & Hall & (id & e & H1 & H2 & H3 & H4) & Ht & (c & Hcond & Hrc) & Hd).
  pose proof (alike_elems n n' _ Hc ltac:(bf) ltac:(discriminate) H) as He.
  split; [rewrite (fun B => alike_called n n' _ B H) by bf; exact Hc|].
  split; [revert Hall; apply alike_allowed; [reflexivity|exact He]|].
  split; [|split; [|split]].
  - exists id, e. rewrite !(fun a I => alike_attr n n' a I H) by known. auto.
  - revert Ht. apply last_one_through; [|apply alike_elems_called; [bf|exact He]]. intros a b t _. apply target_alike.
  - exists c. split; [|exact Hrc]. revert Hcond.
    apply last_one_through; [|apply alike_elems_called; [bf|exact He]]. intros a b t _. apply condition_alike.
  - revert Hd. apply description_alike, He.
Qed.

Lemma defaults_alike : forall n n' v, alike n n' -> defaults_doc n v -> defaults_doc n' v.
Proof.
  intros n n' v H (Hc & tag & attrs & text & k & -> & Hk & Hv).
  split; [rewrite (fun B => alike_called _ n' _ B H) by bf; exact Hc|].
  inversion H as [? Hr|name ? tag' ? attrs' ? text' ? kids' Hp Ht Ht' Hn Ha Htx Hlen Hkids]; subst.
  - exists tag, attrs, text, k. auto.
  - rewrite (called_tag name) in Hc by (auto; apply brace_free_iff; reflexivity).
    apply String.eqb_eq in Hc. subst name. specialize (Hlen (or_introl eq_refl)). cbn in Hlen.
    destruct kids' as [|k' [|? ?]]; try discriminate Hlen.
    exists tag', attrs', text', k'. split; [reflexivity|].
    apply alike_all_elems in Hkids. destruct k as [ktag ka kt kk|kt]; [|discriminate Hk].
    destruct k' as [ktag' ka' kt' kk'|kt']; cbn [filter is_elem] in Hkids; [|inversion Hkids].
    inversion Hkids as [|? ? ? ? Hkk _]; subst.
    rewrite (fun B => alike_called _ _ _ B Hkk) by bf. split; [exact Hk|].
    rewrite (alike_text _ _ "XPathVersion" ltac:(bf) ltac:(known) Hk Hkk). exact Hv.
Qed.

Lemma version_alike : forall n n', alike n n' -> version_doc n' = version_doc n.
Proof. intros n n' H. unfold version_doc. rewrite (alike_attr n n' "Version" ltac:(known) H). reflexivity. Qed.

Lemma policy_alike : forall n n' p, alike n n' -> policy_doc E n p -> policy_doc E n' p.
Proof.
  intros n n' p H (Hc & Hall & id & ai & alg & de & xp & t & rs & -> & H1 & H2 & H3 & Hd & Hx & Ht & Hr & Hnd).
  pose proof (alike_elems n n' _ Hc ltac:(bf) ltac:(discriminate) H) as He.
  split; [rewrite (fun B => alike_called n n' _ B H) by bf; exact Hc|].
  split; [revert Hall; apply alike_allowed; [reflexivity|exact He]|].
  exists id, ai, alg, de, xp, t, rs. rewrite (version_alike n n' H).
  rewrite !(fun a I => alike_attr n n' a I H) by known.
  repeat (split; [first [reflexivity|assumption]|]). split; [|split; [|split; [|split]]].
  - revert Hd. apply description_alike, He.
  - revert Hx. apply last_one_through; [|apply alike_elems_called; [bf|exact He]]. intros a b v _. apply defaults_alike.
  - revert Ht. apply last_one_through; [|apply alike_elems_called; [bf|exact He]]. intros a b v _. apply target_alike.
  - revert Hr. apply Forall2_through; [|apply alike_elems_called; [bf|exact He]]. intros a b v _. apply rule_alike.
  - exact Hnd.
Qed.

Lemma wanted_alike : forall n n', alike n n' -> wanted n' = wanted n.
Proof.
  intros n n' H. unfold wanted. rewrite !(fun x B => alike_called n n' x B H) by bf.
  destruct (called "PolicyIdReference" n) eqn:E1.
  - rewrite (alike_text n n' "PolicyIdReference" ltac:(bf) ltac:(known) E1 H). reflexivity.
  - destruct (called "PolicySetIdReference" n) eqn:E2; [|reflexivity].
    rewrite (alike_text n n' "PolicySetIdReference" ltac:(bf) ltac:(known) E2 H). reflexivity.
Qed.

Lemma members_alike : forall n n', Forall2 alike (elems n) (elems n') -> Forall2 alike (members n) (members n').
Proof.
  intros n n'. unfold members. generalize (elems n), (elems n').
  induction 1 as [|k k' l l' Hk _ IH]; [constructor|]. cbn [filter].
  rewrite !(fun x B => alike_called k k' x B Hk) by bf.
  match goal with |- context [if ?b then _ else _] => destruct b end; [constructor; assumption|exact IH].
Qed.

Variable fetch fetch' : string -> res node.
Hypothesis Hweb : alike_web fetch fetch'.
Variable fd : finder.

Lemma reads_alike :
  (forall n K K' U p, reads E fetch fd n K K' U p ->
     forall n', alike n n' -> reads E fetch' fd n' K K' U p) /\
  (forall l K K' U ps, reads_members E fetch fd l K K' U ps ->
     forall l', Forall2 alike l l' -> reads_members E fetch' fd l' K K' U ps) /\
  (forall n K K' U p, reads_member E fetch fd n K K' U p ->
     forall n', alike n n' -> reads_member E fetch' fd n' K K' U p).
Proof.
  apply (reads_mutind E fetch fd).
  - intros n K p Hd Hn n' Ha. apply reads_policy; [|exact Hn]. exact (policy_alike n n' p Ha Hd).
  - intros n K K' U id ai alg de t ps p Hc Hall H1 H2 H3 Hd Ht _ IH Hp Hn n' Ha.
    pose proof (alike_elems n n' _ Hc ltac:(bf) ltac:(discriminate) Ha) as He.
    eapply (reads_set E fetch' fd n' K K' U id ai alg de t ps p).
    + rewrite (fun B => alike_called n n' _ B Ha) by bf. exact Hc.
    + refine (alike_allowed _ (elems n) (elems n') _ He Hall). reflexivity.
    + rewrite (alike_attr n n' "PolicySetId" ltac:(known) Ha). exact H1.
    + rewrite (alike_attr n n' "PolicyCombiningAlgId" ltac:(known) Ha). exact H2.
    + exact H3.
    + revert Hd. apply description_alike, He.
    + revert Ht. apply last_one_through; [|apply alike_elems_called; [bf|exact He]]. intros a b v _. apply target_alike.
    + apply IH. apply members_alike, He.
    + rewrite (version_alike n n' Ha). exact Hp.
    + exact Hn.
  - intros K l' Hl. inversion Hl. constructor.
  - intros k ks K K1 K2 U U' p ps _ IH1 _ IH2 l' Hl. inversion Hl; subst.
    eapply reads_more; [apply IH1; assumption|apply IH2; assumption].
  - intros k K K' U p Hw _ IH n' Ha. apply reads_inline; [rewrite (wanted_alike k n' Ha); exact Hw|]. apply IH, Ha.
  - intros k K p Hw Hin n' Ha. apply reads_known; [rewrite (wanted_alike k n' Ha); exact Hw|exact Hin].
  - intros base k r url d K K' U q p Hfd Hx Hw Hn Hu Hf _ IH Hin n' Ha.
    pose proof (Hweb url) as Hd. rewrite Hf in Hd.
    destruct (fetch' url) as [d'|] eqn:Hf'; [|destruct Hd].
    apply (reads_fetched E fetch' fd base n' r url d' K K' U q p); auto.
    + destruct (called "PolicyIdReference" k) eqn:E1; [|destruct (called "PolicySetIdReference" k) eqn:E2].
      * rewrite (alike_text k n' "PolicyIdReference" ltac:(bf) ltac:(known) E1 Ha). exact Hx.
      * rewrite (alike_text k n' "PolicySetIdReference" ltac:(bf) ltac:(known) E2 Ha). exact Hx.
      * unfold wanted in Hw. rewrite E1, E2 in Hw. discriminate Hw.
    + rewrite (wanted_alike k n' Ha). exact Hw.
Qed.
End Policies.

Lemma alike_web_sym : forall f f', alike_web f f' -> alike_web f' f.
Proof.
  intros f f' H u. specialize (H u). destruct (f u), (f' u); try assumption. apply alike_sym, H.
Qed.

(** ** Requests and responses *)
Section Contexts.
Variable cm : list (string * avclass).

Lemma cvalue_alike : forall dt n n' v, alike n n' -> context_value_doc cm dt n v -> context_value_doc cm dt n' v.
Proof.
  intros dt n n' v H (Hc & Hd). split.
  - rewrite (fun B => alike_called n n' _ B H) by bf. exact Hc.
  - rewrite (alike_text n n' "AttributeValue" ltac:(bf) ltac:(known) Hc H). exact Hd.
Qed.

Lemma attribute_alike : forall n n' a, alike n n' -> attribute_doc cm n a -> attribute_doc cm n' a.
Proof.
  intros n n' a H (Hc & Hk & id & dt & Hd).
  split; [rewrite (fun B => alike_called _ n' _ B H) by bf; exact Hc|]. split.
  - inversion H as [? Hr|name tag tag' attrs attrs' text text' kids kids' Hp Ht Ht' Hn Ha Htx Hlen Hkids]; subst.
    + exact Hk.
    + rewrite (called_tag name) in Hc by (auto; apply brace_free_iff; reflexivity).
      apply String.eqb_eq in Hc. subst name. specialize (Hlen (or_intror (or_introl eq_refl))).
      cbn [xml_children] in *. destruct kids; [congruence|]. destruct kids'; [discriminate Hlen|discriminate].
  - exists id, dt. rewrite !(fun a I => alike_attr n n' a I H) by known.
    destruct Hd as (H1 & H2 & H3 & H4 & H5 & H6). repeat (split; [assumption|]).
    revert H6. apply Forall2_through.
    + intros x y v _. apply cvalue_alike.
    + exact (alike_elems n n' _ Hc ltac:(bf) ltac:(discriminate) H).
Qed.

Lemma attributes_alike : forall n n' l, Forall2 alike (elems n) (elems n') ->
  attributes_doc cm n l -> attributes_doc cm n' l.
Proof.
  intros n n' l He. apply Forall2_through; [|apply alike_elems_called; [bf|exact He]].
  intros x y v _. apply attribute_alike.
Qed.

Lemma subject_alike : forall n n' s, alike n n' -> subject_doc cm n s -> subject_doc cm n' s.
Proof.
  intros n n' s H (Hc & Hs & Ha). unfold subject_doc.
  rewrite (fun B => alike_called n n' _ B H) by bf; rewrite (alike_attr n n' "SubjectCategory" ltac:(known) H).
  split; [exact Hc|]. split; [exact Hs|]. revert Ha. apply attributes_alike.
  exact (alike_elems n n' _ Hc ltac:(bf) ltac:(discriminate) H).
Qed.

Lemma content_alike : forall k k', called "ResourceContent" k = true -> alike k k' -> k' = k.
Proof.
  intros k k' Hc H. inversion H; subst; [reflexivity|].
  rewrite (called_tag name) in Hc by (auto; apply brace_free_iff; reflexivity).
  apply String.eqb_eq in Hc. congruence.
Qed.

Lemma resource_alike : forall n n' r, alike n n' -> resource_doc cm n r -> resource_doc cm n' r.
Proof.
  intros n n' r H (Hc & Ha & Hx). pose proof (alike_elems n n' _ Hc ltac:(bf) ltac:(discriminate) H) as He.
  split; [rewrite (fun B => alike_called n n' _ B H) by bf; exact Hc|]. split; [revert Ha; apply attributes_alike, He|].
  revert Hx. apply last_one_through; [|apply alike_elems_called; [bf|exact He]].
  intros k k' a Hin Hk <-. apply content_alike; [exact (filter_called _ _ _ Hin)|exact Hk].
Qed.

Lemma part_alike : forall x n n' l, brace_free x = true -> x <> "ResourceContent" ->
  alike n n' -> part_doc x cm n l -> part_doc x cm n' l.
Proof.
  intros x n n' l Hb Hr H (Hc & Ha). split; [rewrite (alike_called n n' _ Hb H); exact Hc|].
  revert Ha. apply attributes_alike. exact (alike_elems n n' _ Hc Hb Hr H).
Qed.

Lemma request_alike : forall n n' r, alike n n' -> request_doc cm n r -> request_doc cm n' r.
Proof.
  intros n n' r H (Hc & Hall & Hs & Hr & Ha & Hv & Hh).
  pose proof (alike_elems n n' _ Hc ltac:(bf) ltac:(discriminate) H) as He.
  split; [rewrite (fun B => alike_called n n' _ B H) by bf; exact Hc|].
  split; [revert Hall; apply alike_allowed; [reflexivity|exact He]|].
  split; [|split; [|split; [|split; [|exact Hh]]]].
  - revert Hs. apply Forall2_through; [|apply alike_elems_called; [bf|exact He]]. intros a b v _. apply subject_alike.
  - revert Hr. apply Forall2_through; [|apply alike_elems_called; [bf|exact He]]. intros a b v _. apply resource_alike.
  - revert Ha. apply last_one_through; [|apply alike_elems_called; [bf|exact He]].
    intros a b v _. apply part_alike; [bf|discriminate].
  - revert Hv. apply last_one_through; [|apply alike_elems_called; [bf|exact He]].
    intros a b v _. apply part_alike; [bf|discriminate].
Qed.
End Contexts.

Lemma decision_alike : forall n n' d, alike n n' -> decision_doc n d -> decision_doc n' d.
Proof.
  intros n n' d H (Hc & Hx). split; [rewrite (fun B => alike_called n n' _ B H) by bf; exact Hc|].
  rewrite (alike_text n n' "Decision" ltac:(bf) ltac:(known) Hc H). exact Hx.
Qed.

Lemma all_called_alike : forall x l l', brace_free x = true -> Forall2 alike l l' ->
  (forall k, In k l -> called x k = true) -> forall k, In k l' -> called x k = true.
Proof.
  intros x l l' Hb Hl Ha k' Hk'. destruct (Forall2_in_r _ _ _ _ _ _ Hl Hk') as (k & Hk & Hal).
  rewrite (alike_called k k' x Hb Hal). exact (Ha k Hk).
Qed.

Lemma result_alike : forall n n' r, alike n n' -> result_doc n r -> result_doc n' r.
Proof.
  intros n n' r H (Hc & Hall & Hd & Hr). pose proof (alike_elems n n' _ Hc ltac:(bf) ltac:(discriminate) H) as He.
  split; [rewrite (fun B => alike_called n n' _ B H) by bf; exact Hc|].
  split; [revert Hall; apply all_called_alike; [bf|exact He]|].
  split; [|rewrite (alike_attr n n' "ResourceId" ltac:(known) H); exact Hr].
  revert Hd. apply last_one_through; [|exact He]. intros k k' o _ Hk (d & Hdd & ->). exists d. split; [|reflexivity].
  exact (decision_alike k k' d Hk Hdd).
Qed.

Lemma response_alike : forall n n' r, alike n n' -> response_doc n r -> response_doc n' r.
Proof.
  intros n n' r H (Hc & Hall & HF). pose proof (alike_elems n n' _ Hc ltac:(bf) ltac:(discriminate) H) as He.
  split; [rewrite (fun B => alike_called n n' _ B H) by bf; exact Hc|].
  split; [revert Hall; apply all_called_alike; [bf|exact He]|].
  revert HF. apply Forall2_through; [|exact He]. intros a b v _. apply result_alike.
Qed.


(** ** Every document with proper names is like itself *)
Lemma alike_refl : forall n, named n -> is_elem n = true -> alike n n.
Proof.
  induction n as [t|tag a t kids IH] using node_ind'; intros H He; [discriminate He|].
  inversion H as [name ? ? ? ? Hp Ht Hk|]; subst.
  destruct (String.eqb name "ResourceContent") eqn:Er.
  - apply alike_content. rewrite (called_tag name); auto. apply brace_free_iff. reflexivity.
  - apply String.eqb_neq in Er. apply alike_elem with (name := name); auto.
    clear - IH Hk. induction kids as [|k l IHl]; [constructor|].
    inversion IH; subst. inversion Hk; subst.
    destruct k as [tag a t ks|s].
    + apply alike_cons; auto.
    + apply alike_comment_l, alike_comment_r; auto.
Qed.
Lemma alike_all_refl : forall l, Forall named l -> alike_all l l.
Proof.
  induction 1 as [|k l Hk _ IH]; [constructor|]. destruct k as [tag a t ks|s].
  - apply alike_cons; [|exact IH]. apply alike_refl; [exact Hk|reflexivity].
  - apply alike_comment_l, alike_comment_r, IH.
Qed.

Lemma dict_get_in : forall (A : Type) a (l : list (string * A)) v, NoDup (map fst l) ->
  (dict_get a l = Some v <-> In (a, v) l).
Proof.
  intros A a l v. induction l as [|[k w] l IH]; cbn [dict_get map fst]; intros Hnd.
  - split; [discriminate|intros []].
  - inversion Hnd as [|? ? Hn Hnd']; subst. destruct (String.eqb a k) eqn:E.
    + apply String.eqb_eq in E. subst k. split.
      * intros [= ->]. left. reflexivity.
      * intros [[= ->]|H]; [reflexivity|]. destruct Hn. apply (in_map fst) in H. exact H.
    + apply String.eqb_neq in E. rewrite (IH Hnd'). split; [right; assumption|].
      intros [[= -> ->]|H]; [congruence|exact H].
Qed.
Lemma dict_get_permutation : forall (A : Type) a (l l' : list (string * A)), NoDup (map fst l) ->
  Permutation.Permutation l l' -> dict_get a l = dict_get a l'.
Proof.
  intros A a l l' Hnd Hp. assert (NoDup (map fst l')) as Hnd'
    by (eapply Permutation.Permutation_NoDup; [apply Permutation.Permutation_map, Hp|exact Hnd]).
  destruct (dict_get a l) as [v|] eqn:E.
  - apply (dict_get_in A a l v Hnd) in E. symmetry. apply (dict_get_in A a l' v Hnd').
    eapply Permutation.Permutation_in; eassumption.
  - destruct (dict_get a l') as [v|] eqn:E'; [|reflexivity].
    apply (dict_get_in A a l' v Hnd') in E'. apply Permutation.Permutation_sym in Hp.
    apply (Permutation.Permutation_in _ Hp) in E'. apply (dict_get_in A a l v Hnd) in E'. congruence.
Qed.
