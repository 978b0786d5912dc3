(** Well formed objects stand for exactly one policy or request. *)
From Verif Require Import Objects SpecObjects ObjectsFacts.
From Coq Require Import Wellfounded.Transitive_Closure.

Section Exists.
Variable h : heap.
Hypothesis W : well_formed h.

Ltac inv_type T H :=
  inversion T; subst;
  match goal with X : nth_error h _ = Some _ |- _ => rename X into H end.

Lemma attr_exists : forall a c attrs name d, nth_error h a = Some (PInst c attrs) ->
  In (name, d) (documented_attributes c) -> (forall t, d <> DLate t) ->
  exists v, get_attr h a name = Ok v /\ as_documented h d v.
Proof.
  intros a c attrs name d N I L. destruct (W _ _ N) as [A _]. specialize (A name d I).
  unfold get_attr. rewrite N. destruct (dict_get name attrs) as [v|]; [eauto|].
  destruct A as [t ->]. exfalso. exact (L t eq_refl).
Qed.

Lemma maybe_exists : forall X (R : pval -> X -> Prop) a c attrs name t,
  nth_error h a = Some (PInst c attrs) -> In (name, DOptional t) (documented_attributes c) ->
  (forall v, has_type h v t -> get_attr h a name = Ok v -> exists x, R v x) ->
  exists o, attr_is h a name (maybe R o).
Proof.
  intros X R a c attrs name t N I K.
  destruct (attr_exists _ _ _ _ _ N I) as (v & G & D); [discriminate|].
  destruct D as [->|D].
  - exists None, (PNat NNone); split; [exact G | reflexivity].
  - destruct (K v D G) as [x Hx]. exists (Some x), v; split; [exact G | exact Hx].
Qed.

Lemma string_exists : forall a c attrs name, nth_error h a = Some (PInst c attrs) ->
  In (name, DOptional TStr) (documented_attributes c) ->
  exists o, attr_is h a name (maybe for_string o).
Proof.
  intros a c attrs name N I. eapply maybe_exists; [exact N | exact I|].
  intros v T _. inversion T; subst. exists s; reflexivity.
Qed.

Lemma Forall2_exists : forall A B (R : A -> B -> Prop) l, (forall x, In x l -> exists y, R x y) ->
  exists l', Forall2 R l l'.
Proof.
  intros A B R l. induction l as [|x l IH]; intro K; [exists []; constructor|].
  destruct (K x (or_introl eq_refl)) as [y Hy]. destruct IH as [l' F].
  { intros z I; apply K; right; exact I. }
  exists (y :: l'); constructor; assumption.
Qed.

Lemma listing_exists : forall X (R : pval -> X -> Prop) a c attrs name t,
  nth_error h a = Some (PInst c attrs) -> In (name, DListOf t) (documented_attributes c) ->
  (forall v l items, has_type h v t -> get_attr h a name = Ok (PRef l) ->
     nth_error h l = Some (PTypedList t items) -> In v items -> exists x, R v x) ->
  exists xs, attr_is h a name (listing h (Forall2 R) xs).
Proof.
  intros X R a c attrs name t N I K.
  destruct (attr_exists _ _ _ _ _ N I) as (v & G & D); [discriminate|].
  destruct D as (l & items & -> & NL). pose proof (W _ _ NL) as F; cbn in F.
  destruct (Forall2_exists _ _ R items) as [xs FX].
  { intros v Iv. eapply K; [eapply Forall_forall in F; [exact F | exact Iv] | exact G | exact NL | exact Iv]. }
  exists xs, (PRef l); split; [exact G|]. exists l, t, items; auto.
Qed.

Ltac member := cbn; repeat (try (left; reflexivity); right).
Ltac str_of a N name := let o := fresh "o" in let H := fresh "S" in
  destruct (string_exists a _ _ name N) as [o H]; [member|].

Lemma value_exists : forall v, has_type h v TAttributeValue -> exists x, for_value h v x.
Proof. intros v T. inversion T; subst. exists v0, a; auto. Qed.

Lemma designator_exists : forall a k attrs, nth_error h a = Some (PInst (KDesignator k) attrs) ->
  exists d, for_designator h (PRef a) d.
Proof.
  intros a k attrs N. str_of a N "attributeId"%string. str_of a N "dataType"%string.
  str_of a N "issuer"%string.
  destruct (attr_exists _ _ _ "mustBePresent" DFlag N) as (v & G & b & ->); [member | discriminate|].
  exists (mkDesignator k o o0 o1 b), a. unfold instance. repeat split; cbn; eauto.
  exists (PNat (NBool b)); split; [exact G | reflexivity].
Qed.

Lemma selector_exists : forall a attrs, nth_error h a = Some (PInst KSelector attrs) ->
  exists s, for_selector h (PRef a) s.
Proof.
  intros a attrs N. str_of a N "requestContextPath"%string. str_of a N "dataType"%string.
  destruct (maybe_exists _ for_bool _ _ _ "mustBePresent" TBool N) as [b Hb]; [member| |].
  { intros v T _. inversion T; subst. exists b; reflexivity. }
  exists (mkSelector o o0 b), a. unfold instance. repeat split; cbn; eauto.
Qed.

Lemma function_exists : forall a c attrs, nth_error h a = Some (PInst c attrs) ->
  In ("function"%string, DFunction) (documented_attributes c) ->
  exists f, attr_is h a "function" (maybe for_function f).
Proof.
  intros a c attrs N I. destruct (attr_exists _ _ _ _ _ N I) as (v & G & D); [discriminate|].
  destruct D as [->|[f ->]]; [exists None | exists (Some f)]; eexists; (split; [exact G | reflexivity]).
Qed.
Lemma algorithm_exists : forall a c attrs name, nth_error h a = Some (PInst c attrs) ->
  In (name, DAlgorithm) (documented_attributes c) ->
  exists f, attr_is h a name (maybe for_algorithm f).
Proof.
  intros a c attrs name N I. destruct (attr_exists _ _ _ _ _ N I) as (v & G & D); [discriminate|].
  destruct D as [->|[f ->]]; [exists None | exists (Some f)]; eexists; (split; [exact G | reflexivity]).
Qed.

Definition part_of (b a : nat) : Prop := clos_trans nat (fun b a => refers h a b) b a.
Lemma part_attr : forall a name b, get_attr h a name = Ok (PRef b) -> part_of b a.
Proof. intros a name b G. apply t_step. eapply refers_attribute; exact G. Qed.
Lemma part_item : forall a name l t items b, get_attr h a name = Ok (PRef l) ->
  nth_error h l = Some (PTypedList t items) -> In (PRef b) items -> part_of b a.
Proof.
  intros a name l t items b G N I. eapply t_trans; apply t_step;
    [eapply refers_item; eassumption | eapply refers_attribute; exact G].
Qed.
Lemma not_circular_part : forall a, not_circular h a -> Acc part_of a.
Proof. intros a C. apply Acc_clos_trans. exact C. Qed.
Local Notation noncirc a := (Acc part_of a).

Lemma exprs_exists : forall l, (forall v, In v l -> exists x, for_expr h v x) -> exists xs, for_exprs h l xs.
Proof.
  induction l as [|v l IH]; intro K; [exists []; constructor|].
  destruct (K v (or_introl eq_refl)) as [x Hx]. destruct IH as [xs Hxs].
  { intros w I; apply K; right; exact I. }
  exists (x :: xs); constructor; assumption.
Qed.

Lemma expr_exists : forall a, noncirc a -> has_type h (PRef a) TExpression ->
  exists x, for_expr h (PRef a) x.
Proof.
  intros a C. induction C as [a _ IH]. intro T. inv_type T H.
  - destruct (designator_exists _ _ _ H) as [d D]. exists (XDesignator d); constructor; exact D.
  - destruct (selector_exists _ _ H) as [d D]. exists (XSelector d); constructor; exact D.
  - str_of a H "functionId"%string.
    destruct (function_exists _ _ _ H) as [f F]; [member|].
    destruct (attr_exists _ _ _ "expressions" (DListOf TExpression) H) as (v & G & l & items & -> & NL);
      [member | discriminate|].
    destruct (exprs_exists items) as [xs X].
    { intros v I. pose proof (W _ _ NL) as FA; cbn in FA. rewrite Forall_forall in FA. specialize (FA v I).
      assert (exists b, v = PRef b) as [b ->] by (inversion FA; eauto).
      apply IH; [eapply part_item; eassumption | exact FA]. }
    exists (XApply o f xs). eapply fe_apply; eauto. unfold instance; eauto.
  - exists (XValue v). constructor. exists a; auto.
Qed.

Lemma match_exists : forall a k attrs, nth_error h a = Some (PInst (KMatch k) attrs) ->
  exists m, for_match h k (PRef a) m.
Proof.
  intros a k attrs N. str_of a N "matchId"%string.
  destruct (function_exists _ _ _ N) as [f F]; [member|].
  destruct (maybe_exists _ (for_value h) _ _ _ "attributeValue" TAttributeValue N) as [v V];
    [member | intros; apply value_exists; assumption|].
  destruct (maybe_exists _ (for_designator h) _ _ _ "attributeDesignator" TDesignator N) as [d D];
    [member | intros x T _; inversion T; subst; eapply designator_exists; eassumption|].
  destruct (maybe_exists _ (for_selector h) _ _ _ "attributeSelector" (TCls KSelector) N) as [s S'];
    [member | intros x T _; inversion T; subst; eapply selector_exists; eassumption|].
  exists (mkMatch o f v d s), a. unfold instance. repeat split; cbn; eauto.
Qed.

Lemma child_exists : forall k v, has_type h v (TCls (KTargetChild k)) -> exists ms, for_child h k v ms.
Proof.
  intros k v T. inv_type T H.
  destruct (listing_exists _ (for_match h k) _ _ _ "matches" (TCls (KMatch k)) H) as [ms M]; [member| |].
  { intros v l items Tv _ _ _. inversion Tv; subst. eapply match_exists; eassumption. }
  exists ms, a. unfold instance; split; eauto.
Qed.

Lemma target_exists : forall v, has_type h v (TCls KTarget) -> exists t, for_target h v t.
Proof.
  intros v T. inv_type T H.
  destruct (listing_exists _ (for_child h DSubject) _ _ _ "subjects" (TCls (KTargetChild DSubject)) H) as [s S]; [member | intros; apply child_exists; assumption|].
  destruct (listing_exists _ (for_child h DResource) _ _ _ "resources" (TCls (KTargetChild DResource)) H) as [r R]; [member | intros; apply child_exists; assumption|].
  destruct (listing_exists _ (for_child h DAction) _ _ _ "actions" (TCls (KTargetChild DAction)) H) as [c C]; [member | intros; apply child_exists; assumption|].
  destruct (listing_exists _ (for_child h DEnvironment) _ _ _ "environments" (TCls (KTargetChild DEnvironment)) H) as [e E]; [member | intros; apply child_exists; assumption|].
  exists (mkTarget s r c e), a. unfold instance. repeat split; cbn; eauto.
Qed.

Lemma condition_exists : forall v, has_type h v (TCls KCondition) ->
  (forall b, v = PRef b -> noncirc b) -> exists c, for_condition h v c.
Proof.
  intros v T C. inv_type T H. specialize (C a eq_refl).
  destruct (maybe_exists _ (for_expr h) _ _ _ "expression" TExpression H) as [x X]; [member| |].
  { intros v Tv G. assert (exists b, v = PRef b) as [b ->] by (inversion Tv; eauto).
    apply expr_exists; [eapply Acc_inv; [exact C | eapply part_attr; exact G] | exact Tv]. }
  exists x, a. unfold instance; split; eauto.
Qed.

Lemma rule_exists : forall v, has_type h v (TCls KRule) ->
  (forall b, v = PRef b -> noncirc b) -> exists r, for_rule h v r.
Proof.
  intros v T C. inv_type T H. specialize (C a eq_refl).
  str_of a H "id"%string.
  destruct (maybe_exists _ (for_effect h) _ _ _ "effect" TEffect H) as [e E]; [member| |].
  { intros v Tv _. inversion Tv; subst. pose proof (W _ _ H0) as K; cbn in K.
    destruct K as [->| ->]; [exists EffPermit | exists EffDeny]; eexists; (split; [reflexivity | exact H0]). }
  destruct (maybe_exists _ (for_target h) _ _ _ "target" (TCls KTarget) H) as [t Tg];
    [member | intros; apply target_exists; assumption|].
  destruct (maybe_exists _ (for_condition h) _ _ _ "condition" (TCls KCondition) H) as [c Co]; [member| |].
  { intros v Tv G. apply condition_exists; [exact Tv|]. intros b ->.
    eapply Acc_inv; [exact C | eapply part_attr; exact G]. }
  assert (D : exists d : option string, match d with
                | None => get_attr h a "description" = Raise EAttributeError
                | Some s => get_attr h a "description" = Ok (PNat (NStr s))
                end).
  { destruct (W _ _ H) as [A _]. specialize (A "description"%string (DLate TStr)).
    unfold get_attr; rewrite H. destruct (dict_get "description" attrs) as [v|].
    - assert (X : as_documented h (DLate TStr) v) by (apply A; member).
      inversion X; subst. exists (Some s); reflexivity.
    - exists None; reflexivity. }
  destruct D as [d D].
  exists (mkRule o e t c d), a. unfold instance. repeat split; cbn; eauto.
Qed.

Lemma defaults_exists : forall a c attrs name, nth_error h a = Some (PInst c attrs) ->
  In (name, DOptional (TCls KPolicyDefaults)) (documented_attributes c) ->
  exists x, attr_is h a name (for_defaults h x).
Proof.
  intros a c attrs name N I. destruct (attr_exists _ _ _ _ _ N I) as (v & G & D); [discriminate|].
  destruct D as [->|D].
  - exists None, (PNat NNone); split; [exact G | left; auto].
  - inversion D as [| | | | |a0 c0 attrs0 H| | | | | | | | | |]; subst. destruct (string_exists a0 _ _ "xpathVersion" H) as [x X]; [member|].
    exists x, (PRef a0); split; [exact G|]. right. exists a0. unfold instance; eauto.
Qed.

Lemma policies_exists : forall l, (forall v, In v l -> exists x, for_policy h v x) -> exists xs, for_policies h l xs.
Proof.
  induction l as [|v l IH]; intro K; [exists []; constructor|].
  destruct (K v (or_introl eq_refl)) as [x Hx]. destruct IH as [xs Hxs].
  { intros w I; apply K; right; exact I. }
  exists (x :: xs); constructor; assumption.
Qed.

Lemma policy_exists : forall a, noncirc a -> has_type h (PRef a) TPolicyBase ->
  exists p, for_policy h (PRef a) p.
Proof.
  intros a C. induction C as [a C IH]. intro T. inv_type T H.
  - str_of a H "policyId"%string. str_of a H "version"%string. str_of a H "ruleCombiningAlgId"%string.
    str_of a H "description"%string.
    destruct (defaults_exists _ _ _ "policyDefaults" H) as [x X]; [member|].
    destruct (maybe_exists _ (for_target h) _ _ _ "target" (TCls KTarget) H) as [t Tg];
      [member | intros; apply target_exists; assumption|].
    destruct (algorithm_exists _ _ _ "ruleCombiningAlg" H) as [al Al]; [member|].
    destruct (listing_exists _ (for_rule h) _ _ _ "rules" (TCls KRule) H) as [rs R]; [member| |].
    { intros v l items Tv G NL I. apply rule_exists; [exact Tv|]. intros b ->.
      apply C. eapply part_item; eassumption. }
    exists (PPolicy (mkMeta o o0 o1 o2 x) t al rs).
    eapply fp_policy; cbn; eauto. unfold instance; eauto.
  - str_of a H "policySetId"%string. str_of a H "version"%string. str_of a H "policyCombiningAlgId"%string.
    str_of a H "description"%string.
    destruct (defaults_exists _ _ _ "policySetDefaults" H) as [x X]; [member|].
    destruct (maybe_exists _ (for_target h) _ _ _ "target" (TCls KTarget) H) as [t Tg];
      [member | intros; apply target_exists; assumption|].
    destruct (algorithm_exists _ _ _ "policyCombiningAlg" H) as [al Al]; [member|].
    destruct (attr_exists _ _ _ "policies" (DListOf TPolicyBase) H) as (v & G & l & items & -> & NL);
      [member | discriminate|].
    destruct (policies_exists items) as [ps P].
    { intros v I. pose proof (W _ _ NL) as FA; cbn in FA. rewrite Forall_forall in FA. specialize (FA v I).
      assert (exists b, v = PRef b) as [b ->] by (inversion FA; eauto).
      apply IH; [eapply part_item; eassumption | exact FA]. }
    exists (PPolicySet (mkMeta o o0 o1 o2 x) t al ps).
    eapply fp_policyset; cbn; eauto. unfold instance; eauto.
Qed.

Lemma attribute_exists : forall v, has_type h v (TCls KAttribute) -> exists x, for_attribute h v x.
Proof.
  intros v T. inv_type T H.
  str_of a H "attributeId"%string. str_of a H "dataType"%string. str_of a H "issuer"%string.
  destruct (listing_exists _ (for_value h) _ _ _ "attributeValues" TAttributeValue H) as [vs V];
    [member | intros; apply value_exists; assumption|].
  exists (mkAttribute o o0 o1 vs), a. unfold instance. repeat split; cbn; eauto.
Qed.
Lemma attributes_exists : forall a c attrs, nth_error h a = Some (PInst c attrs) ->
  In ("attributes"%string, DListOf (TCls KAttribute)) (documented_attributes c) ->
  exists xs, for_attributes h c (PRef a) xs.
Proof.
  intros a c attrs N I.
  destruct (listing_exists _ (for_attribute h) _ _ _ "attributes" (TCls KAttribute) N) as [vs V];
    [exact I | intros; apply attribute_exists; assumption|].
  exists vs, a. unfold instance; split; eauto.
Qed.

Lemma request_exists : forall a attrs, nth_error h a = Some (PInst KRequest attrs) ->
  exists r, for_request h (PRef a) r.
Proof.
  intros a attrs N.
  destruct (listing_exists _ (for_subject h) _ _ _ "subjects" (TCls KCtxSubject) N) as [ss S]; [member| |].
  { intros v l items Tv _ _ _. inversion Tv as [| | | | |a0 c0 attrs0 H| | | | | | | | | |]; subst.
    destruct (attributes_exists _ _ _ H) as [xs X]; [member|].
    destruct (string_exists _ _ _ "subjectCategory" H) as [c C]; [member|].
    exists (mkSubject c xs). split; [exact X | exists a0; auto]. }
  destruct (listing_exists _ (for_resource h) _ _ _ "resources" (TCls KCtxResource) N) as [rs R]; [member| |].
  { intros v l items Tv _ _ _. inversion Tv as [| | | | |a0 c0 attrs0 H| | | | | | | | | |]; subst.
    destruct (attributes_exists _ _ _ H) as [xs X]; [member|].
    destruct (attr_exists _ _ _ "resourceContent" (DOptional TAny) H) as (c & G & _); [member | discriminate|].
    exists (mkResource (match c with PXml x => Some x | _ => None end) xs).
    split; [exact X|]. exists a0; split; [reflexivity|]. exists c; split; [exact G|].
    destruct c; cbn; try reflexivity; discriminate. }
  destruct (maybe_exists _ (for_attributes h KCtxAction) _ _ _ "action" (TCls KCtxAction) N) as [ac AC];
    [member | intros v Tv _; inversion Tv; subst; eapply attributes_exists; [eassumption | member]|].
  destruct (maybe_exists _ (for_attributes h KCtxEnvironment) _ _ _ "environment" (TCls KCtxEnvironment) N) as [en EN];
    [member | intros v Tv _; inversion Tv; subst; eapply attributes_exists; [eassumption | member]|].
  destruct (maybe_exists _ (fun v n => v = PHandler n) _ _ _ "ctxHandler" THandler N) as [hd HD];
    [member | intros v Tv _; inversion Tv; subst; eauto|].
  destruct (maybe_exists _ (fun v n => v = PXPath n) _ _ _ "attributeSelector" TXPathSelector N) as [se SE];
    [member | intros v Tv _; inversion Tv; subst; eauto|].
  exists (mkRequest ss rs ac en hd se), a. unfold instance. repeat split; cbn; eauto.
Qed.
End Exists.


(** ** What an object stands for is determined *)

Section Unique.
Variable h : heap.

Lemma attr_unique : forall X (P : X -> pval -> Prop) a name x y,
  (forall v, P x v -> P y v -> x = y) ->
  attr_is h a name (P x) -> attr_is h a name (P y) -> x = y.
Proof. intros X P a name x y U (v & G & Pv) (w & G' & Pw). apply (U v); congruence. Qed.

Lemma maybe_unique : forall X (R : pval -> X -> Prop) o o' v,
  (forall x, ~ R (PNat NNone) x) -> (forall x y, R v x -> R v y -> x = y) ->
  maybe R o v -> maybe R o' v -> o = o'.
Proof.
  intros X R [x|] [y|] v N U; cbn; intros A B; subst; try reflexivity; try (exfalso; eapply N; eassumption).
  f_equal; auto.
Qed.

Lemma Forall2_unique : forall A B (R : A -> B -> Prop), (forall v x y, R v x -> R v y -> x = y) ->
  forall l xs ys, Forall2 R l xs -> Forall2 R l ys -> xs = ys.
Proof.
  intros A B R U l xs ys F. revert ys. induction F as [|v x l xs Rv F IH]; intros ys G; inversion G; subst;
    [reflexivity|]. f_equal; [eapply U; eassumption | apply IH; assumption].
Qed.

Lemma listing_unique : forall X (R : pval -> X -> Prop) xs ys v, (forall v x y, R v x -> R v y -> x = y) ->
  listing h (Forall2 R) xs v -> listing h (Forall2 R) ys v -> xs = ys.
Proof.
  intros X R xs ys v U (l & t & items & -> & N & F) (l' & t' & items' & E & N' & F').
  injection E as <-. rewrite N in N'. injection N' as <- <-. eapply Forall2_unique; eassumption.
Qed.

Lemma string_unique : forall v x y, for_string v x -> for_string v y -> x = y.
Proof. unfold for_string; congruence. Qed.
Lemma bool_unique : forall v x y, for_bool v x -> for_bool v y -> x = y.
Proof. unfold for_bool; congruence. Qed.
Lemma function_unique : forall v x y, for_function v x -> for_function v y -> x = y.
Proof. unfold for_function; congruence. Qed.
Lemma algorithm_unique : forall v x y, for_algorithm v x -> for_algorithm v y -> x = y.
Proof. unfold for_algorithm; congruence. Qed.
Lemma value_unique : forall v x y, for_value h v x -> for_value h v y -> x = y.
Proof. intros v x y (a & -> & N) (b & E & N'). congruence. Qed.
Lemma effect_unique : forall v x y, for_effect h v x -> for_effect h v y -> x = y.
Proof.
  intros v x y (a & -> & N) (b & E & N'). injection E as <-. rewrite N in N'.
  destruct x; destruct y; try reflexivity; discriminate N'.
Qed.

Lemma instance_unique : forall v c c' a a', instance h v c a -> instance h v c' a' -> c = c' /\ a = a'.
Proof.
  intros v c c' a a' (-> & attrs & N) (E & attrs' & N'). injection E as <-.
  rewrite N in N'. injection N' as <- _. auto.
Qed.

Lemma not_none_instance : forall c a, ~ instance h (PNat NNone) c a.
Proof. intros c a [E _]. discriminate E. Qed.

Lemma maybe_str_unique : forall a name o o', attr_is h a name (maybe for_string o) ->
  attr_is h a name (maybe for_string o') -> o = o'.
Proof.
  intros a name o o'. apply (attr_unique _ (maybe for_string)). intros v.
  apply maybe_unique; [intros x E; discriminate E | apply string_unique].
Qed.

Lemma maybe_attr_unique : forall X (R : pval -> X -> Prop) a name o o',
  (forall x, ~ R (PNat NNone) x) -> (forall v x y, R v x -> R v y -> x = y) ->
  attr_is h a name (maybe R o) -> attr_is h a name (maybe R o') -> o = o'.
Proof.
  intros X R a name o o' N U. apply (attr_unique _ (maybe R)). intros v. apply maybe_unique; [exact N | apply U].
Qed.
Lemma listing_attr_unique : forall X (R : pval -> X -> Prop) a name xs ys,
  (forall v x y, R v x -> R v y -> x = y) ->
  attr_is h a name (listing h (Forall2 R) xs) -> attr_is h a name (listing h (Forall2 R) ys) -> xs = ys.
Proof.
  intros X R a name xs ys U. apply (attr_unique _ (listing h (Forall2 R))). intros v. apply listing_unique; exact U.
Qed.

Lemma designator_unique : forall v x y, for_designator h v x -> for_designator h v y -> x = y.
Proof.
  intros v [k i d s m] [k' i' d' s' m'] (a & I & A1 & A2 & A3 & A4) (b & J & B1 & B2 & B3 & B4); cbn in *.
  destruct (instance_unique _ _ _ _ _ I J) as [E <-]. injection E as <-.
  f_equal; try (eapply maybe_str_unique; eassumption).
  apply (attr_unique _ (fun x v => for_bool v x) _ _ _ _ (fun v => bool_unique v _ _) A4 B4).
Qed.
Lemma selector_unique : forall v x y, for_selector h v x -> for_selector h v y -> x = y.
Proof.
  intros v [p d m] [p' d' m'] (a & I & A1 & A2 & A3) (b & J & B1 & B2 & B3); cbn in *.
  destruct (instance_unique _ _ _ _ _ I J) as [_ <-].
  f_equal; try (eapply maybe_str_unique; eassumption).
  eapply (maybe_attr_unique _ for_bool); [intros x E; discriminate E | apply bool_unique | exact A3 | exact B3].
Qed.

Scheme for_expr_ind2 := Induction for for_expr Sort Prop
  with for_exprs_ind2 := Induction for for_exprs Sort Prop.

Lemma designator_instance : forall v d, for_designator h v d -> exists a k, instance h v (KDesignator k) a.
Proof. intros v d (a & I & _); eauto. Qed.
Lemma selector_instance : forall v d, for_selector h v d -> exists a, instance h v KSelector a.
Proof. intros v d (a & I & _); eauto. Qed.

Lemma value_not_instance : forall v x c a, for_value h v x -> instance h v c a -> False.
Proof. intros v x c a (b & -> & N) (E & attrs & N'). congruence. Qed.

Ltac clash :=
  exfalso;
  repeat match goal with
         | H : for_designator h _ _ |- _ => apply designator_instance in H as (? & ? & ?)
         | H : for_selector h _ _ |- _ => apply selector_instance in H as (? & ?)
         end;
  match goal with
  | A : for_value h ?v _, B : instance h ?v _ _ |- _ => exact (value_not_instance _ _ _ _ A B)
  | A : instance h ?v _ _, B : instance h ?v _ _ |- _ =>
      destruct (instance_unique _ _ _ _ _ A B) as [Ex _]; discriminate Ex
  end.

Lemma expr_unique : forall v x, for_expr h v x -> forall y, for_expr h v y -> x = y.
Proof.
  refine (for_expr_ind2 h (fun v x _ => forall y, for_expr h v y -> x = y)
            (fun vs xs _ => forall ys, for_exprs h vs ys -> xs = ys) _ _ _ _ _ _).
  - intros v x F y G. inversion G; subst; try clash. f_equal; eapply value_unique; eassumption.
  - intros v x F y G. inversion G; subst; try clash. f_equal; eapply designator_unique; eassumption.
  - intros v x F y G. inversion G; subst; try clash. f_equal; eapply selector_unique; eassumption.
  - intros v a fid f l t items args I A1 A2 GE N _ IH y G. inversion G; subst; try clash.
    match goal with J : instance h v KApply _ |- _ => destruct (instance_unique _ _ _ _ _ I J) as [_ <-] end.
    f_equal.
    + eapply maybe_str_unique; eassumption.
    + eapply (maybe_attr_unique _ for_function); [intros x E; discriminate E | apply function_unique | exact A2 | eassumption].
    + apply IH. match goal with Q : get_attr h a "expressions" = Ok (PRef ?l') |- _ =>
        assert (l' = l) as -> by congruence end.
      match goal with Q : nth_error h l = Some (PTypedList ?t' ?i) |- for_exprs h ?j _ =>
        assert (i = items) as E by congruence end.
      rewrite <- E. congruence || assumption.
  - intros ys G. inversion G; reflexivity.
  - intros v x vs xs _ IH1 _ IH2 ys G. inversion G; subst. f_equal; auto.
Qed.

Ltac none_instance := intros x E; repeat (destruct E as [? E] || destruct E as (? & E)); discriminate.
Ltac by_str := eapply maybe_str_unique; eassumption.
Lemma none_value : forall x, ~ for_value h (PNat NNone) x.
Proof. intros x (a & E & _). discriminate E. Qed.
Lemma none_designator : forall x, ~ for_designator h (PNat NNone) x.
Proof. intros x (a & I & _). exact (not_none_instance _ _ I). Qed.
Lemma none_selector : forall x, ~ for_selector h (PNat NNone) x.
Proof. intros x (a & I & _). exact (not_none_instance _ _ I). Qed.
Lemma none_target : forall x, ~ for_target h (PNat NNone) x.
Proof. intros x (a & I & _). exact (not_none_instance _ _ I). Qed.
Lemma none_condition : forall x, ~ for_condition h (PNat NNone) x.
Proof. intros x (a & I & _). exact (not_none_instance _ _ I). Qed.
Lemma none_effect : forall x, ~ for_effect h (PNat NNone) x.
Proof. intros x (a & E & _). discriminate E. Qed.
Lemma none_attributes : forall c x, ~ for_attributes h c (PNat NNone) x.
Proof. intros c x (a & I & _). exact (not_none_instance _ _ I). Qed.
Lemma none_expr : forall x, ~ for_expr h (PNat NNone) x.
Proof.
  intros x E. inversion E; subst.
  - eapply none_value; eassumption.
  - eapply none_designator; eassumption.
  - eapply none_selector; eassumption.
  - eapply not_none_instance; eassumption.
Qed.

Lemma match_unique : forall k v x y, for_match h k v x -> for_match h k v y -> x = y.
Proof.
  intros k v [i f w d s] [i' f' w' d' s'] (a & I & A1 & A2 & A3 & A4 & A5) (b & J & B1 & B2 & B3 & B4 & B5); cbn in *.
  destruct (instance_unique _ _ _ _ _ I J) as [_ <-]. f_equal.
  - by_str.
  - eapply (maybe_attr_unique _ for_function); [intros x E; discriminate E | apply function_unique | exact A2 | exact B2].
  - eapply maybe_attr_unique; [apply none_value | apply value_unique | exact A3 | exact B3].
  - eapply maybe_attr_unique; [apply none_designator | apply designator_unique | exact A4 | exact B4].
  - eapply maybe_attr_unique; [apply none_selector | apply selector_unique | exact A5 | exact B5].
Qed.
Lemma child_unique : forall k v x y, for_child h k v x -> for_child h k v y -> x = y.
Proof.
  intros k v x y (a & I & A) (b & J & B). destruct (instance_unique _ _ _ _ _ I J) as [_ <-].
  eapply listing_attr_unique; [apply match_unique | exact A | exact B].
Qed.
Lemma target_unique : forall v x y, for_target h v x -> for_target h v y -> x = y.
Proof.
  intros v [s r c e] [s' r' c' e'] (a & I & A1 & A2 & A3 & A4) (b & J & B1 & B2 & B3 & B4); cbn in *.
  destruct (instance_unique _ _ _ _ _ I J) as [_ <-].
  f_equal; (eapply listing_attr_unique; [apply child_unique | eassumption | eassumption]).
Qed.
Lemma condition_unique : forall v x y, for_condition h v x -> for_condition h v y -> x = y.
Proof.
  intros v x y (a & I & A) (b & J & B). destruct (instance_unique _ _ _ _ _ I J) as [_ <-].
  eapply maybe_attr_unique; [apply none_expr | intros; eapply expr_unique; eassumption | exact A | exact B].
Qed.
Lemma rule_unique : forall v x y, for_rule h v x -> for_rule h v y -> x = y.
Proof.
  intros v [i e t c d] [i' e' t' c' d'] (a & I & A1 & A2 & A3 & A4 & A5) (b & J & B1 & B2 & B3 & B4 & B5); cbn in *.
  destruct (instance_unique _ _ _ _ _ I J) as [_ <-]. f_equal.
  - by_str.
  - eapply maybe_attr_unique; [apply none_effect | apply effect_unique | exact A2 | exact B2].
  - eapply maybe_attr_unique; [apply none_target | apply target_unique | exact A3 | exact B3].
  - eapply maybe_attr_unique; [apply none_condition | apply condition_unique | exact A4 | exact B4].
  - destruct d; destruct d'; congruence.
Qed.
Lemma defaults_unique : forall x y v, for_defaults h x v -> for_defaults h y v -> x = y.
Proof.
  intros x y v [[-> ->]|(a & I & A)] [[E ->]|(b & J & B)]; try reflexivity.
  - exfalso; exact (not_none_instance _ _ J).
  - subst v. exfalso; exact (not_none_instance _ _ I).
  - destruct (instance_unique _ _ _ _ _ I J) as [_ <-]. by_str.
Qed.

Scheme for_policy_ind2 := Induction for for_policy Sort Prop
  with for_policies_ind2 := Induction for for_policies Sort Prop.

Lemma policy_unique : forall v x, for_policy h v x -> forall y, for_policy h v y -> x = y.
Proof.
  refine (for_policy_ind2 h (fun v x _ => forall y, for_policy h v y -> x = y)
            (fun vs xs _ => forall ys, for_policies h vs ys -> xs = ys) _ _ _ _).
  - intros v a [m1 m2 m3 m4 m5] t alg rs I A1 A2 A3 A4 A5 A6 A7 A8 y G.
    inversion G as [v' b [n1 n2 n3 n4 n5] t' alg' rs' J B1 B2 B3 B4 B5 B6 B7 B8|
                    v' b [n1 n2 n3 n4 n5] t' alg' l ty items ch J]; subst; cbn in *;
      [|clash].
    destruct (instance_unique _ _ _ _ _ I J) as [_ <-]. f_equal.
    + f_equal; try by_str. exact (attr_unique _ (for_defaults h) _ _ _ _ (defaults_unique _ _) A5 B5).
    + eapply maybe_attr_unique; [apply none_target | apply target_unique | exact A6 | exact B6].
    + eapply (maybe_attr_unique _ for_algorithm); [intros x E; discriminate E | apply algorithm_unique | exact A7 | exact B7].
    + eapply listing_attr_unique; [apply rule_unique | exact A8 | exact B8].
  - intros v a [m1 m2 m3 m4 m5] t alg l ty items ch I A1 A2 A3 A4 A5 A6 A7 A8 A9 _ IH y G.
    inversion G as [v' b [n1 n2 n3 n4 n5] t' alg' rs' J|
                    v' b [n1 n2 n3 n4 n5] t' alg' l' ty' items' ch' J B1 B2 B3 B4 B5 B6 B7 B8 B9 B10]; subst; cbn in *;
      [clash|].
    destruct (instance_unique _ _ _ _ _ I J) as [_ <-]. f_equal.
    + f_equal; try by_str. exact (attr_unique _ (for_defaults h) _ _ _ _ (defaults_unique _ _) A5 B5).
    + eapply maybe_attr_unique; [apply none_target | apply target_unique | exact A6 | exact B6].
    + eapply (maybe_attr_unique _ for_algorithm); [intros x E; discriminate E | apply algorithm_unique | exact A7 | exact B7].
    + apply IH. rewrite A8 in B8. injection B8 as <-. rewrite A9 in B9. injection B9 as <- <-. exact B10.
  - intros ys G. inversion G; reflexivity.
  - intros v x vs xs _ IH1 _ IH2 ys G. inversion G; subst. f_equal; auto.
Qed.

Lemma attribute_unique : forall v x y, for_attribute h v x -> for_attribute h v y -> x = y.
Proof.
  intros v [i d s vs] [i' d' s' vs'] (a & I & A1 & A2 & A3 & A4) (b & J & B1 & B2 & B3 & B4); cbn in *.
  destruct (instance_unique _ _ _ _ _ I J) as [_ <-]. f_equal; try by_str.
  eapply listing_attr_unique; [apply value_unique | exact A4 | exact B4].
Qed.
Lemma attributes_unique : forall c v x y, for_attributes h c v x -> for_attributes h c v y -> x = y.
Proof.
  intros c v x y (a & I & A) (b & J & B). destruct (instance_unique _ _ _ _ _ I J) as [_ <-].
  eapply listing_attr_unique; [apply attribute_unique | exact A | exact B].
Qed.
Lemma subject_unique : forall v x y, for_subject h v x -> for_subject h v y -> x = y.
Proof.
  intros v [c xs] [c' xs'] (A & a & -> & A') (B & b & E & B'); cbn in *. injection E as <-.
  f_equal; [by_str | eapply attributes_unique; eassumption].
Qed.
Lemma resource_unique : forall v x y, for_resource h v x -> for_resource h v y -> x = y.
Proof.
  intros v [c xs] [c' xs'] (A & a & -> & w & G & A') (B & b & E & w' & G' & B'); cbn in *. injection E as <-.
  f_equal; [|eapply attributes_unique; eassumption].
  assert (w' = w) as -> by congruence.
  destruct c as [x|]; destruct c' as [x'|]; try reflexivity; try congruence; exfalso;
    first [exact (B' _ A') | exact (A' _ B')].
Qed.
Lemma request_unique : forall v x y, for_request h v x -> for_request h v y -> x = y.
Proof.
  intros v [s r c e hd se] [s' r' c' e' hd' se'] (a & I & A1 & A2 & A3 & A4 & A5 & A6)
    (b & J & B1 & B2 & B3 & B4 & B5 & B6); cbn in *.
  destruct (instance_unique _ _ _ _ _ I J) as [_ <-]. f_equal.
  - eapply listing_attr_unique; [apply subject_unique | exact A1 | exact B1].
  - eapply listing_attr_unique; [apply resource_unique | exact A2 | exact B2].
  - eapply maybe_attr_unique; [apply none_attributes | apply attributes_unique | exact A3 | exact B3].
  - eapply maybe_attr_unique; [apply none_attributes | apply attributes_unique | exact A4 | exact B4].
  - eapply (maybe_attr_unique _ (fun v n => v = PHandler n)); [intros x E; discriminate E | congruence | exact A5 | exact B5].
  - eapply (maybe_attr_unique _ (fun v n => v = PXPath n)); [intros x E; discriminate E | congruence | exact A6 | exact B6].
Qed.
End Unique.

(** ** What an object stands for depends on the objects it reaches only *)

Section Local.
Variables h h' : heap.

(** The two heaps have the same objects at all addresses reached from [v]. *)
Definition agree (v : pval) : Prop :=
  forall a b, v = PRef a -> reaches h a b -> nth_error h' b = nth_error h b.

Lemma agree_self : forall a, agree (PRef a) -> nth_error h' a = nth_error h a.
Proof. intros a A. apply (A a a eq_refl). apply rt_refl. Qed.
Lemma agree_get : forall a name, agree (PRef a) -> get_attr h' a name = get_attr h a name.
Proof. intros a name A. unfold get_attr. rewrite (agree_self a A). reflexivity. Qed.
Lemma agree_attr : forall a name v, agree (PRef a) -> get_attr h a name = Ok v -> agree v.
Proof.
  intros a name v A G b c -> R. apply (A a c eq_refl). eapply rt_trans; [|exact R].
  apply rt_step. eapply refers_attribute; exact G.
Qed.
Lemma agree_item : forall a t items v, agree (PRef a) -> nth_error h a = Some (PTypedList t items) ->
  In v items -> agree v.
Proof.
  intros a t items v A N I b c -> R. apply (A a c eq_refl). eapply rt_trans; [|exact R].
  apply rt_step. eapply refers_item; eassumption.
Qed.

Lemma attr_local : forall a name (P P' : pval -> Prop), agree (PRef a) ->
  (forall v, agree v -> P v -> P' v) -> attr_is h a name P -> attr_is h' a name P'.
Proof.
  intros a name P P' A K (v & G & Pv). exists v; split; [rewrite agree_get; assumption|].
  apply K; [eapply agree_attr; eassumption | exact Pv].
Qed.
Lemma maybe_local : forall X (R R' : pval -> X -> Prop) o v, (forall x, R v x -> R' v x) ->
  maybe R o v -> maybe R' o v.
Proof. intros X R R' [x|] v K; cbn; auto. Qed.
Lemma listing_local : forall X (R R' : pval -> X -> Prop) xs v, agree v ->
  (forall v x, agree v -> R v x -> R' v x) -> listing h (Forall2 R) xs v -> listing h' (Forall2 R') xs v.
Proof.
  intros X R R' xs v A K (l & t & items & -> & N & F). exists l, t, items. split; [reflexivity|].
  split; [rewrite agree_self; assumption|].
  assert (B : forall v, In v items -> agree v) by (intros v I; eapply agree_item; eassumption).
  clear N A. induction F as [|v x vs ys Rv F IH]; constructor.
  - apply K; [apply B; left; reflexivity | exact Rv].
  - apply IH. intros w I; apply B; right; exact I.
Qed.
Lemma instance_local : forall v c a, agree v -> instance h v c a -> instance h' v c a.
Proof. intros v c a A (-> & attrs & N). split; [reflexivity|]. exists attrs. rewrite agree_self; assumption. Qed.
Lemma instance_agree : forall v c a, agree v -> instance h v c a -> agree (PRef a).
Proof. intros v c a A (-> & _). exact A. Qed.

Ltac loc := eapply attr_local; [eassumption | | eassumption]; intros ? ? ?; try eassumption.

Lemma value_local : forall v x, agree v -> for_value h v x -> for_value h' v x.
Proof. intros v x A (a & -> & N). exists a; split; [reflexivity | rewrite agree_self; assumption]. Qed.
Lemma effect_local : forall v x, agree v -> for_effect h v x -> for_effect h' v x.
Proof. intros v x A (a & -> & N). exists a; split; [reflexivity | rewrite agree_self; assumption]. Qed.
Lemma designator_local : forall v x, agree v -> for_designator h v x -> for_designator h' v x.
Proof.
  intros v x A (a & I & A1 & A2 & A3 & A4). pose proof (instance_agree _ _ _ A I).
  exists a. split; [eapply instance_local; eassumption|]. repeat split; loc.
Qed.
Lemma selector_local : forall v x, agree v -> for_selector h v x -> for_selector h' v x.
Proof.
  intros v x A (a & I & A1 & A2 & A3). pose proof (instance_agree _ _ _ A I).
  exists a. split; [eapply instance_local; eassumption|]. repeat split; loc.
Qed.

Lemma expr_local : forall v x, for_expr h v x -> agree v -> for_expr h' v x.
Proof.
  refine (for_expr_ind2 h (fun v x _ => agree v -> for_expr h' v x)
            (fun vs xs _ => (forall v, In v vs -> agree v) -> for_exprs h' vs xs) _ _ _ _ _ _).
  - intros v x F A. constructor. apply value_local; assumption.
  - intros v x F A. constructor. apply designator_local; assumption.
  - intros v x F A. constructor. apply selector_local; assumption.
  - intros v a fid f l t items args I A1 A2 G N _ IH A. pose proof (instance_agree _ _ _ A I) as B.
    pose proof (agree_attr _ _ _ B G) as AL.
    eapply fe_apply with (a := a) (l := l) (t := t) (items := items).
    + eapply instance_local; eassumption.
    + loc.
    + loc.
    + rewrite agree_get; assumption.
    + rewrite agree_self; assumption.
    + apply IH. intros w Iw. eapply agree_item; eassumption.
  - intros _. constructor.
  - intros v x vs xs _ IH1 _ IH2 A. constructor; [apply IH1, A; left; reflexivity|].
    apply IH2. intros w I; apply A; right; exact I.
Qed.

Lemma match_local : forall k v x, agree v -> for_match h k v x -> for_match h' k v x.
Proof.
  intros k v x A (a & I & A1 & A2 & A3 & A4 & A5). pose proof (instance_agree _ _ _ A I).
  exists a. split; [eapply instance_local; eassumption|]. repeat split; loc.
  - eapply maybe_local; [|eassumption]. intros y; apply value_local; assumption.
  - eapply maybe_local; [|eassumption]. intros y; apply designator_local; assumption.
  - eapply maybe_local; [|eassumption]. intros y; apply selector_local; assumption.
Qed.
Lemma child_local : forall k v x, agree v -> for_child h k v x -> for_child h' k v x.
Proof.
  intros k v x A (a & I & A1). pose proof (instance_agree _ _ _ A I).
  exists a. split; [eapply instance_local; eassumption|]. loc.
  eapply listing_local; [eassumption | apply match_local | eassumption].
Qed.
Lemma target_local : forall v x, agree v -> for_target h v x -> for_target h' v x.
Proof.
  intros v x A (a & I & A1 & A2 & A3 & A4). pose proof (instance_agree _ _ _ A I).
  exists a. split; [eapply instance_local; eassumption|]. repeat split; loc;
    (eapply listing_local; [eassumption | apply child_local | eassumption]).
Qed.
Lemma condition_local : forall v x, agree v -> for_condition h v x -> for_condition h' v x.
Proof.
  intros v x A (a & I & A1). pose proof (instance_agree _ _ _ A I).
  exists a. split; [eapply instance_local; eassumption|]. loc.
  eapply maybe_local; [|eassumption]. intros y F; apply expr_local; assumption.
Qed.
Lemma rule_local : forall v x, agree v -> for_rule h v x -> for_rule h' v x.
Proof.
  intros v x A (a & I & A1 & A2 & A3 & A4 & A5). pose proof (instance_agree _ _ _ A I).
  exists a. split; [eapply instance_local; eassumption|].
  split; [loc|]. split; [loc; eapply maybe_local; [|eassumption]; intros y; apply effect_local; assumption|].
  split; [loc; eapply maybe_local; [|eassumption]; intros y; apply target_local; assumption|].
  split; [loc; eapply maybe_local; [|eassumption]; intros y; apply condition_local; assumption|].
  rewrite agree_get; assumption.
Qed.
Lemma defaults_local : forall x v, agree v -> for_defaults h x v -> for_defaults h' x v.
Proof.
  intros x v A [[-> ->]|(a & I & A1)]; [left; auto|]. right. pose proof (instance_agree _ _ _ A I).
  exists a. split; [eapply instance_local; eassumption | loc].
Qed.

Lemma policy_local : forall v x, for_policy h v x -> agree v -> for_policy h' v x.
Proof.
  refine (for_policy_ind2 h (fun v x _ => agree v -> for_policy h' v x)
            (fun vs xs _ => (forall v, In v vs -> agree v) -> for_policies h' vs xs) _ _ _ _).
  - intros v a m t alg rs I A1 A2 A3 A4 A5 A6 A7 A8 A. pose proof (instance_agree _ _ _ A I) as B.
    eapply fp_policy with (a := a); [eapply instance_local; eassumption | loc | loc | loc | loc | | | loc |].
    + loc. apply defaults_local; assumption.
    + loc. eapply maybe_local; [|eassumption]; intros y; apply target_local; assumption.
    + loc. eapply listing_local; [eassumption | apply rule_local | eassumption].
  - intros v a m t alg l ty items ch I A1 A2 A3 A4 A5 A6 A7 A8 A9 _ IH A.
    pose proof (instance_agree _ _ _ A I) as B. pose proof (agree_attr _ _ _ B A8) as AL.
    eapply fp_policyset with (a := a) (l := l) (ty := ty) (items := items);
      [eapply instance_local; eassumption | loc | loc | loc | loc | | | loc | | |].
    + loc. apply defaults_local; assumption.
    + loc. eapply maybe_local; [|eassumption]; intros y; apply target_local; assumption.
    + rewrite agree_get; assumption.
    + rewrite agree_self; assumption.
    + apply IH. intros w Iw. eapply agree_item; eassumption.
  - intros _. constructor.
  - intros v x vs xs _ IH1 _ IH2 A. constructor; [apply IH1, A; left; reflexivity|].
    apply IH2. intros w I; apply A; right; exact I.
Qed.

Lemma attribute_local : forall v x, agree v -> for_attribute h v x -> for_attribute h' v x.
Proof.
  intros v x A (a & I & A1 & A2 & A3 & A4). pose proof (instance_agree _ _ _ A I).
  exists a. split; [eapply instance_local; eassumption|]. repeat split; loc.
  eapply listing_local; [eassumption | apply value_local | eassumption].
Qed.
Lemma attributes_local : forall c v x, agree v -> for_attributes h c v x -> for_attributes h' c v x.
Proof.
  intros c v x A (a & I & A1). pose proof (instance_agree _ _ _ A I).
  exists a. split; [eapply instance_local; eassumption|]. loc.
  eapply listing_local; [eassumption | apply attribute_local | eassumption].
Qed.
Lemma request_local : forall v x, agree v -> for_request h v x -> for_request h' v x.
Proof.
  intros v x A (a & I & A1 & A2 & A3 & A4 & A5 & A6). pose proof (instance_agree _ _ _ A I).
  exists a. split; [eapply instance_local; eassumption|]. repeat split; loc.
  - eapply listing_local; [eassumption | | eassumption].
    intros w y Aw (F & b & -> & G). split; [apply attributes_local; assumption|].
    exists b; split; [reflexivity | loc].
  - eapply listing_local; [eassumption | | eassumption].
    intros w y Aw (F & b & -> & G). split; [apply attributes_local; assumption|].
    exists b; split; [reflexivity | loc].
  - eapply maybe_local; [|eassumption]. intros y; apply attributes_local; assumption.
  - eapply maybe_local; [|eassumption]. intros y; apply attributes_local; assumption.
Qed.
End Local.
