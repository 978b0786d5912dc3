(** Lemmas for C43 to C45 and C47. *)
From Verif Require Import Readers SpecText SpecSetters SpecRead.
From Verif Require Import EvalFacts StringFacts SettersFacts TextFacts.

(** ** Names *)
Lemma suffix_iff : forall t s, suffix t s = true <-> exists a, s = (a ++ t)%string.
Proof.
  intros t s. induction s as [|c s IH]; cbn [suffix]; rewrite Bool.orb_true_iff, String.eqb_eq.
  - split; [intros [H|H]; [exists ""; exact H|discriminate H]|].
    intros ([|d a] & H); [left; exact H|discriminate H].
  - rewrite IH. split.
    + intros [H|(a & H)]; [exists ""; exact H|]. exists (String c a). rewrite H. reflexivity.
    + intros ([|d a] & H); [left; exact H|]. injection H as -> H. right. exists a. exact H.
Qed.

Definition ln (n : node) : string :=
  match n with Elem tag _ _ _ => get_local_part tag | Comment _ => "" end.
Definition is_elem (n : node) : Prop := match n with Elem _ _ _ _ => True | Comment _ => False end.

Lemma called_ln : forall name n, has_char close_brace name = false -> is_elem n ->
  called name n = String.eqb (ln n) name.
Proof.
  intros name [tag a t k|t] Hn He; [|destruct He]. cbn [called ln].
  destruct (String.eqb (get_local_part tag) name) eqn:E.
  - apply String.eqb_eq in E. apply local_iff in E. destruct E as [_ [->|(b & ->)]].
    + rewrite String.eqb_refl. reflexivity.
    + apply Bool.orb_true_iff. right. apply suffix_iff. exists b. reflexivity.
  - apply Bool.not_true_iff_false. intros H. apply Bool.orb_true_iff in H.
    assert (get_local_part tag = name) as H'.
    { apply local_iff. split; [exact Hn|]. destruct H as [H|H].
      - left. apply String.eqb_eq, H.
      - right. apply suffix_iff in H. exact H. }
    rewrite H', String.eqb_refl in E. discriminate E.
Qed.

Lemma called_elem : forall name n, called name n = true -> is_elem n.
Proof. intros name [tag a t k|t] H; [exact I|discriminate H]. Qed.

Lemma local_ln : forall n, is_elem n -> local_name n = Ok (ln n).
Proof. intros [tag a t k|t] H; [reflexivity|destruct H]. Qed.

Lemma elements_elems : forall n, elements (el_kids n) = elems n.
Proof. intros [tag a t k|t]; reflexivity. Qed.

Lemma elems_is : forall n k, In k (elems n) -> is_elem k.
Proof.
  intros [tag a t ks|t] k H; [|destruct H]. cbn [elems] in H. apply filter_In in H.
  destruct H as [_ H]. destruct k; [exact I|discriminate H].
Qed.

Lemma expect_ok : forall name n, has_char close_brace name = false ->
  forall u, expect name n = Ok u <-> called name n = true.
Proof.
  intros name n Hn []. unfold expect. destruct n as [tag a t k|t].
  - rewrite (called_ln name (Elem tag a t k) Hn I). cbn [local_name bind ln].
    destruct (String.eqb (get_local_part tag) name); split; congruence.
  - split; intros H; discriminate H.
Qed.

Lemma required_ok : forall n attr v, required n attr = Ok v <-> xml_attr attr n = Some v.
Proof.
  intros n attr v. unfold required.
  replace (dict_get attr (el_attrs n)) with (xml_attr attr n) by (destruct n; reflexivity).
  destruct (xml_attr attr n); split; congruence.
Qed.

Lemma attrs_get : forall n attr, dict_get attr (el_attrs n) = xml_attr attr n.
Proof. intros [tag a t k|t] attr; reflexivity. Qed.

Lemma text_get : forall n, is_elem n -> el_text n = xml_text n.
Proof. intros [tag a t k|t] H; [reflexivity|destruct H]. Qed.

(** ** foldM *)
Lemma foldM_snoc : forall A B (f : A -> B -> res A) l x a,
  foldM f (l ++ [x]) a = let* b := foldM f l a in f b x.
Proof.
  intros A B f l x. induction l as [|y l IH]; intros a.
  - cbn [app foldM bind]. destruct (f a x); reflexivity.
  - cbn [app foldM]. destruct (f a y) as [b|e]; [apply IH|reflexivity].
Qed.

Lemma foldM_app : forall A B (f : A -> B -> res A) l1 l2 a,
  foldM f (l1 ++ l2) a = let* b := foldM f l1 a in foldM f l2 b.
Proof.
  intros A B f l1 l2. induction l1 as [|y l IH]; intros a; [reflexivity|].
  cbn [app foldM]. destruct (f a y) as [b|e]; [apply IH|reflexivity].
Qed.

(** Appending what each element means. *)
Lemma foldM_collect : forall A B (g : B -> res A) l acc r,
  foldM (fun acc x => let* y := g x in Ok (acc ++ [y])) l acc = Ok r <->
  exists ys, r = acc ++ ys /\ Forall2 (fun x y => g x = Ok y) l ys.
Proof.
  intros A B g l. induction l as [|x l IH]; intros acc r; cbn [foldM].
  - split.
    + intros [= <-]. exists []. split; [rewrite app_nil_r; reflexivity|constructor].
    + intros (ys & -> & H). inversion H. rewrite app_nil_r. reflexivity.
  - destruct (g x) as [y|e] eqn:E; cbn [bind].
    + rewrite IH. split.
      * intros (ys & -> & H). exists (y :: ys). split; [rewrite <- app_assoc; reflexivity|].
        constructor; assumption.
      * intros (ys & -> & H). inversion H as [|? y' ? ys' Hy H']; subst. exists ys'.
        assert (y' = y) by congruence. subst. split; [rewrite <- app_assoc; reflexivity|exact H'].
    + split; [discriminate|]. intros (ys & _ & H). inversion H; congruence.
Qed.

Lemma Forall2_iff : forall A B (P Q : A -> B -> Prop) l l',
  (forall x y, In x l -> (P x y <-> Q x y)) -> (Forall2 P l l' <-> Forall2 Q l l').
Proof.
  intros A B P Q l l' H. split; intros F; induction F as [|x y l l' Hxy F IH]; constructor;
    try (apply H; [left; reflexivity|exact Hxy]);
    apply IH; intros x' y' Hi; apply H; right; exact Hi.
Qed.

(** ** last_one *)
Lemma last_one_nil : forall A (R : node -> A -> Prop) o, last_one R [] o <-> o = None.
Proof.
  intros A R o. split; [intros [_ H]; exact H|]. intros ->. split; [intros k []|reflexivity].
Qed.

Lemma last_one_snoc : forall A (R : node -> A -> Prop) l x o,
  last_one R (l ++ [x]) o <->
  (exists o', last_one R l o') /\ exists a, o = Some a /\ R x a.
Proof.
  intros A R l x o. unfold last_one at 1. rewrite rev_app_distr. cbn [rev app]. split.
  - intros [H1 H2]. split; [|exact H2].
    assert (forall k, In k l -> exists a, R k a) as H by (intros k Hk; apply H1, in_or_app; left; exact Hk).
    unfold last_one. destruct (rev l) as [|y r] eqn:E.
    + exists None. split; [exact H|reflexivity].
    + destruct (H y) as [a Ha]; [apply in_rev; rewrite E; left; reflexivity|].
      exists (Some a). split; [exact H|]. exists a. split; [reflexivity|exact Ha].
  - intros [(o' & [H _]) H2]. split; [|exact H2]. intros k Hk. apply in_app_or in Hk.
    destruct Hk as [Hk|[<-|[]]]; [apply H, Hk|]. destruct H2 as (a & _ & Ha). exists a. exact Ha.
Qed.

Lemma last_one_iff : forall A (P Q : node -> A -> Prop) l o,
  (forall n a, In n l -> (P n a <-> Q n a)) -> (last_one P l o <-> last_one Q l o).
Proof.
  intros A P Q l o H. unfold last_one.
  assert (forall k, In k (rev l) -> In k l) as Hr by (intros k Hk; apply in_rev; exact Hk).
  destruct (rev l) as [|k r].
  - split; (intros [H1 H2]; split; [|exact H2]; intros x Hx; destruct (H1 x Hx) as [a Ha]; exists a;
      apply H; assumption).
  - split; (intros [H1 (a & H2 & H3)]; split;
      [intros x Hx; destruct (H1 x Hx) as [b Hb]; exists b; apply H; assumption|
       exists a; split; [exact H2|apply H; [apply Hr; left; reflexivity|exact H3]]]).
Qed.

Lemma filter_snoc : forall A (f : A -> bool) l x,
  filter f (l ++ [x]) = if f x then filter f l ++ [x] else filter f l.
Proof.
  intros A f l x. rewrite filter_app. cbn [filter]. destruct (f x); [reflexivity|apply app_nil_r].
Qed.

(** ** Values, designators, selectors *)
Section Env.
Variable E : renv.
Hypothesis HE : default_readers E.

Lemma read_value_iff : forall n v, read_value E n = Ok v <-> value_doc E n v.
Proof.
  intros n v. unfold read_value, value_doc. rewrite bind_ok. split.
  - intros (u & Hu & H). apply expect_ok in Hu; [|reflexivity]. split; [exact Hu|].
    apply bind_ok in H. destruct H as (dt & Hdt & H). apply required_ok in Hdt.
    destruct (dict_get dt (re_cm E)) as [c|] eqn:Hc; [|discriminate H].
    destruct (dict_get dt (re_readers E)) as [rd|] eqn:Hr; [|discriminate H].
    rewrite (HE dt rd Hr) in H. unfold default_dtreader in H. rewrite text_get in H by exact (called_elem _ _ Hu).
    destruct (xml_text n) as [s|] eqn:Ht; [|discriminate H].
    unfold av_set_value in H. cbn [av_class av_dataType] in H.
    exists dt, c, s. split; [exact Hdt|]. unfold string_type. rewrite Hc, Hr.
    destruct (ac_type c) eqn:Ety; try discriminate H.
    cbn [native_isinstance bind] in H. injection H as <-.
    split; [split; [reflexivity|split; [reflexivity|discriminate]]|]. split; reflexivity.
  - intros (Hu & dt & c & s & Hdt & (Hc & Ety & Hr) & Ht & ->). exists tt.
    split; [apply expect_ok; [reflexivity|exact Hu]|].
    apply bind_ok. exists dt. split; [apply required_ok, Hdt|]. rewrite Hc.
    destruct (dict_get dt (re_readers E)) as [rd|] eqn:Hrd; [|congruence].
    rewrite (HE dt rd Hrd). unfold default_dtreader. rewrite text_get by exact (called_elem _ _ Hu).
    rewrite Ht. unfold av_set_value. cbn [av_class av_dataType]. rewrite Ety. reflexivity.
Qed.

Lemma designator_name_tag : forall k, designator_name k = designator_tag k.
Proof. intros []; reflexivity. Qed.

Lemma read_designator_iff : forall k n d, k <> DEnvironment ->
  (read_designator k n = Ok d <-> designator_doc n d /\ dg_kind d = k).
Proof.
  intros k n d Hk. unfold read_designator, designator_doc. rewrite bind_ok, designator_name_tag.
  assert (has_char close_brace (designator_tag k) = false) as Hb by (destruct k; reflexivity).
  rewrite !attrs_get. split.
  - intros (u & Hu & H). apply expect_ok in Hu; [|exact Hb].
    apply bind_ok in H. destruct H as (dt & Hdt & H). apply required_ok in Hdt.
    apply bind_ok in H. destruct H as (id & Hid & H). apply required_ok in Hid.
    injection H as <-. cbn [dg_kind dg_id dg_dataType dg_issuer dg_mustBePresent].
    rewrite Hdt, Hid.
    split; [|reflexivity]. split; [exact Hu|]. split; [exact Hk|].
    split; [reflexivity|]. split; [discriminate|]. split; [reflexivity|]. split; [discriminate|].
    split; reflexivity.
  - destruct d as [k' id dt iss mbp]. cbn [dg_kind dg_id dg_dataType dg_issuer dg_mustBePresent].
    intros [(Hu & _ & Hdt & Hdt' & Hid & Hid' & Hi & Hm) ->]. exists tt.
    split; [apply expect_ok; assumption|].
    destruct dt as [dt|]; [|congruence]. destruct id as [id|]; [|congruence].
    apply bind_ok. exists dt. split; [apply required_ok; symmetry; exact Hdt|].
    apply bind_ok. exists id. split; [apply required_ok; symmetry; exact Hid|].
    rewrite Hi, Hm. reflexivity.
Qed.

Lemma read_selector_iff : forall n s, read_selector n = Ok s <-> selector_doc n s.
Proof.
  intros n s. unfold read_selector, selector_doc. rewrite bind_ok. rewrite attrs_get. split.
  - intros (u & Hu & H). apply expect_ok in Hu; [|reflexivity].
    apply bind_ok in H. destruct H as (dt & Hdt & H). apply required_ok in Hdt.
    apply bind_ok in H. destruct H as (u' & _ & H).
    apply bind_ok in H. destruct H as (p & Hp & H). apply required_ok in Hp.
    injection H as <-. cbn [sl_path sl_dataType sl_mustBePresent]. rewrite Hdt, Hp.
    split; [exact Hu|]. split; [reflexivity|]. split; [discriminate|]. split; [reflexivity|].
    split; [discriminate|]. destruct (xml_attr "MustBePresent" n); reflexivity.
  - destruct s as [p dt m]. cbn [sl_path sl_dataType sl_mustBePresent].
    intros (Hu & Hdt & Hdt' & Hp & Hp' & Hm). exists tt.
    split; [apply expect_ok; [reflexivity|exact Hu]|].
    destruct dt as [dt|]; [|congruence]. destruct p as [p|]; [|congruence].
    apply bind_ok. exists dt. split; [apply required_ok; symmetry; exact Hdt|].
    apply bind_ok. exists tt. split; [apply expect_ok; [reflexivity|exact Hu]|].
    apply bind_ok. exists p. split; [apply required_ok; symmetry; exact Hp|].
    rewrite Hm. destruct (xml_attr "MustBePresent" n); reflexivity.
Qed.

Lemma load_fn_iff : forall id f, load_fn E id = Ok f <-> implements E id f.
Proof.
  intros id f. unfold load_fn, implements.
  destruct (fst (fm_get (re_cm E) id (re_fmap E))) as [[[g|e|]|]|e]; split; congruence.
Qed.

(** ** Expressions *)
Definition read_expr (k : node) : res expr :=
  let l := ln k in
  if String.eqb l "Apply" then read_apply E k
  else if String.eqb l "AttributeValue" then
    let* v := read_value E k in Ok (XValue v)
  else if String.eqb l "SubjectAttributeDesignator" then
    let* d := read_designator DSubject k in Ok (XDesignator d)
  else if String.eqb l "ResourceAttributeDesignator" then
    let* d := read_designator DResource k in Ok (XDesignator d)
  else if String.eqb l "EnvironmentAttributeDesignator" then
    Raise EImportError
  else if String.eqb l "ActionAttributeDesignator" then
    let* d := read_designator DAction k in Ok (XDesignator d)
  else if String.eqb l "AttributeSelector" then
    let* s := read_selector k in Ok (XSelector s)
  else if String.eqb l "Condition" then
    let* _ := read_condition E k in Raise ETypeError
  else if String.eqb l "Function" then Raise ENotImplementedError
  else if String.eqb l "VariableReference" then Raise ENotImplementedError
  else Raise EXMLParseError.

Lemma read_apply_eq : forall n, is_elem n ->
  read_apply E n =
  if negb (String.eqb (ln n) "Apply") then Raise EXMLParseError
  else match xml_attr "FunctionId" n with
       | None => Raise EXMLParseError
       | Some id =>
           let* f := load_fn E id in
           let* args := mapM read_expr (elems n) in
           Ok (XApply (Some id) (Some f) args)
       end.
Proof.
  intros [tag attrs text kids|t] H; [|destruct H]. cbn [ln xml_attr elems read_apply].
  destruct (negb (String.eqb (get_local_part tag) "Apply")); [reflexivity|].
  destruct (dict_get "FunctionId" attrs) as [id|]; [|reflexivity].
  destruct (load_fn E id) as [f|e]; [|reflexivity]. cbn [bind].
  match goal with |- bind (?go kids) _ = _ => set (g := go) end.
  assert (g kids = mapM read_expr (elements kids)) as ->; [|reflexivity].
  clear H. induction kids as [|k kids IH]; [reflexivity|].
  destruct k as [t a x sub|t].
  - cbn [elements filter]. rewrite mapM_cons. fold (elements kids). rewrite <- IH.
    reflexivity.
  - cbn [elements filter]. fold (elements kids). rewrite <- IH. reflexivity.
Qed.

Lemma node_ind' : forall P : node -> Prop,
  (forall t, P (Comment t)) ->
  (forall tag a t kids, Forall P kids -> P (Elem tag a t kids)) ->
  forall n, P n.
Proof.
  intros P Hc He. fix IH 1. intros [tag a t kids|t].
  - apply He. induction kids as [|k kids IHk].
    + constructor.
    + constructor; [apply IH|exact IHk].
  - apply Hc.
Qed.

Ltac name_is H := rewrite H in *; cbn [String.eqb Ascii.eqb Bool.eqb] in *.
Ltac case_name n s :=
  destruct (String.eqb_spec (ln n) s) as [?Hn|?Hn].

(** Turns [called] on elements into comparisons of [ln]. *)
Ltac to_ln He :=
  repeat match goal with
  | H : context [called ?s ?n] |- _ => rewrite (called_ln s n eq_refl He) in H
  | |- context [called ?s ?n] => rewrite (called_ln s n eq_refl He)
  end.

Lemma read_expr_iff : forall n e, is_elem n -> (read_expr n = Ok e <-> expr_doc E n e).
Proof.
  induction n as [t|tag a t kids IH] using node_ind'; intros e He; [destruct He|].
  set (n := Elem tag a t kids) in *.
  assert (forall k, In k (elems n) -> forall e, read_expr k = Ok e <-> expr_doc E k e) as IH'.
  { intros k Hk e'. rewrite Forall_forall in IH. apply IH; [|apply (elems_is n), Hk].
    apply filter_In in Hk. apply Hk. }
  clearbody n. clear IH.
  assert (forall e, read_apply E n = Ok e <-> called "Apply" n = true /\ expr_doc E n e) as HA.
  { intros e'. rewrite read_apply_eq by exact He. rewrite (called_ln "Apply" n eq_refl He).
    destruct (String.eqb (ln n) "Apply") eqn:EA; cbn [negb].
    2:{ split; [discriminate|]. intros [H _]. discriminate H. }
    split.
    - destruct (xml_attr "FunctionId" n) as [id|] eqn:Hid; [|discriminate]. intros H.
      apply bind_ok in H. destruct H as (f & Hf & H). apply load_fn_iff in Hf.
      apply bind_ok in H. destruct H as (args & Ha & H). injection H as <-.
      split; [reflexivity|]. apply doc_apply; [rewrite (called_ln "Apply" n eq_refl He); exact EA|assumption|assumption|].
      apply mapM_ok in Ha. revert Ha. apply Forall2_iff. intros k y Hk. first [apply IH' | symmetry; apply IH']; assumption.
    - intros [_ H]. apply String.eqb_eq in EA. inversion H as [? v Hv|? d Hd|? s Hs|? id f args Hc Hid Hf Hargs]; subst.
      + destruct Hv as [Hv _]. rewrite called_ln, EA in Hv by (reflexivity || exact He). discriminate Hv.
      + destruct Hd as (Hd & _). rewrite called_ln, EA in Hd; [|destruct (dg_kind d); reflexivity|exact He].
        destruct (dg_kind d); discriminate Hd.
      + destruct Hs as (Hs & _). rewrite called_ln, EA in Hs by (reflexivity || exact He). discriminate Hs.
      + rewrite Hid. apply bind_ok. exists f. split; [apply load_fn_iff, Hf|].
        apply bind_ok. exists args. split; [|reflexivity]. apply mapM_ok.
        revert Hargs. apply Forall2_iff. intros k y Hk. first [apply IH' | symmetry; apply IH']; assumption. }
  unfold read_expr. split.
  - intros H. case_name n "Apply"; [apply HA in H; apply H|].
    case_name n "AttributeValue".
    { apply bind_ok in H. destruct H as (v & Hv & H). injection H as <-.
      apply doc_value, read_value_iff, Hv. }
    case_name n "SubjectAttributeDesignator".
    { apply bind_ok in H. destruct H as (v & Hv & H). injection H as <-.
      apply read_designator_iff in Hv; [|discriminate]. apply doc_designator, Hv. }
    case_name n "ResourceAttributeDesignator".
    { apply bind_ok in H. destruct H as (v & Hv & H). injection H as <-.
      apply read_designator_iff in Hv; [|discriminate]. apply doc_designator, Hv. }
    case_name n "EnvironmentAttributeDesignator"; [discriminate H|].
    case_name n "ActionAttributeDesignator".
    { apply bind_ok in H. destruct H as (v & Hv & H). injection H as <-.
      apply read_designator_iff in Hv; [|discriminate]. apply doc_designator, Hv. }
    case_name n "AttributeSelector".
    { apply bind_ok in H. destruct H as (v & Hv & H). injection H as <-.
      apply read_selector_iff in Hv. apply doc_selector, Hv. }
    case_name n "Condition".
    { apply bind_ok in H. destruct H as (v & Hv & H). discriminate H. }
    case_name n "Function"; [discriminate H|].
    case_name n "VariableReference"; discriminate H.
  - intros H. inversion H as [? v Hv|? d Hd|? s Hs|? id f args Hc Hid Hf Hargs]; subst.
    + pose proof Hv as [Hc _]. rewrite called_ln in Hc by (reflexivity || exact He).
      apply String.eqb_eq in Hc. rewrite Hc. cbn [String.eqb Ascii.eqb Bool.eqb].
      apply read_value_iff in Hv. rewrite Hv. reflexivity.
    + pose proof Hd as (Hc & Hk & _). rewrite called_ln in Hc; [|destruct (dg_kind d); reflexivity|exact He].
      apply String.eqb_eq in Hc. rewrite Hc.
      assert (read_designator (dg_kind d) n = Ok d) as Hr
        by (apply read_designator_iff; [exact Hk|split; [exact Hd|reflexivity]]).
      destruct (dg_kind d); [| | |congruence]; cbn [designator_tag String.eqb Ascii.eqb Bool.eqb];
        rewrite Hr; reflexivity.
    + pose proof Hs as [Hc _]. rewrite called_ln in Hc by (reflexivity || exact He).
      apply String.eqb_eq in Hc. rewrite Hc. cbn [String.eqb Ascii.eqb Bool.eqb].
      apply read_selector_iff in Hs. rewrite Hs. reflexivity.
    + pose proof Hc as Hc'. rewrite (called_ln "Apply" n eq_refl He) in Hc'. rewrite Hc'.
      apply HA. split; [exact Hc|exact H].
Qed.

Lemma read_apply_iff : forall n e, is_elem n ->
  (read_apply E n = Ok e <-> called "Apply" n = true /\ expr_doc E n e).
Proof.
  intros n e He. rewrite <- read_expr_iff by exact He. unfold read_expr.
  rewrite (called_ln "Apply" n eq_refl He). rewrite read_apply_eq by exact He.
  destruct (String.eqb (ln n) "Apply"); cbn [negb].
  - split; [intros H; split; [reflexivity|exact H]|intros [_ H]; exact H].
  - split; [discriminate|intros [H _]; discriminate H].
Qed.

Lemma read_condition_iff : forall n e, read_condition E n = Ok e <-> condition_doc E n e.
Proof.
  intros [tag a t kids|t] e.
  2:{ split; [discriminate|intros [H _]; discriminate H]. }
  unfold condition_doc. rewrite (called_ln "Condition" (Elem tag a t kids) eq_refl I).
  cbn [read_condition ln elems]. unfold condition_of.
  assert (filter (fun p : node * res expr => match fst p with Elem _ _ _ _ => true | Comment _ => false end)
            (map (fun c => (c, read_apply E c)) kids)
          = map (fun c => (c, read_apply E c)) (elements kids)) as ->.
  { induction kids as [|[tg at_ x sub|x] kids IH]; [reflexivity| |].
    - cbn [map filter fst elements]. fold (elements kids). rewrite IH. reflexivity.
    - cbn [map filter fst elements]. exact IH. }
  assert (forall k, In k (elements kids) -> is_elem k) as Hel.
  { intros k Hk. apply filter_In in Hk. destruct Hk as [_ Hk]. destruct k; [exact I|discriminate Hk]. }
  fold (elements kids). destruct (String.eqb (get_local_part tag) "Condition"); cbn [negb].
  2:{ split; [discriminate|]. intros [H _]. discriminate H. }
  destruct (elements kids) as [|k [|k2 r]]; cbn [map].
  - split; [discriminate|]. intros [_ (k & H & _)]. discriminate H.
  - assert (is_elem k) as He by (apply Hel; left; reflexivity). rewrite local_ln by exact He. cbn [bind].
    destruct (String.eqb (ln k) "Apply") eqn:EA.
    + rewrite read_apply_iff by exact He. split.
      * intros [H1 H2]. split; [reflexivity|]. exists k. split; [reflexivity|split; assumption].
      * intros [_ (k' & [= <-] & H1 & H2)]. split; assumption.
    + split; [discriminate|]. intros [_ (k' & [= <-] & H1 & H2)].
      rewrite (called_ln "Apply" k eq_refl He), EA in H1. discriminate H1.
  - split; [discriminate|]. intros [_ (k' & H & _)]. discriminate H.
Qed.

(** ** Loops over children *)
Lemma called_at : forall x name, is_elem x -> ln x = name -> forall s,
  has_char close_brace s = false -> called s x = String.eqb name s.
Proof. intros x name He <- s Hs. apply called_ln; assumption. Qed.

Lemma one_of_ln : forall names x, is_elem x ->
  forallb (fun s => negb (has_char close_brace s)) names = true ->
  (called_one_of names x <-> In (ln x) names).
Proof.
  intros names x He Hn. rewrite forallb_forall in Hn. split.
  - intros (s & Hs & Hc). rewrite called_ln in Hc; [|apply Bool.negb_true_iff, Hn, Hs|exact He].
    apply String.eqb_eq in Hc. rewrite Hc. exact Hs.
  - intros H. exists (ln x). split; [exact H|].
    rewrite called_ln; [apply String.eqb_refl|apply Bool.negb_true_iff, Hn, H|exact He].
Qed.

Lemma one_of_snoc : forall names l x,
  (forall c, In c (l ++ [x]) -> called_one_of names c) <->
  (forall c, In c l -> called_one_of names c) /\ called_one_of names x.
Proof.
  intros names l x. split.
  - intros H. split; [intros c Hc|]; apply H, in_or_app; [left; exact Hc|right; left; reflexivity].
  - intros [H1 H2] c Hc. apply in_app_or in Hc. destruct Hc as [Hc|[<-|[]]]; [apply H1, Hc|exact H2].
Qed.

Lemma last_one_none : forall A (R : node -> A -> Prop) l, last_one R l None -> l = [].
Proof.
  intros A R l [_ H]. destruct (rev l) as [|k r] eqn:Er.
  - rewrite <- (rev_involutive l), Er. reflexivity.
  - destruct H as (a & H & _). discriminate H.
Qed.

Lemma elem_snoc : forall l x, (forall k, In k (l ++ [x]) -> is_elem k) ->
  (forall k, In k l -> is_elem k) /\ is_elem x.
Proof.
  intros l x H. split; [intros k Hk|]; apply H, in_or_app; [left; exact Hk|right; left; reflexivity].
Qed.

(** Filters of the extended list of children, when the last one has a known name. *)
Ltac filters He Hn :=
  rewrite !filter_snoc in *;
  repeat match goal with
  | |- context [called ?s ?x] => rewrite (called_at x _ He Hn s eq_refl)
  | H : context [called ?s ?x] |- _ => rewrite (called_at x _ He Hn s eq_refl) in H
  end;
  cbn [String.eqb Ascii.eqb Bool.eqb designator_tag] in *.

Lemma app_one_not_nil : forall A (l : list A) x, l ++ [x] <> [].
Proof. intros A l x H. destruct l; discriminate H. Qed.

Lemma match_fold : forall k id f l m, k <> DEnvironment ->
  (forall c, In c l -> is_elem c) ->
  (foldM (match_child E k) l (mkMatch (Some id) (Some f) None None None) = Ok m <->
   (forall c, In c l -> called_one_of ["AttributeValue"; designator_tag k; "AttributeSelector"] c) /\
   (filter (called (designator_tag k)) l = [] \/ filter (called "AttributeSelector") l = []) /\
   mt_id m = Some id /\ mt_fn m = Some f /\
   last_one (value_doc E) (filter (called "AttributeValue") l) (mt_value m) /\
   last_one (fun c d => designator_doc c d /\ dg_kind d = k)
     (filter (called (designator_tag k)) l) (mt_designator m) /\
   last_one selector_doc (filter (called "AttributeSelector") l) (mt_selector m)).
Proof.
  intros k id f l m Hk. revert m. induction l as [|x l IH] using rev_ind; intros m Hel.
  { cbn [foldM filter]. rewrite !last_one_nil. split.
    - intros [= <-]. split; [intros c []|]. split; [left; reflexivity|].
      split; [reflexivity|]. split; [reflexivity|]. split; [reflexivity|]. split; reflexivity.
    - destruct m; cbn. intros (_ & _ & -> & -> & -> & -> & ->). reflexivity. }
  apply elem_snoc in Hel. destruct Hel as [Hel He].
  rewrite foldM_snoc, bind_ok, one_of_snoc.
  rewrite (one_of_ln _ x He) by (destruct k; reflexivity).
  split.
  - intros (m' & Hm' & H). apply IH in Hm'; [|exact Hel].
    destruct Hm' as (H1 & H2 & H3 & H4 & H5 & H6 & H7).
    unfold match_child in H. rewrite local_ln in H by exact He. cbn [bind] in H.
    rewrite designator_name_tag in H.
    case_name x "AttributeValue".
    { apply bind_ok in H. destruct H as (v & Hv & H). injection H as <-.
      apply read_value_iff in Hv. cbn [mt_id mt_fn mt_value mt_designator mt_selector].
      split; [split; [exact H1|left; symmetry; exact Hn]|].
      destruct k; [| | |congruence]; filters He Hn;
      (split; [exact H2|]; split; [exact H3|]; split; [exact H4|];
      split; [apply last_one_snoc; split; [exists (mt_value m'); exact H5|exists v; split; [reflexivity|exact Hv]]|];
      split; assumption). }
    case_name x (designator_tag k).
    { destruct (mt_selector m') as [s|] eqn:Es; [discriminate H|].
      apply bind_ok in H. destruct H as (d & Hd & H). injection H as <-.
      apply read_designator_iff in Hd; [|exact Hk]. cbn [mt_id mt_fn mt_value mt_designator mt_selector].
      split; [split; [exact H1|right; left; symmetry; exact Hn0]|].
      pose proof (last_one_none _ _ _ H7) as H8.
      destruct k; [| | |congruence]; cbn [designator_tag] in Hn0; filters He Hn0;
      (split; [right; exact H8|]; split; [exact H3|]; split; [exact H4|];
      split; [exact H5|]; split; [|exact H7];
      apply last_one_snoc; split; [exists (mt_designator m'); exact H6|exists d; split; [reflexivity|exact Hd]]). }
    case_name x "AttributeSelector"; [|discriminate H].
    destruct (mt_designator m') as [s|] eqn:Es; [discriminate H|].
    apply bind_ok in H. destruct H as (d & Hd & H). injection H as <-.
    apply read_selector_iff in Hd. cbn [mt_id mt_fn mt_value mt_designator mt_selector].
    split; [split; [exact H1|right; right; left; symmetry; exact Hn1]|].
    pose proof (last_one_none _ _ _ H6) as H8.
    destruct k; [| | |congruence]; filters He Hn1;
    (split; [left; exact H8|]; split; [exact H3|]; split; [exact H4|];
    split; [exact H5|]; split; [exact H6|];
    apply last_one_snoc; split; [exists (mt_selector m'); exact H7|exists d; split; [reflexivity|exact Hd]]).
  - intros ((H1 & Hx) & H2 & H3 & H4 & H5 & H6 & H7).
    destruct m as [id0 f0 mv md ms]. cbn [mt_id mt_fn mt_value mt_designator mt_selector] in *.
    subst id0 f0. unfold match_child. rewrite local_ln by exact He. cbn [bind].
    rewrite designator_name_tag.
    destruct Hx as [Hx|[Hx|[Hx|[]]]]; symmetry in Hx.
    + assert (filter (called (designator_tag k)) (l ++ [x]) = filter (called (designator_tag k)) l) as Ed
        by (destruct k; filters He Hx; reflexivity).
      rewrite Ed in *. filters He Hx.
      apply last_one_snoc in H5. destruct H5 as [(o' & H5) (v & -> & Hv)].
      exists (mkMatch (Some id) (Some f) o' md ms). split.
      { apply IH; [exact Hel|]. cbn. split; [exact H1|]. split; [exact H2|]. split; [reflexivity|].
        split; [reflexivity|]. split; [exact H5|]. split; assumption. }
      rewrite Hx. cbn [String.eqb Ascii.eqb Bool.eqb]. apply bind_ok. exists v.
      split; [apply read_value_iff, Hv|reflexivity].
    + destruct k; [| | |congruence]; cbn [designator_tag] in Hx; filters He Hx;
      (destruct H2 as [H2|H2]; [destruct (app_one_not_nil _ _ _ H2)|]; rewrite H2 in *;
      apply last_one_nil in H7; subst ms;
      apply last_one_snoc in H6; destruct H6 as [(o' & H6) (v & -> & Hv)];
      exists (mkMatch (Some id) (Some f) mv o' None); split;
      [ apply IH; [exact Hel|]; cbn; rewrite ?H2; split; [exact H1|]; split; [right; reflexivity|]; split; [reflexivity|];
        split; [reflexivity|]; split; [exact H5|]; split; [exact H6|apply last_one_nil; reflexivity]
      | rewrite Hx; cbn [String.eqb Ascii.eqb Bool.eqb mt_selector designator_tag]; apply bind_ok; exists v;
        split; [apply read_designator_iff; [exact Hk|exact Hv]|reflexivity]]).
    + assert (filter (called (designator_tag k)) (l ++ [x]) = filter (called (designator_tag k)) l) as Ed
        by (destruct k; filters He Hx; reflexivity).
      rewrite Ed in *. filters He Hx.
      destruct H2 as [H2|H2]; [|destruct (app_one_not_nil _ _ _ H2)].
      apply last_one_snoc in H7. destruct H7 as [(o' & H7) (v & -> & Hv)].
      assert (md = None) as -> by (rewrite H2 in H6; apply last_one_nil in H6; exact H6).
      exists (mkMatch (Some id) (Some f) mv None o'). split.
      { apply IH; [exact Hel|]. cbn. split; [exact H1|]. split; [left; exact H2|]. split; [reflexivity|].
        split; [reflexivity|]. split; [exact H5|]. split; assumption. }
      rewrite Hx. destruct k; [| | |congruence]; cbn [String.eqb Ascii.eqb Bool.eqb designator_tag mt_designator];
        apply bind_ok; exists v; (split; [apply read_selector_iff, Hv|reflexivity]).
Qed.

Lemma read_match_iff : forall k n m, read_match E k n = Ok m <-> match_doc E k n m.
Proof.
  intros k n m. unfold match_doc.
  destruct (match k with DEnvironment => true | _ => false end) eqn:EK.
  { destruct k; try discriminate EK. split; [discriminate|]. intros [H _]. congruence. }
  assert (k <> DEnvironment) as Hk by (destruct k; congruence).
  replace (read_match E k n) with
    (let* _ := expect (match_name k) n in
      let* id := required n "MatchId" in
      let* f := load_fn E id in
      foldM (match_child E k) (elements (el_kids n)) (mkMatch (Some id) (Some f) None None None))
    by (destruct k; congruence || reflexivity).
  rewrite elements_elems. unfold elems_called.
  assert (has_char close_brace (match_tag k) = false) as Hb by (destruct k; reflexivity).
  replace (match_name k) with (match_tag k) by (destruct k; reflexivity).
  split.
  - intros H. apply bind_ok in H. destruct H as (u & Hu & H). apply expect_ok in Hu; [|exact Hb].
    apply bind_ok in H. destruct H as (id & Hid & H). apply required_ok in Hid.
    apply bind_ok in H. destruct H as (f & Hf & H). apply load_fn_iff in Hf.
    apply match_fold in H; [|exact Hk|exact (elems_is n)].
    destruct H as (H1 & H2 & H3 & H4 & H5 & H6 & H7).
    split; [exact Hk|]. split; [exact Hu|]. split; [exact H1|]. split; [exact H2|].
    split; [exists id, f; repeat (split; [assumption|]); assumption|].
    split; [exact H5|]. split; assumption.
  - intros (_ & Hu & H1 & H2 & (id & f & H3 & H4 & Hid & Hf) & H5 & H6 & H7).
    apply bind_ok. exists tt. split; [apply expect_ok; assumption|].
    apply bind_ok. exists id. split; [apply required_ok, Hid|].
    apply bind_ok. exists f. split; [apply load_fn_iff, Hf|].
    apply match_fold; [exact Hk|exact (elems_is n)|].
    repeat (split; [assumption|]); assumption.
Qed.

Lemma foldM_ext : forall A B (f g : A -> B -> res A) l a,
  (forall a x, In x l -> f a x = g a x) -> foldM f l a = foldM g l a.
Proof.
  intros A B f g l. induction l as [|x l IH]; intros a H; [reflexivity|]. cbn [foldM].
  rewrite (H a x) by (left; reflexivity). destruct (g a x); [|reflexivity]. cbn [bind].
  apply IH. intros a' x' Hx. apply H. right. exact Hx.
Qed.

Lemma read_target_child_iff : forall k n ms,
  read_target_child E k n = Ok ms <-> child_doc E k n ms.
Proof.
  intros k n ms. unfold read_target_child, child_doc. rewrite elements_elems.
  assert (has_char close_brace (child_tag k) = false) as Hb by (destruct k; reflexivity).
  replace (target_child_name k) with (child_tag k) by (destruct k; reflexivity).
  set (g := fun c => if called (match_tag k) c then read_match E k c else Raise EXMLParseError).
  assert (forall ys, Forall2 (fun c y => g c = Ok y) (elems n) ys <-> Forall2 (match_doc E k) (elems n) ys) as HF.
  { intros ys. apply Forall2_iff. intros c m _. unfold g. destruct (called (match_tag k) c) eqn:Ec.
    - apply read_match_iff.
    - split; [discriminate|]. intros (_ & H & _). congruence. }
  rewrite (foldM_ext _ _ _ (fun ms c => let* m := g c in Ok (ms ++ [m])) (elems n) []).
  2:{ intros a x Hx. unfold g. rewrite local_ln by exact (elems_is n x Hx). cbn [bind].
      rewrite called_ln; [|destruct k; reflexivity|exact (elems_is n x Hx)].
      replace (match_name k) with (match_tag k) by (destruct k; reflexivity).
      destruct (String.eqb (ln x) (match_tag k)); reflexivity. }
  split.
  - intros H. apply bind_ok in H. destruct H as (u & Hu & H). apply foldM_collect in H.
    destruct H as (ys & -> & H). apply expect_ok in Hu; [|exact Hb]. split; [exact Hu|].
    cbn [app]. apply HF, H.
  - intros [Hu H]. apply bind_ok. exists tt. split; [apply expect_ok; assumption|].
    apply foldM_collect. exists ms. split; [reflexivity|]. apply HF, H.
Qed.

Lemma read_container_iff : forall k acc n r,
  read_container E k acc n = Ok r <->
  exists ys, r = acc ++ ys /\ Forall2 (child_doc E k) (elems n) ys.
Proof.
  intros k acc n r. unfold read_container. rewrite elements_elems.
  rewrite (foldM_collect _ _ (read_target_child E k)). split.
  - intros (ys & -> & H). exists ys. split; [reflexivity|]. revert H. apply Forall2_iff.
    intros; first [apply read_target_child_iff|symmetry; apply read_target_child_iff].
  - intros (ys & -> & H). exists ys. split; [reflexivity|]. revert H. apply Forall2_iff.
    intros; first [apply read_target_child_iff|symmetry; apply read_target_child_iff].
Qed.

Definition target_step (t : target) (c : node) : res target :=
  let* l := local_name c in
  if String.eqb l "Subjects" then
    let* x := read_container E DSubject (tg_subjects t) c in
    Ok (mkTarget x (tg_resources t) (tg_actions t) (tg_environments t))
  else if String.eqb l "Resources" then
    let* x := read_container E DResource (tg_resources t) c in
    Ok (mkTarget (tg_subjects t) x (tg_actions t) (tg_environments t))
  else if String.eqb l "Actions" then
    let* x := read_container E DAction (tg_actions t) c in
    Ok (mkTarget (tg_subjects t) (tg_resources t) x (tg_environments t))
  else if String.eqb l "Environments" then
    let* x := read_container E DEnvironment (tg_environments t) c in
    Ok (mkTarget (tg_subjects t) (tg_resources t) (tg_actions t) x)
  else Raise EXMLParseError.

Lemma flat_map_snoc : forall A B (f : A -> list B) l x, flat_map f (l ++ [x]) = flat_map f l ++ f x.
Proof.
  intros A B f l x. rewrite flat_map_app. cbn [flat_map]. rewrite app_nil_r. reflexivity.
Qed.

Lemma Forall2_app_r : forall A B (R : A -> B -> Prop) l1 l2 r,
  Forall2 R (l1 ++ l2) r <-> exists r1 r2, r = r1 ++ r2 /\ Forall2 R l1 r1 /\ Forall2 R l2 r2.
Proof.
  intros A B R l1 l2 r. split.
  - intros H. apply Forall2_app_inv_l in H. destruct H as (r1 & r2 & H1 & H2 & ->).
    exists r1, r2. split; [reflexivity|split; assumption].
  - intros (r1 & r2 & -> & H1 & H2). apply Forall2_app; assumption.
Qed.

Lemma target_fold : forall l t, (forall c, In c l -> is_elem c) ->
  (foldM target_step l (mkTarget [] [] [] []) = Ok t <->
   (forall c, In c l -> called_one_of ["Subjects"; "Resources"; "Actions"; "Environments"] c) /\
   Forall2 (child_doc E DSubject) (flat_map elems (filter (called "Subjects") l)) (tg_subjects t) /\
   Forall2 (child_doc E DResource) (flat_map elems (filter (called "Resources") l)) (tg_resources t) /\
   Forall2 (child_doc E DAction) (flat_map elems (filter (called "Actions") l)) (tg_actions t) /\
   Forall2 (child_doc E DEnvironment) (flat_map elems (filter (called "Environments") l)) (tg_environments t)).
Proof.
  induction l as [|x l IH] using rev_ind; intros t Hel.
  { cbn [foldM filter flat_map]. split.
    - intros [= <-]. split; [intros c []|]. cbn. split; [constructor|]. split; [constructor|].
      split; constructor.
    - destruct t; cbn. intros (_ & H1 & H2 & H3 & H4). inversion H1. inversion H2. inversion H3. inversion H4. reflexivity. }
  apply elem_snoc in Hel. destruct Hel as [Hel He].
  rewrite foldM_snoc, bind_ok, one_of_snoc. rewrite (one_of_ln _ x He) by reflexivity. split.
  - intros (t' & Ht' & H). apply IH in Ht'; [|exact Hel]. destruct Ht' as (H0 & H1 & H2 & H3 & H4).
    unfold target_step in H. rewrite local_ln in H by exact He. cbn [bind] in H.
    case_name x "Subjects".
    { apply bind_ok in H. destruct H as (v & Hv & H). injection H as <-.
      apply read_container_iff in Hv. destruct Hv as (ys & -> & Hv).
      split; [split; [exact H0|rewrite Hn; left; reflexivity]|].
      filters He Hn. cbn [tg_subjects tg_resources tg_actions tg_environments].
      rewrite flat_map_snoc. split; [apply Forall2_app; assumption|]. split; [assumption|split; assumption]. }
    case_name x "Resources".
    { apply bind_ok in H. destruct H as (v & Hv & H). injection H as <-.
      apply read_container_iff in Hv. destruct Hv as (ys & -> & Hv).
      split; [split; [exact H0|rewrite Hn0; right; left; reflexivity]|].
      filters He Hn0. cbn [tg_subjects tg_resources tg_actions tg_environments].
      rewrite flat_map_snoc. split; [assumption|]. split; [apply Forall2_app; assumption|split; assumption]. }
    case_name x "Actions".
    { apply bind_ok in H. destruct H as (v & Hv & H). injection H as <-.
      apply read_container_iff in Hv. destruct Hv as (ys & -> & Hv).
      split; [split; [exact H0|rewrite Hn1; right; right; left; reflexivity]|].
      filters He Hn1. cbn [tg_subjects tg_resources tg_actions tg_environments].
      rewrite flat_map_snoc. split; [assumption|]. split; [assumption|]. split; [apply Forall2_app; assumption|assumption]. }
    case_name x "Environments"; [|discriminate H].
    apply bind_ok in H. destruct H as (v & Hv & H). injection H as <-.
    apply read_container_iff in Hv. destruct Hv as (ys & -> & Hv).
    split; [split; [exact H0|rewrite Hn2; right; right; right; left; reflexivity]|].
    filters He Hn2. cbn [tg_subjects tg_resources tg_actions tg_environments].
    rewrite flat_map_snoc. split; [assumption|]. split; [assumption|]. split; [assumption|apply Forall2_app; assumption].
  - destruct t as [ts tr ta te]. cbn [tg_subjects tg_resources tg_actions tg_environments].
    intros ((H0 & Hx) & H1 & H2 & H3 & H4).
    unfold target_step. rewrite local_ln by exact He. cbn [bind].
    destruct Hx as [Hx|[Hx|[Hx|[Hx|[]]]]]; symmetry in Hx; filters He Hx; rewrite Hx;
      rewrite flat_map_snoc in *.
    + apply Forall2_app_r in H1. destruct H1 as (r1 & r2 & -> & H1 & H1').
      exists (mkTarget r1 tr ta te). split; [apply IH; [exact Hel|]; cbn; repeat (split; [assumption|]); assumption|].
      cbn [String.eqb Ascii.eqb Bool.eqb]. apply bind_ok. exists (r1 ++ r2). split; [|reflexivity].
      apply read_container_iff. exists r2. split; [reflexivity|assumption].
    + apply Forall2_app_r in H2. destruct H2 as (r1 & r2 & -> & H2 & H2').
      exists (mkTarget ts r1 ta te). split; [apply IH; [exact Hel|]; cbn; repeat (split; [assumption|]); assumption|].
      cbn [String.eqb Ascii.eqb Bool.eqb]. apply bind_ok. exists (r1 ++ r2). split; [|reflexivity].
      apply read_container_iff. exists r2. split; [reflexivity|assumption].
    + apply Forall2_app_r in H3. destruct H3 as (r1 & r2 & -> & H3 & H3').
      exists (mkTarget ts tr r1 te). split; [apply IH; [exact Hel|]; cbn; repeat (split; [assumption|]); assumption|].
      cbn [String.eqb Ascii.eqb Bool.eqb]. apply bind_ok. exists (r1 ++ r2). split; [|reflexivity].
      apply read_container_iff. exists r2. split; [reflexivity|assumption].
    + apply Forall2_app_r in H4. destruct H4 as (r1 & r2 & -> & H4 & H4').
      exists (mkTarget ts tr ta r1). split; [apply IH; [exact Hel|]; cbn; repeat (split; [assumption|]); assumption|].
      cbn [String.eqb Ascii.eqb Bool.eqb]. apply bind_ok. exists (r1 ++ r2). split; [|reflexivity].
      apply read_container_iff. exists r2. split; [reflexivity|assumption].
Qed.

Lemma read_target_iff : forall n t, read_target E n = Ok t <-> target_doc E n t.
Proof.
  intros n t. unfold read_target, target_doc. rewrite elements_elems.
  change (foldM _ (elems n) (mkTarget [] [] [] [])) with (foldM target_step (elems n) (mkTarget [] [] [] [])).
  rewrite bind_ok. split.
  - intros (u & Hu & H). apply expect_ok in Hu; [|reflexivity].
    apply target_fold in H; [|exact (elems_is n)]. destruct H as (H0 & H1 & H2 & H3 & H4).
    split; [exact Hu|]. split; [exact H0|]. intros []; assumption.
  - intros (Hu & H0 & H). exists tt. split; [apply expect_ok; [reflexivity|exact Hu]|].
    apply target_fold; [exact (elems_is n)|]. split; [exact H0|].
    split; [apply (H DSubject)|]. split; [apply (H DResource)|]. split; [apply (H DAction)|apply (H DEnvironment)].
Qed.

(** ** Rules *)
Definition descr (l : list node) : option string :=
  option_map py_strip (last_some (map xml_text (filter (called "Description") l))).

Lemma description_iff : forall n o, description_doc n o <-> o = descr (elems n).
Proof.
  intros n o. unfold description_doc, descr, elems_called.
  destruct (last_some (map xml_text (filter (called "Description") (elems n)))) as [s|]; cbn [option_map].
  - destruct o as [t|]; [|split; [intros []|discriminate]]. split.
    + intros H. apply trimmed_strip in H. rewrite H. reflexivity.
    + intros [= ->]. apply strip_trimmed.
  - destruct o as [t|]; [split; [intros []|discriminate]|]. split; [reflexivity|constructor].
Qed.

Lemma descr_nil : descr [] = None.
Proof. reflexivity. Qed.

Lemma descr_snoc : forall l x, is_elem x ->
  descr (l ++ [x]) = if String.eqb (ln x) "Description" then description_of x (descr l) else descr l.
Proof.
  intros l x He. unfold descr, description_of. rewrite filter_snoc, (called_ln "Description" x eq_refl He).
  rewrite text_get by exact He. destruct (String.eqb (ln x) "Description"); [|reflexivity].
  rewrite map_app. cbn [map]. rewrite last_some_snoc. destruct (xml_text x); reflexivity.
Qed.

Lemma effect_of_iff : forall s e, effect_of s = Ok e <-> s = effect_name e.
Proof.
  intros s e. unfold effect_of, effect_set, EFFECT_TYPES. cbn [str_in existsb].
  destruct (String.eqb_spec s "Deny") as [->|H1].
  { cbn [orb String.eqb Ascii.eqb Bool.eqb]. destruct e; cbn [effect_name]; split; congruence. }
  destruct (String.eqb_spec s "Permit") as [->|H2].
  { cbn [orb String.eqb Ascii.eqb Bool.eqb]. destruct e; cbn [effect_name]; split; congruence. }
  cbn [orb]. destruct e; cbn [effect_name]; split; congruence.
Qed.

Definition rule_step (r : rule) (c : node) : res rule :=
  let* l := local_name c in
  if String.eqb l "Description" then
    Ok (mkRule (rl_id r) (rl_effect r) (rl_target r) (rl_condition r)
          (description_of c (rl_description r)))
  else if String.eqb l "Condition" then
    let* e := read_condition E c in
    Ok (mkRule (rl_id r) (rl_effect r) (rl_target r) (Some (Some e)) (rl_description r))
  else if String.eqb l "Target" then
    let* t := read_target E c in
    Ok (mkRule (rl_id r) (rl_effect r) (Some t) (rl_condition r) (rl_description r))
  else Raise EXMLParseError.

Lemma rule_fold : forall id ef l r, (forall c, In c l -> is_elem c) ->
  (foldM rule_step l (mkRule id ef None None None) = Ok r <->
   (forall c, In c l -> called_one_of ["Description"; "Condition"; "Target"] c) /\
   rl_id r = id /\ rl_effect r = ef /\
   last_one (target_doc E) (filter (called "Target") l) (rl_target r) /\
   (exists c, last_one (condition_doc E) (filter (called "Condition") l) c /\
      rl_condition r = option_map Some c) /\
   rl_description r = descr l).
Proof.
  intros id ef l. induction l as [|x l IH] using rev_ind; intros r Hel.
  { cbn [foldM filter]. rewrite last_one_nil. split.
    - intros [= <-]. split; [intros c []|]. cbn. split; [reflexivity|]. split; [reflexivity|].
      split; [reflexivity|]. split; [|reflexivity]. exists None. split; [apply last_one_nil; reflexivity|reflexivity].
    - destruct r; cbn. intros (_ & -> & -> & -> & (c & Hc & ->) & ->). apply last_one_nil in Hc.
      subst c. reflexivity. }
  apply elem_snoc in Hel. destruct Hel as [Hel He].
  rewrite foldM_snoc, bind_ok, one_of_snoc. rewrite (one_of_ln _ x He) by reflexivity.
  rewrite descr_snoc by exact He. split.
  - intros (r' & Hr' & H). apply IH in Hr'; [|exact Hel].
    destruct Hr' as (H0 & H1 & H2 & H3 & (c & H4 & H4') & H5).
    unfold rule_step in H. rewrite local_ln in H by exact He. cbn [bind] in H.
    case_name x "Description".
    { injection H as <-. cbn [rl_id rl_effect rl_target rl_condition rl_description].
      split; [split; [exact H0|left; symmetry; exact Hn]|]. filters He Hn. rewrite H5.
      repeat (split; [assumption|]). split; [|reflexivity]. exists c. split; assumption. }
    case_name x "Condition".
    { apply bind_ok in H. destruct H as (e & Hv & H). injection H as <-.
      apply read_condition_iff in Hv. cbn [rl_id rl_effect rl_target rl_condition rl_description].
      split; [split; [exact H0|right; left; symmetry; exact Hn0]|]. filters He Hn0.
      repeat (split; [assumption|]). split; [|assumption]. exists (Some e). split; [|reflexivity].
      apply last_one_snoc. split; [exists c; exact H4|]. exists e. split; [reflexivity|exact Hv]. }
    case_name x "Target"; [|discriminate H].
    apply bind_ok in H. destruct H as (e & Hv & H). injection H as <-.
    apply read_target_iff in Hv. cbn [rl_id rl_effect rl_target rl_condition rl_description].
    split; [split; [exact H0|right; right; left; symmetry; exact Hn1]|]. filters He Hn1.
    split; [assumption|]. split; [assumption|]. split.
    { apply last_one_snoc. split; [exists (rl_target r'); exact H3|]. exists e. split; [reflexivity|exact Hv]. }
    split; [|assumption]. exists c. split; assumption.
  - destruct r as [id0 ef0 rt rc rd]. cbn [rl_id rl_effect rl_target rl_condition rl_description].
    intros ((H0 & Hx) & -> & -> & H3 & (c & H4 & ->) & H5).
    unfold rule_step. rewrite local_ln by exact He. cbn [bind].
    destruct Hx as [Hx|[Hx|[Hx|[]]]]; symmetry in Hx; filters He Hx; rewrite Hx in *;
      cbn [String.eqb Ascii.eqb Bool.eqb] in *.
    + exists (mkRule id ef rt (option_map Some c) (descr l)). split.
      { apply IH; [exact Hel|]. cbn. repeat (split; [assumption || reflexivity|]).
        split; [exists c; split; [assumption|reflexivity]|reflexivity]. }
      rewrite H5. reflexivity.
    + apply last_one_snoc in H4. destruct H4 as [(c' & H4) (e & -> & He')].
      exists (mkRule id ef rt (option_map Some c') (descr l)). split.
      { apply IH; [exact Hel|]. cbn. repeat (split; [assumption || reflexivity|]).
        split; [exists c'; split; [assumption|reflexivity]|reflexivity]. }
      apply bind_ok. exists e. split; [apply read_condition_iff, He'|]. rewrite H5. reflexivity.
    + apply last_one_snoc in H3. destruct H3 as [(c' & H3) (e & -> & He')].
      exists (mkRule id ef c' (option_map Some c) (descr l)). split.
      { apply IH; [exact Hel|]. cbn. repeat (split; [assumption || reflexivity|]).
        split; [exists c; split; [assumption|reflexivity]|reflexivity]. }
      apply bind_ok. exists e. split; [apply read_target_iff, He'|]. rewrite H5. reflexivity.
Qed.

Lemma read_rule_iff : forall n r, read_rule E n = Ok r <-> rule_doc E n r.
Proof.
  intros n r. unfold read_rule, rule_doc. rewrite elements_elems, description_iff. unfold elems_called.
  split.
  - intros H. apply bind_ok in H. destruct H as (u & Hu & H). apply expect_ok in Hu; [|reflexivity].
    apply bind_ok in H. destruct H as (id & Hid & H). apply required_ok in Hid.
    apply bind_ok in H. destruct H as (eff & Heff & H). apply required_ok in Heff.
    apply bind_ok in H. destruct H as (ef & Hef & H). apply effect_of_iff in Hef. subst eff.
    apply (rule_fold (Some id) (Some ef)) in H; [|exact (elems_is n)].
    destruct H as (H0 & H1 & H2 & H3 & H4 & H5).
    split; [exact Hu|]. split; [exact H0|]. split; [exists id, ef; repeat (split; [assumption|]); assumption|].
    split; [exact H3|]. split; [exact H4|exact H5].
  - intros (Hu & H0 & (id & ef & H1 & H2 & Hid & Heff) & H3 & H4 & H5).
    apply bind_ok. exists tt. split; [apply expect_ok; [reflexivity|exact Hu]|].
    apply bind_ok. exists id. split; [apply required_ok, Hid|].
    apply bind_ok. exists (effect_name ef). split; [apply required_ok, Heff|].
    apply bind_ok. exists ef. split; [apply effect_of_iff; reflexivity|].
    apply (rule_fold (Some id) (Some ef)); [exact (elems_is n)|].
    repeat (split; [assumption|]). assumption.
Qed.

(** ** Policies *)
Lemma read_defaults_iff : forall n v, read_defaults n = Ok v <-> defaults_doc n v.
Proof.
  intros n v. unfold read_defaults, defaults_doc. rewrite bind_ok. split.
  - intros (u & Hu & H). apply expect_ok in Hu; [|reflexivity]. split; [exact Hu|].
    destruct n as [tag a t kids|t]; [|discriminate Hu]. cbn [el_kids] in H.
    destruct kids as [|c [|c2 r]]; [discriminate H| |discriminate H].
    exists tag, a, t, c. split; [reflexivity|].
    destruct c as [tg at_ x sub|x]; [|discriminate H].
    rewrite local_ln in H by exact I. cbn [bind] in H.
    rewrite (called_ln "XPathVersion" (Elem tg at_ x sub) eq_refl I).
    destruct (String.eqb (ln (Elem tg at_ x sub)) "XPathVersion"); [|discriminate H].
    split; [reflexivity|]. cbn [el_text] in H. cbn [xml_text].
    destruct x; [injection H as <-; reflexivity|discriminate H].
  - intros (Hu & tag & a & t & k & -> & Hk & Ht). exists tt.
    split; [apply expect_ok; [reflexivity|exact Hu]|]. cbn [el_kids].
    pose proof (called_elem _ _ Hk) as He. rewrite local_ln by exact He. cbn [bind].
    rewrite (called_ln "XPathVersion" k eq_refl He) in Hk. rewrite Hk, text_get by exact He. rewrite Ht. reflexivity.
Qed.

Lemma rule_alg_iff : forall id a, rule_alg_of id = Ok a <-> rule_algorithm id = Some a.
Proof.
  intros id a. unfold rule_alg_of, policy_alg_step, policy_alg_from_id. cbn [pa_factory policy_alg_new].
  rewrite <- rule_map_get. destruct (dict_get id RULE_ALG_MAP) as [[b| |]|]; cbn; split; congruence.
Qed.

Lemma version_eq : forall n, version_of n = version_doc n.
Proof.
  intros n. unfold version_of, version_doc. rewrite attrs_get.
  destruct (xml_attr "Version" n) as [[|c s]|]; reflexivity.
Qed.

Lemma existsb_opt_iff : forall x l, existsb (opt_eqb String.eqb x) l = true <-> In x l.
Proof.
  intros x l. rewrite existsb_exists. split.
  - intros (y & Hy & Hxy). replace x with y; [exact Hy|].
    destruct x, y; try discriminate Hxy; [|reflexivity]. apply String.eqb_eq in Hxy. subst. reflexivity.
  - intros H. exists x. split; [exact H|]. destruct x; [apply String.eqb_refl|reflexivity].
Qed.

Lemma NoDup_snoc : forall A (l : list A) x, NoDup (l ++ [x]) <-> NoDup l /\ ~ In x l.
Proof.
  intros A l x. split.
  - intros H. apply NoDup_remove in H. rewrite app_nil_r in H. exact H.
  - intros [H1 H2]. apply NoDup_rev in H1. rewrite <- (rev_involutive (l ++ [x])). apply NoDup_rev.
    rewrite rev_app_distr. cbn [rev app]. constructor; [rewrite <- in_rev; exact H2|exact H1].
Qed.

Lemma policy_fold : forall l a, (forall c, In c l -> is_elem c) ->
  (foldM (policy_child E) l (mkPacc None None None []) = Ok a <->
   (forall c, In c l -> called_one_of ["Description"; "PolicyDefaults"; "Target"; "Rule"] c) /\
   pc_description a = descr l /\
   last_one defaults_doc (filter (called "PolicyDefaults") l) (pc_xpath a) /\
   last_one (target_doc E) (filter (called "Target") l) (pc_target a) /\
   Forall2 (rule_doc E) (filter (called "Rule") l) (pc_rules a) /\
   NoDup (map rl_id (pc_rules a))).
Proof.
  induction l as [|x l IH] using rev_ind; intros a Hel.
  { cbn [foldM filter]. rewrite !last_one_nil. split.
    - intros [= <-]. split; [intros c []|]. cbn. repeat (split; [reflexivity|]). split; constructor.
    - destruct a; cbn. intros (_ & -> & -> & -> & H & _). inversion H. reflexivity. }
  apply elem_snoc in Hel. destruct Hel as [Hel He].
  rewrite foldM_snoc, bind_ok, one_of_snoc. rewrite (one_of_ln _ x He) by reflexivity.
  rewrite descr_snoc by exact He. split.
  - intros (a' & Ha' & H). apply IH in Ha'; [|exact Hel].
    destruct Ha' as (H0 & H1 & H2 & H3 & H4 & H5).
    unfold policy_child in H. rewrite local_ln in H by exact He. cbn [bind] in H.
    case_name x "Description".
    { injection H as <-. cbn [pc_description pc_xpath pc_target pc_rules].
      split; [split; [exact H0|left; symmetry; exact Hn]|]. filters He Hn. rewrite H1.
      split; [reflexivity|]. repeat (split; [assumption|]). assumption. }
    case_name x "PolicyDefaults".
    { apply bind_ok in H. destruct H as (v & Hv & H). injection H as <-.
      apply read_defaults_iff in Hv. cbn [pc_description pc_xpath pc_target pc_rules].
      split; [split; [exact H0|right; left; symmetry; exact Hn0]|]. filters He Hn0.
      split; [assumption|]. split.
      { apply last_one_snoc. split; [exists (pc_xpath a'); exact H2|]. exists v. split; [reflexivity|exact Hv]. }
      repeat (split; [assumption|]). assumption. }
    case_name x "Target".
    { apply bind_ok in H. destruct H as (v & Hv & H). injection H as <-.
      apply read_target_iff in Hv. cbn [pc_description pc_xpath pc_target pc_rules].
      split; [split; [exact H0|right; right; left; symmetry; exact Hn1]|]. filters He Hn1.
      split; [assumption|]. split; [assumption|]. split.
      { apply last_one_snoc. split; [exists (pc_target a'); exact H3|]. exists v. split; [reflexivity|exact Hv]. }
      split; assumption. }
    case_name x "CombinerParameters"; [discriminate H|].
    case_name x "RuleCombinerParameters"; [discriminate H|].
    case_name x "VariableDefinition"; [discriminate H|].
    case_name x "Rule".
    { apply bind_ok in H. destruct H as (r & Hr & H). apply read_rule_iff in Hr.
      destruct (existsb (opt_eqb String.eqb (rl_id r)) (map rl_id (pc_rules a'))) eqn:Ex; [discriminate H|].
      injection H as <-. cbn [pc_description pc_xpath pc_target pc_rules].
      split; [split; [exact H0|right; right; right; left; symmetry; exact Hn5]|]. filters He Hn5.
      repeat (split; [assumption|]). split; [apply Forall2_app; [assumption|constructor; [assumption|constructor]]|].
      rewrite map_app. cbn [map]. apply NoDup_snoc. split; [assumption|].
      rewrite <- existsb_opt_iff, Ex. discriminate. }
    case_name x "Obligations"; discriminate H.
  - destruct a as [ad ax at_ ar]. cbn [pc_description pc_xpath pc_target pc_rules].
    intros ((H0 & Hx) & H1 & H2 & H3 & H4 & H5).
    unfold policy_child. rewrite local_ln by exact He. cbn [bind].
    destruct Hx as [Hx|[Hx|[Hx|[Hx|[]]]]]; symmetry in Hx; filters He Hx; rewrite Hx in *;
      cbn [String.eqb Ascii.eqb Bool.eqb] in *.
    + exists (mkPacc (descr l) ax at_ ar). split.
      { apply IH; [exact Hel|]. cbn. repeat (split; [assumption || reflexivity|]). assumption. }
      rewrite H1. reflexivity.
    + apply last_one_snoc in H2. destruct H2 as [(o' & H2) (v & -> & Hv)].
      exists (mkPacc ad o' at_ ar). split.
      { apply IH; [exact Hel|]. cbn. repeat (split; [assumption || reflexivity|]). assumption. }
      apply bind_ok. exists v. split; [apply read_defaults_iff, Hv|reflexivity].
    + apply last_one_snoc in H3. destruct H3 as [(o' & H3) (v & -> & Hv)].
      exists (mkPacc ad ax o' ar). split.
      { apply IH; [exact Hel|]. cbn. repeat (split; [assumption || reflexivity|]). assumption. }
      apply bind_ok. exists v. split; [apply read_target_iff, Hv|reflexivity].
    + apply Forall2_app_r in H4. destruct H4 as (r1 & r2 & -> & H4 & H4').
      inversion H4' as [|? r ? r3 Hr Hnil]; subst. inversion Hnil; subst.
      rewrite map_app in H5. cbn [map] in H5. apply NoDup_snoc in H5. destruct H5 as [H5 H6].
      exists (mkPacc (descr l) ax at_ r1). split.
      { apply IH; [exact Hel|]. cbn. repeat (split; [assumption || reflexivity|]). assumption. }
      apply bind_ok. exists r. split; [apply read_rule_iff, Hr|]. cbn [pc_rules].
      destruct (existsb (opt_eqb String.eqb (rl_id r)) (map rl_id r1)) eqn:Ex; [|reflexivity].
      apply existsb_opt_iff in Ex. destruct (H6 Ex).
Qed.

Lemma read_policy_iff : forall n p, read_policy E n = Ok p <-> policy_doc E n p.
Proof.
  intros n p. unfold read_policy, policy_doc. rewrite elements_elems, version_eq. unfold elems_called.
  split.
  - intros H. apply bind_ok in H. destruct H as (u & Hu & H). apply expect_ok in Hu; [|reflexivity].
    apply bind_ok in H. destruct H as (id & Hid & H). apply required_ok in Hid.
    apply bind_ok in H. destruct H as (algId & Halg & H). apply required_ok in Halg.
    apply bind_ok in H. destruct H as (alg & Ha & H). apply rule_alg_iff in Ha.
    apply bind_ok in H. destruct H as (a & Hf & H). injection H as <-.
    apply policy_fold in Hf; [|exact (elems_is n)]. destruct Hf as (H0 & H1 & H2 & H3 & H4 & H5).
    split; [exact Hu|]. split; [exact H0|].
    exists id, algId, alg, (pc_description a), (pc_xpath a), (pc_target a), (pc_rules a).
    rewrite description_iff. repeat (split; [assumption || reflexivity|]). assumption.
  - intros (Hu & H0 & id & algId & alg & de & xp & tg & rs & -> & Hid & Halg & Ha & H1 & H2 & H3 & H4 & H5).
    apply description_iff in H1.
    apply bind_ok. exists tt. split; [apply expect_ok; [reflexivity|exact Hu]|].
    apply bind_ok. exists id. split; [apply required_ok, Hid|].
    apply bind_ok. exists algId. split; [apply required_ok, Halg|].
    apply bind_ok. exists alg. split; [apply rule_alg_iff, Ha|].
    apply bind_ok. exists (mkPacc de xp tg rs). split; [|reflexivity].
    apply policy_fold; [exact (elems_is n)|]. cbn. repeat (split; [assumption|]). assumption.
Qed.
End Env.
