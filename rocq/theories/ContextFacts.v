(** Lemmas for C49, C50, C60 and C61. *)
From Verif Require Import ContextXml SpecRead SpecContext.
From Verif Require Import EvalFacts StringFacts ReadFacts.

Ltac case_name n s := destruct (String.eqb_spec (ln n) s) as [?Hn|?Hn].
Ltac filters He Hn :=
  rewrite !filter_snoc in *;
  repeat match goal with
  | |- context [called ?s ?x] => rewrite (called_at x _ He Hn s eq_refl)
  | H : context [called ?s ?x] |- _ => rewrite (called_at x _ He Hn s eq_refl) in H
  end;
  cbn [String.eqb Ascii.eqb Bool.eqb] in *.

(** ** Reading requests *)
Section Read.
Variable cm : list (string * avclass).

Definition value_step (dt : string) (c : node) : res attrval :=
  let* l := local_name c in
  if String.eqb l "AttributeValue" then
    match dict_get dt cm with
    | None => Raise ETypeError
    | Some k => av_new k (match el_text c with Some t => NStr t | None => NNone end)
    end
  else Raise EXMLParseError.

Lemma av_new_str : forall c s v, av_new c (NStr s) = Ok v <->
  ac_type c = NTStr /\ v = mkAV c (ac_id c) (NStr s).
Proof.
  intros c s v. unfold av_new, av_set_value. cbn [av_class av_dataType].
  destruct (ac_type c); cbn [native_isinstance bind]; split;
    try (intros H; discriminate H); try (intros [H _]; discriminate H).
  - intros [= <-]. split; reflexivity.
  - intros [_ ->]. reflexivity.
Qed.

Lemma value_step_iff : forall dt c v, is_elem c ->
  (value_step dt c = Ok v <-> context_value_doc cm dt c v).
Proof.
  intros dt c v He. unfold value_step, context_value_doc.
  rewrite local_ln, (called_ln "AttributeValue" c eq_refl He) by exact He. cbn [bind].
  rewrite text_get by exact He.
  case_name c "AttributeValue"; [|split; [discriminate|intros [H _]; discriminate H]].
  destruct (dict_get dt cm) as [k|]; [|split; [discriminate|intros [_ (k & H & _)]; discriminate H]].
  destruct (xml_text c) as [s|].
  - rewrite av_new_str. split.
    + intros H. split; [reflexivity|]. exists k. split; [reflexivity|exact H].
    + intros [_ (k' & [= <-] & H)]. exact H.
  - cbn [av_new]. split.
    + intros [= <-]. split; [reflexivity|]. exists k. split; reflexivity.
    + intros [_ (k' & [= <-] & ->)]. reflexivity.
Qed.

Lemma string_attr_ok : forall name n s, string_attr name n = Ok s <-> xml_attr name n = Some s.
Proof.
  intros name n s. unfold string_attr. rewrite attrs_get.
  destruct (xml_attr name n); split; congruence.
Qed.

Lemma kids_children : forall n, el_kids n = xml_children n.
Proof. intros []; reflexivity. Qed.

Lemma attribute_iff : forall n a, attribute_of_xml cm n = Ok a <-> attribute_doc cm n a.
Proof.
  intros n a. unfold attribute_of_xml, attribute_doc.
  assert (M : forall dt vs, mapM (value_step dt) (elems n) = Ok vs <->
            Forall2 (context_value_doc cm dt) (elems n) vs).
  { intros dt vs. rewrite mapM_ok. apply Forall2_iff. intros x y Hx. apply value_step_iff.
    eapply elems_is, Hx. }
  rewrite bind_ok. split.
  - intros (u & Hu & H). apply expect_ok in Hu; [|reflexivity].
    apply bind_ok in H. destruct H as (id & Hid & H). apply string_attr_ok in Hid.
    apply bind_ok in H. destruct H as (dt & Hdt & H). apply string_attr_ok in Hdt.
    rewrite kids_children in H. split; [exact Hu|].
    destruct (xml_children n) as [|k ks] eqn:Ek; [discriminate H|]. split; [discriminate|].
    rewrite <- Ek, <- kids_children, elements_elems in H.
    apply bind_ok in H. destruct H as (vs & Hvs & H). injection H as <-.
    apply (M dt) in Hvs. exists id, dt.
    cbn [at_id at_dataType at_issuer at_values]. rewrite attrs_get.
    repeat (split; [reflexivity || assumption|]). exact Hvs.
  - intros (Hu & Hk & id & dt & Hid & Hdt & H1 & H2 & H3 & H).
    exists tt. split; [apply expect_ok; [reflexivity|exact Hu]|].
    apply bind_ok. exists id. split; [apply string_attr_ok, Hid|].
    apply bind_ok. exists dt. split; [apply string_attr_ok, Hdt|].
    rewrite kids_children. destruct (xml_children n) as [|k ks] eqn:Ek; [destruct (Hk eq_refl)|].
    rewrite <- Ek, <- kids_children, elements_elems.
    apply bind_ok. exists (at_values a). split; [apply (M dt), H|].
    rewrite attrs_get, <- H3, <- H1, <- H2. destruct a; reflexivity.
Qed.

Definition attr_step (l : list attribute) (c : node) : res (list attribute) :=
  let* name := local_name c in
  if String.eqb name "Attribute" then let* a := attribute_of_xml cm c in Ok (l ++ [a]) else Ok l.

Lemma attributes_fold : forall l acc r, (forall k, In k l -> is_elem k) ->
  (foldM attr_step l acc = Ok r <->
   exists ys, r = acc ++ ys /\ Forall2 (attribute_doc cm) (filter (called "Attribute") l) ys).
Proof.
  intros l. induction l as [|x l IH]; intros acc r Hel; cbn [foldM filter].
  - split.
    + intros [= <-]. exists []. split; [rewrite app_nil_r; reflexivity|constructor].
    + intros (ys & -> & H). inversion H. rewrite app_nil_r. reflexivity.
  - assert (is_elem x) as He by (apply Hel; left; reflexivity).
    assert (forall k, In k l -> is_elem k) as Hel' by (intros k Hk; apply Hel; right; exact Hk).
    unfold attr_step at 1. rewrite local_ln, (called_ln "Attribute" x eq_refl He) by exact He.
    cbn [bind]. case_name x "Attribute"; [|apply IH, Hel'].
    destruct (attribute_of_xml cm x) as [a|e] eqn:Ea; cbn [bind].
    + rewrite (IH _ _ Hel'). split.
      * intros (ys & -> & H). exists (a :: ys). split; [rewrite <- app_assoc; reflexivity|].
        constructor; [apply attribute_iff, Ea|exact H].
      * intros (ys & -> & H). inversion H as [|? a' ? ys' Ha H']; subst. apply attribute_iff in Ha.
        assert (a' = a) by congruence. subst. exists ys'. split; [rewrite <- app_assoc; reflexivity|exact H'].
    + split; [discriminate|]. intros (ys & _ & H). inversion H as [|? a' ? ys' Ha H']; subst.
      apply attribute_iff in Ha. congruence.
Qed.

Lemma attributes_iff : forall n l, attributes_of_xml cm n = Ok l <-> attributes_doc cm n l.
Proof.
  intros n l. unfold attributes_of_xml, attributes_doc, elems_called. rewrite elements_elems.
  change (foldM _ (elems n) []) with (foldM attr_step (elems n) []).
  rewrite (attributes_fold (elems n) [] l (elems_is n)). split.
  - intros (ys & -> & H). exact H.
  - intros H. exists l. split; [reflexivity|exact H].
Qed.

Lemma subject_iff : forall n s, subject_of_xml cm n = Ok s <-> subject_doc cm n s.
Proof.
  intros n s. unfold subject_of_xml, subject_doc. rewrite bind_ok. rewrite attrs_get. split.
  - intros (u & Hu & H). apply expect_ok in Hu; [|reflexivity].
    apply bind_ok in H. destruct H as (l & Hl & H). injection H as <-.
    apply attributes_iff in Hl. split; [exact Hu|]. split; [reflexivity|exact Hl].
  - intros (Hu & Hc & H). exists tt. split; [apply expect_ok; [reflexivity|exact Hu]|].
    apply bind_ok. exists (sb_attributes s). split; [apply attributes_iff, H|].
    destruct s as [c l]. cbn [sb_category sb_attributes] in *. rewrite Hc. reflexivity.
Qed.

Lemma part_iff : forall name n l, has_char close_brace name = false ->
  (part_of_xml name cm n = Ok l <-> part_doc name cm n l).
Proof.
  intros name n l Hn. unfold part_of_xml, part_doc. rewrite bind_ok. split.
  - intros (u & Hu & H). apply expect_ok in Hu; [|exact Hn]. apply attributes_iff in H. auto.
  - intros (Hu & H). exists tt. split; [apply expect_ok; assumption|apply attributes_iff, H].
Qed.

Definition resource_step (r : resource) (c : node) : res resource :=
  let* name := local_name c in
  if String.eqb name "Attribute" then
    let* a := attribute_of_xml cm c in
    Ok (mkResource (rs_content r) (rs_attributes r ++ [a]))
  else if String.eqb name "ResourceContent" then Ok (mkResource (Some c) (rs_attributes r))
  else Ok r.

Lemma resource_fold : forall l r, (forall k, In k l -> is_elem k) ->
  (foldM resource_step l (mkResource None []) = Ok r <->
   Forall2 (attribute_doc cm) (filter (called "Attribute") l) (rs_attributes r) /\
   last_one (fun k k' => k = k') (filter (called "ResourceContent") l) (rs_content r)).
Proof.
  intros l. induction l as [|x l IH] using rev_ind; intros r Hel.
  { cbn [foldM filter]. rewrite last_one_nil. destruct r as [c a]; cbn [rs_attributes rs_content]. split.
    - intros [= <- <-]. split; constructor.
    - intros [H ->]. inversion H. reflexivity. }
  apply elem_snoc in Hel. destruct Hel as [Hel He].
  rewrite foldM_snoc, bind_ok. unfold resource_step at 2. rewrite local_ln by exact He. cbn [bind].
  case_name x "Attribute"; [filters He Hn|case_name x "ResourceContent"; [filters He Hn0|]].
  - split.
    + intros (r' & Hr & H). apply (IH _ Hel) in Hr. destruct Hr as [H1 H2].
      apply bind_ok in H. destruct H as (a & Ha & H). injection H as <-. apply attribute_iff in Ha.
      cbn [rs_attributes rs_content]. split; [|exact H2]. apply Forall2_app; [exact H1|].
      constructor; [exact Ha|constructor].
    + intros [H1 H2]. apply Forall2_app_r in H1. destruct H1 as (r1 & r2 & H & H1 & H1').
      inversion H1' as [|? a ? r3 Ha Hn']; subst. inversion Hn'; subst.
      exists (mkResource (rs_content r) r1). split; [apply IH; [exact Hel|split; assumption]|].
      apply bind_ok. exists a. split; [apply attribute_iff, Ha|].
      destruct r as [rc ra]; cbn [rs_attributes rs_content] in *. rewrite H. reflexivity.
  - split.
    + intros (r' & Hr & H). apply (IH _ Hel) in Hr. destruct Hr as [H1 H2]. injection H as <-.
      cbn [rs_attributes rs_content]. split; [exact H1|]. apply last_one_snoc.
      split; [exists (rs_content r'); exact H2|]. exists x. split; reflexivity.
    + intros [H1 H2]. apply last_one_snoc in H2. destruct H2 as [(o & Ho) (k & Hk & Hx)].
      subst k. exists (mkResource o (rs_attributes r)).
      split; [apply IH; [exact Hel|split; assumption]|].
      destruct r as [rc ra]; cbn [rs_attributes rs_content] in *. rewrite Hk. reflexivity.
  - rewrite !filter_snoc, !(called_ln _ x) by (reflexivity || exact He).
    apply String.eqb_neq in Hn, Hn0. rewrite Hn, Hn0. split.
    + intros (r' & Hr & H). injection H as <-. apply IH; assumption.
    + intros H. exists r. split; [apply IH; assumption|reflexivity].
Qed.

Lemma resource_iff : forall n r, resource_of_xml cm n = Ok r <-> resource_doc cm n r.
Proof.
  intros n r. unfold resource_of_xml, resource_doc, attributes_doc, elems_called.
  rewrite elements_elems.
  change (foldM _ (elems n) (mkResource None [])) with (foldM resource_step (elems n) (mkResource None [])).
  rewrite bind_ok. split.
  - intros (u & Hu & H). apply expect_ok in Hu; [|reflexivity].
    apply resource_fold in H; [|exact (elems_is n)]. split; assumption.
  - intros (Hu & H). exists tt. split; [apply expect_ok; [reflexivity|exact Hu]|].
    apply resource_fold; [exact (elems_is n)|exact H].
Qed.

Definition request_step (r : request) (c : node) : res request :=
  let* name := local_name c in
  if String.eqb name "Subject" then
    let* s := subject_of_xml cm c in
    Ok (mkRequest (rq_subjects r ++ [s]) (rq_resources r) (rq_action r) (rq_environment r) None None)
  else if String.eqb name "Resource" then
    let* s := resource_of_xml cm c in
    Ok (mkRequest (rq_subjects r) (rq_resources r ++ [s]) (rq_action r) (rq_environment r) None None)
  else if String.eqb name "Action" then
    let* a := part_of_xml "Action" cm c in
    Ok (mkRequest (rq_subjects r) (rq_resources r) (Some a) (rq_environment r) None None)
  else if String.eqb name "Environment" then
    let* a := part_of_xml "Environment" cm c in
    Ok (mkRequest (rq_subjects r) (rq_resources r) (rq_action r) (Some a) None None)
  else Raise EXMLParseError.

Lemma Forall2_snoc_r : forall A B (R : A -> B -> Prop) l x r,
  Forall2 R (l ++ [x]) r <-> exists r1 y, r = r1 ++ [y] /\ Forall2 R l r1 /\ R x y.
Proof.
  intros A B R l x r. rewrite Forall2_app_r. split.
  - intros (r1 & r2 & -> & H1 & H2). inversion H2 as [|? y ? r3 Hy H3]; subst. inversion H3; subst.
    exists r1, y. auto.
  - intros (r1 & y & -> & H1 & H2). exists r1, [y]. repeat (constructor; auto).
Qed.

Lemma request_fold : forall l r, (forall k, In k l -> is_elem k) ->
  (foldM request_step l (mkRequest [] [] None None None None) = Ok r <->
   (forall k, In k l -> called_one_of ["Subject"; "Resource"; "Action"; "Environment"] k) /\
   Forall2 (subject_doc cm) (filter (called "Subject") l) (rq_subjects r) /\
   Forall2 (resource_doc cm) (filter (called "Resource") l) (rq_resources r) /\
   last_one (part_doc "Action" cm) (filter (called "Action") l) (rq_action r) /\
   last_one (part_doc "Environment" cm) (filter (called "Environment") l) (rq_environment r) /\
   rq_ctxHandler r = None /\ rq_selector r = None).
Proof.
  intros l. induction l as [|x l IH] using rev_ind; intros r Hel.
  { cbn [foldM filter]. rewrite !last_one_nil. destruct r as [ss rs a en h s].
    cbn [rq_subjects rq_resources rq_action rq_environment rq_ctxHandler rq_selector]. split.
    - intros [= <- <- <- <- <- <-]. split; [intros k []|]. repeat (split; [constructor|]). constructor.
    - intros (_ & H1 & H2 & -> & -> & -> & ->). inversion H1. inversion H2. reflexivity. }
  apply elem_snoc in Hel. destruct Hel as [Hel He].
  rewrite foldM_snoc, bind_ok, one_of_snoc. rewrite (one_of_ln _ x He) by reflexivity. split.
  - intros (r' & Hr & H). apply (IH _ Hel) in Hr. destruct Hr as (H0 & H1 & H2 & H3 & H4 & H5 & H6).
    unfold request_step in H. rewrite local_ln in H by exact He. cbn [bind] in H.
    case_name x "Subject"; [|case_name x "Resource"; [|case_name x "Action";
      [|case_name x "Environment"; [|discriminate H]]]];
      apply bind_ok in H; destruct H as (v & Hv & H); injection H as <-;
      cbn [rq_subjects rq_resources rq_action rq_environment rq_ctxHandler rq_selector].
    + split; [split; [exact H0|rewrite Hn; cbn [In]; auto]|]. filters He Hn.
      split; [apply Forall2_snoc_r; do 2 eexists; split; [reflexivity|split; [exact H1|apply subject_iff, Hv]]|].
      repeat (split; [assumption || reflexivity|]). reflexivity.
    + split; [split; [exact H0|rewrite Hn0; cbn [In]; auto]|]. filters He Hn0. split; [exact H1|].
      split; [apply Forall2_snoc_r; do 2 eexists; split; [reflexivity|split; [exact H2|apply resource_iff, Hv]]|].
      repeat (split; [assumption || reflexivity|]). reflexivity.
    + split; [split; [exact H0|rewrite Hn1; cbn [In]; auto]|]. filters He Hn1. split; [exact H1|]. split; [exact H2|].
      split; [apply last_one_snoc; split; [eexists; exact H3|exists v; split; [reflexivity|apply part_iff; [reflexivity|exact Hv]]]|].
      repeat (split; [assumption || reflexivity|]). reflexivity.
    + split; [split; [exact H0|rewrite Hn2; cbn [In]; auto]|]. filters He Hn2.
      split; [exact H1|]. split; [exact H2|]. split; [exact H3|].
      split; [apply last_one_snoc; split; [eexists; exact H4|exists v; split; [reflexivity|apply part_iff; [reflexivity|exact Hv]]]|].
      split; reflexivity.
  - destruct r as [ss rs a en h s].
    cbn [rq_subjects rq_resources rq_action rq_environment rq_ctxHandler rq_selector].
    intros ((H0 & Hx) & H1 & H2 & H3 & H4 & -> & ->).
    unfold request_step. rewrite local_ln by exact He. cbn [bind].
    destruct Hx as [Hx|[Hx|[Hx|[Hx|[]]]]]; symmetry in Hx; filters He Hx; rewrite Hx;
      cbn [String.eqb Ascii.eqb Bool.eqb].
    + apply Forall2_snoc_r in H1. destruct H1 as (r1 & y & -> & H1 & Hy).
      exists (mkRequest r1 rs a en None None). split.
      * apply IH; [exact Hel|].
        cbn [rq_subjects rq_resources rq_action rq_environment rq_ctxHandler rq_selector].
        repeat (split; [assumption || reflexivity|]). reflexivity.
      * apply bind_ok. exists y. split; [apply subject_iff, Hy|reflexivity].
    + apply Forall2_snoc_r in H2. destruct H2 as (r1 & y & -> & H2 & Hy).
      exists (mkRequest ss r1 a en None None). split.
      * apply IH; [exact Hel|].
        cbn [rq_subjects rq_resources rq_action rq_environment rq_ctxHandler rq_selector].
        repeat (split; [assumption || reflexivity|]). reflexivity.
      * apply bind_ok. exists y. split; [apply resource_iff, Hy|reflexivity].
    + apply last_one_snoc in H3. destruct H3 as [(o & Ho) (y & -> & Hy)].
      exists (mkRequest ss rs o en None None). split.
      * apply IH; [exact Hel|].
        cbn [rq_subjects rq_resources rq_action rq_environment rq_ctxHandler rq_selector].
        repeat (split; [assumption || reflexivity|]). reflexivity.
      * apply bind_ok. exists y. split; [apply part_iff; [reflexivity|exact Hy]|reflexivity].
    + apply last_one_snoc in H4. destruct H4 as [(o & Ho) (y & -> & Hy)].
      exists (mkRequest ss rs a o None None). split.
      * apply IH; [exact Hel|].
        cbn [rq_subjects rq_resources rq_action rq_environment rq_ctxHandler rq_selector].
        repeat (split; [assumption || reflexivity|]). reflexivity.
      * apply bind_ok. exists y. split; [apply part_iff; [reflexivity|exact Hy]|reflexivity].
Qed.

Lemma request_iff : forall n r, request_of_xml cm n = Ok r <-> request_doc cm n r.
Proof.
  intros n r. unfold request_of_xml, request_doc, elems_called. rewrite elements_elems.
  change (foldM _ (elems n) _) with (foldM request_step (elems n) (mkRequest [] [] None None None None)).
  rewrite bind_ok. split.
  - intros (u & Hu & H). apply expect_ok in Hu; [|reflexivity].
    apply request_fold in H; [|exact (elems_is n)]. split; assumption.
  - intros (Hu & H). exists tt. split; [apply expect_ok; [reflexivity|exact Hu]|].
    apply request_fold; [exact (elems_is n)|exact H].
Qed.
End Read.

(** ** Reading responses *)
Lemma decision_of_str_iff : forall s d, decision_of_str s = Some d <-> s = decision_str d.
Proof.
  intros s d. unfold decision_of_str. split.
  - destruct (String.eqb_spec s "Permit") as [->|_]; [intros [= <-]; reflexivity|].
    destruct (String.eqb_spec s "Deny") as [->|_]; [intros [= <-]; reflexivity|].
    destruct (String.eqb_spec s "Indeterminate") as [->|_]; [intros [= <-]; reflexivity|].
    destruct (String.eqb_spec s "NotApplicable") as [->|_]; [intros [= <-]; reflexivity|].
    discriminate.
  - intros ->. destruct d; reflexivity.
Qed.

Lemma decision_iff : forall n d, decision_of_xml n = Ok d <-> decision_doc n d.
Proof.
  intros n d. unfold decision_of_xml, decision_doc.
  assert (S : xml_text n = Some (match d with
                     | Permit => "Permit" | Deny => "Deny"
                     | Indeterminate => "Indeterminate" | NotApplicable => "NotApplicable"
                     end) <-> xml_text n = Some (decision_str d)) by (destruct d; reflexivity).
  rewrite S, bind_ok. split.
  - intros (u & Hu & H). apply expect_ok in Hu; [|reflexivity]. split; [exact Hu|].
    destruct n as [tag attrs text kids|]; [|discriminate Hu]. cbn [el_text xml_text] in *.
    destruct text as [s|]; [|discriminate H].
    destruct (decision_of_str s) as [d'|] eqn:Ed; [|discriminate H]. injection H as ->.
    apply decision_of_str_iff in Ed. subst. reflexivity.
  - intros (Hu & H). exists tt. split; [apply expect_ok; [reflexivity|exact Hu]|].
    destruct n as [tag attrs text kids|]; [|discriminate Hu]. cbn [el_text xml_text] in *.
    subst text. destruct d; reflexivity.
Qed.

Definition result_step (r : result) (c : node) : res result :=
  let* name := local_name c in
  if String.eqb name "Decision" then
    let* d := decision_of_xml c in
    Ok (mkResult (Some (DOwn d)) (rs_status r) (rs_resourceId r) (rs_obligations r))
  else Raise EXMLParseError.

Lemma result_fold : forall i l r, (forall k, In k l -> is_elem k) ->
  (foldM result_step l (mkResult None None i None) = Ok r <->
   (forall k, In k l -> called "Decision" k = true) /\
   last_one (fun k o => exists d, decision_doc k d /\ o = DOwn d) l (rs_decision r) /\
   rs_resourceId r = i /\ rs_status r = None /\ rs_obligations r = None).
Proof.
  intros i l. induction l as [|x l IH] using rev_ind; intros r Hel.
  { cbn [foldM]. rewrite !last_one_nil. destruct r as [d s id o].
    cbn [rs_decision rs_status rs_resourceId rs_obligations]. split.
    - intros [= <- <- <- <-]. split; [intros k []|]. auto.
    - intros (_ & -> & -> & -> & ->). reflexivity. }
  apply elem_snoc in Hel. destruct Hel as [Hel He].
  rewrite foldM_snoc, bind_ok. unfold result_step at 2. rewrite local_ln by exact He. cbn [bind].
  case_name x "Decision".
  - assert (C : called "Decision" x = true)
      by (rewrite (called_ln "Decision" x eq_refl He), Hn; reflexivity).
    split.
    + intros (r' & Hr & H). apply (IH _ Hel) in Hr. destruct Hr as (H1 & H2 & H3 & H4 & H5).
      apply bind_ok in H. destruct H as (d & Hd & H). injection H as <-. apply decision_iff in Hd.
      cbn [rs_decision rs_status rs_resourceId rs_obligations].
      split; [intros k Hk; apply in_app_iff in Hk; destruct Hk as [Hk|[<-|[]]]; auto|].
      split; [|auto]. apply last_one_snoc. split; [eexists; exact H2|].
      exists (DOwn d). split; [reflexivity|]. exists d. auto.
    + intros (H1 & H2 & H3 & H4 & H5). apply last_one_snoc in H2.
      destruct H2 as [(o & Ho) (a & Ha & d & Hd & ->)].
      exists (mkResult o None i None). split.
      * apply IH; [exact Hel|]. cbn [rs_decision rs_status rs_resourceId rs_obligations].
        split; [intros k Hk; apply H1, in_app_iff; auto|auto].
      * apply bind_ok. exists d. split; [apply decision_iff, Hd|].
        destruct r as [rd rst rid rob]; cbn [rs_decision rs_status rs_resourceId rs_obligations] in *. congruence.
  - split.
    + intros (r' & _ & H). discriminate H.
    + intros (H1 & _). specialize (H1 x). rewrite (called_ln "Decision" x eq_refl He) in H1.
      apply String.eqb_neq in Hn. rewrite Hn in H1.
      discriminate H1. apply in_app_iff. right; left; reflexivity.
Qed.

Lemma result_iff : forall n r, result_of_xml n = Ok r <-> result_doc n r.
Proof.
  intros n r. unfold result_of_xml, result_doc. rewrite elements_elems.
  change (foldM _ (elems n) _)
    with (foldM result_step (elems n) (mkResult None None (dict_get "ResourceId" (el_attrs n)) None)).
  rewrite attrs_get, bind_ok. split.
  - intros (u & Hu & H). apply expect_ok in Hu; [|reflexivity].
    apply result_fold in H; [|exact (elems_is n)]. split; assumption.
  - intros (Hu & H). exists tt. split; [apply expect_ok; [reflexivity|exact Hu]|].
    apply result_fold; [exact (elems_is n)|exact H].
Qed.

Lemma response_iff : forall n r, response_of_xml n = Ok r <-> response_doc n r.
Proof.
  intros n r. unfold response_of_xml, response_doc. rewrite elements_elems, bind_ok.
  assert (M : mapM (fun c => let* name := local_name c in
              if String.eqb name "Result" then result_of_xml c else Raise EXMLParseError) (elems n) = Ok r
            <-> (forall k, In k (elems n) -> called "Result" k = true) /\ Forall2 result_doc (elems n) r).
  { rewrite mapM_ok. assert (He := elems_is n). revert r He.
    induction (elems n) as [|x l IH]; intros r He.
    - split; [intros H; inversion H; split; [intros k []|constructor]|intros [_ H]; inversion H; constructor].
    - assert (is_elem x) as Hx by (apply He; left; reflexivity).
      assert (K : forall v, (let* name := local_name x in
                if String.eqb name "Result" then result_of_xml x else Raise EXMLParseError) = Ok v <->
                called "Result" x = true /\ result_doc x v).
      { intros v. rewrite local_ln, (called_ln "Result" x eq_refl Hx) by exact Hx. cbn [bind].
        case_name x "Result"; [rewrite result_iff; tauto|split; [discriminate|intros [H _]; discriminate H]]. }
      split.
      + intros H. inversion H as [|? v ? vs Hv H']; subst. apply K in Hv. destruct Hv as [Hc Hv].
        apply IH in H'; [|intros k Hk; apply He; right; exact Hk]. destruct H' as [H1 H2].
        split; [intros k [<-|Hk]; auto|constructor; assumption].
      + intros [Hc H]. inversion H as [|? v ? vs Hv H']; subst.
        constructor; [apply K; split; [apply Hc; left; reflexivity|exact Hv]|].
        apply IH; [intros k Hk; apply He; right; exact Hk|].
        split; [intros k Hk; apply Hc; right; exact Hk|exact H']. }
  split.
  - intros (u & Hu & H). apply expect_ok in Hu; [|reflexivity]. split; [exact Hu|apply M, H].
  - intros (Hu & H). exists tt. split; [apply expect_ok; [reflexivity|exact Hu]|apply M, H].
Qed.

(** ** Writing *)
Section Write.
Variable lxml : bool.
Variable cm : list (string * avclass).

Lemma mapM_docs : forall A B (f : A -> res node) (g : A -> B) (D : node -> B -> Prop) (S : A -> Prop),
  (forall a n, f a = Ok n -> (D n (g a) <-> S a)) ->
  forall l ns, mapM f l = Ok ns -> (Forall2 D ns (map g l) <-> forall a, In a l -> S a).
Proof.
  intros A B f g D S HS l ns H. apply mapM_ok in H. induction H as [|a n l ns Ha H IH]; cbn [map].
  - split; [intros _ a []|constructor].
  - split.
    + intros K. inversion K as [|? ? ? ? K1 K2]; subst. intros b [<-|Hb]; [apply (HS _ _ Ha), K1|].
      apply IH; assumption.
    + intros K. constructor; [apply (HS _ _ Ha), K; left; reflexivity|].
      apply IH. intros b Hb. apply K. right; exact Hb.
Qed.

Lemma mapM_written : forall A (f : A -> res node) (S : A -> Prop),
  (forall a, S a -> exists n, f a = Ok n) ->
  forall l, (forall a, In a l -> S a) -> exists ns, mapM f l = Ok ns.
Proof.
  intros A f S HS l H. induction l as [|a l IH]; [exists []; reflexivity|].
  destruct (HS a (H a (or_introl eq_refl))) as (n & Hn).
  destruct IH as (ns & Hns); [intros b Hb; apply H; right; exact Hb|].
  exists (n :: ns). apply mapM_ok. constructor; [exact Hn|apply mapM_ok, Hns].
Qed.

(** All elements of a list have the given tag. *)
Definition tagged (tag : string) (l : list node) : Prop :=
  forall n, In n l -> exists attrs text kids, n = Elem (context_tag tag) attrs text kids.

Lemma tagged_mapM : forall A (f : A -> res node) tag,
  (forall a n, f a = Ok n -> exists attrs text kids, n = Elem (context_tag tag) attrs text kids) ->
  forall l ns, mapM f l = Ok ns -> tagged tag ns.
Proof.
  intros A f tag Hf l ns H n Hn. apply mapM_ok in H. induction H as [|a m l ns Ha H IH]; [destruct Hn|].
  destruct Hn as [<-|Hn]; [apply (Hf _ _ Ha)|apply IH, Hn].
Qed.

Lemma tagged_elems : forall tag l, tagged tag l ->
  filter (fun k => match k with Elem _ _ _ _ => true | Comment _ => false end) l = l.
Proof.
  intros tag l. induction l as [|x l IH]; intros H; [reflexivity|].
  destruct (H x (or_introl eq_refl)) as (? & ? & ? & ->). cbn [filter]. f_equal. apply IH.
  intros n Hn. apply H. right; exact Hn.
Qed.

Lemma tagged_called : forall tag name b, (forall a t k, called name (Elem (context_tag tag) a t k) = b) ->
  forall l, tagged tag l -> filter (called name) l = if b then l else [].
Proof.
  intros tag name b Hb l. induction l as [|x l IH]; intros H; [destruct b; reflexivity|].
  destruct (H x (or_introl eq_refl)) as (? & ? & ? & ->). cbn [filter]. rewrite Hb.
  rewrite IH by (intros n Hn; apply H; right; exact Hn). destruct b; reflexivity.
Qed.

Lemma value_written : forall dt v n, value_xml lxml v = Ok n ->
  (context_value_doc cm dt n v <-> sendable_value cm dt v).
Proof.
  intros dt v n H. unfold value_xml in H. apply bind_ok in H. destruct H as (t & Ht & H).
  injection H as <-. unfold context_value_doc, sendable_value, make_element. cbn [xml_text].
  destruct v as [c d nv]. cbn [av_value av_class av_dataType] in *.
  destruct nv; try discriminate Ht; injection Ht as <-.
  - split.
    + intros (_ & c' & Hc & [= -> ->]). auto.
    + intros (Hc & -> & _). split; [reflexivity|]. exists c. auto.
  - split.
    + intros (_ & c' & Hc & Ht & [= -> ->]). split; [exact Hc|]. split; [reflexivity|].
      right. split; [exact Ht|]. eexists; reflexivity.
    + intros (Hc & -> & [K|[Hy _]]); [discriminate K|]. split; [reflexivity|]. exists c. auto.
Qed.

Lemma value_writes : forall dt v, sendable_value cm dt v -> exists n, value_xml lxml v = Ok n.
Proof.
  intros dt v (_ & _ & [H|(_ & s & H)]); unfold value_xml; rewrite H; eexists; reflexivity.
Qed.

Lemma value_tag : forall v n, value_xml lxml v = Ok n ->
  exists attrs text kids, n = Elem (context_tag "AttributeValue") attrs text kids.
Proof.
  intros v n H. apply bind_ok in H. destruct H as (t & _ & H). injection H as <-.
  do 3 eexists. reflexivity.
Qed.

Lemma attribute_tag : forall a n, attribute_xml lxml a = Ok n ->
  exists attrs text kids, n = Elem (context_tag "Attribute") attrs text kids.
Proof.
  intros a n H. unfold attribute_xml in H. destruct (at_id a); [|discriminate H].
  destruct (at_dataType a); [|discriminate H]. apply bind_ok in H. destruct H as (k & _ & H).
  injection H as <-. do 3 eexists. reflexivity.
Qed.

Lemma attribute_written : forall a n, attribute_xml lxml a = Ok n ->
  (attribute_doc cm n a <-> sendable_attribute cm a).
Proof.
  intros a n H. unfold attribute_xml in H. destruct (at_id a) as [id|] eqn:Hid; [|discriminate H].
  destruct (at_dataType a) as [dt|] eqn:Hdt; [|discriminate H].
  apply bind_ok in H. destruct H as (kids & Hk & H). injection H as <-.
  assert (T := tagged_mapM _ _ _ value_tag _ _ Hk).
  assert (V := mapM_docs _ _ _ (fun v => v) _ _ (value_written dt) _ _ Hk). rewrite map_id in V.
  assert (L : kids = [] <-> at_values a = []).
  { apply mapM_ok in Hk. destruct Hk; split; congruence. }
  unfold attribute_doc, sendable_attribute, make_element. cbn [xml_children elems].
  rewrite (tagged_elems _ _ T), Hid, Hdt. split.
  - intros (_ & Hn & id' & dt' & _ & _ & _ & Hdt' & _ & Hv). injection Hdt' as <-.
    split; [discriminate|]. split; [intros K; apply Hn, L, K|].
    exists dt. split; [reflexivity|]. apply V, Hv.
  - intros (_ & Hn & dt' & [= <-] & Hv). split; [reflexivity|].
    split; [intros K; apply Hn, L, K|]. exists id, dt.
    split; [destruct lxml; reflexivity|]. split; [destruct lxml; reflexivity|].
    split; [reflexivity|]. split; [reflexivity|].
    split; [destruct lxml, (at_issuer a); reflexivity|]. apply V, Hv.
Qed.

Lemma attribute_writes : forall a, sendable_attribute cm a -> exists n, attribute_xml lxml a = Ok n.
Proof.
  intros a (Hid & _ & dt & Hdt & Hv). unfold attribute_xml.
  destruct (at_id a); [|destruct (Hid eq_refl)]. rewrite Hdt.
  destruct (mapM_written _ _ _ (value_writes dt) _ Hv) as (ns & ->). eexists. reflexivity.
Qed.

Lemma attributes_writes : forall name content l, sendable_attributes cm l ->
  exists n, attributes_xml lxml name content l = Ok n.
Proof.
  intros name content l H. unfold attributes_xml.
  destruct (mapM_written _ _ _ attribute_writes _ H) as (ns & ->). eexists. reflexivity.
Qed.

Lemma attributes_shape : forall name content l n, attributes_xml lxml name content l = Ok n ->
  exists attrs kids, n = Elem (context_tag name) attrs None (content ++ kids) /\
    xml_attr "SubjectCategory" n = None /\ tagged "Attribute" kids /\
    (Forall2 (attribute_doc cm) kids l <-> sendable_attributes cm l).
Proof.
  intros name content l n H. apply bind_ok in H. destruct H as (kids & Hk & H). injection H as <-.
  unfold make_element. eexists. exists kids. split; [reflexivity|].
  split; [destruct lxml; reflexivity|].
  split; [apply (tagged_mapM _ _ _ attribute_tag _ _ Hk)|].
  assert (V := mapM_docs _ _ _ (fun v => v) _ _ attribute_written _ _ Hk). rewrite map_id in V. exact V.
Qed.

Lemma attributes_written : forall name l n, attributes_xml lxml name [] l = Ok n ->
  (attributes_doc cm n l <-> sendable_attributes cm l).
Proof.
  intros name l n H. apply attributes_shape in H. destruct H as (attrs & kids & -> & _ & T & V).
  unfold attributes_doc, elems_called. cbn [app elems].
  rewrite (tagged_elems _ _ T), (tagged_called "Attribute" "Attribute" true) by (reflexivity || exact T).
  exact V.
Qed.

Lemma attributes_tag : forall name content l n, attributes_xml lxml name content l = Ok n ->
  exists attrs text kids, n = Elem (context_tag name) attrs text kids.
Proof.
  intros name content l n H. apply attributes_shape in H. destruct H as (attrs & kids & -> & _).
  do 3 eexists. reflexivity.
Qed.

Definition received_subject (s : subject) : subject :=
  mkSubject (Some ACCESS_SUBJECT) (sb_attributes s).

Lemma subject_written : forall s n, subject_xml lxml s = Ok n ->
  (subject_doc cm n (received_subject s) <-> sendable_attributes cm (sb_attributes s)).
Proof.
  intros s n H. assert (A := attributes_written _ _ _ H).
  apply attributes_shape in H. destruct H as (attrs & kids & -> & Hc & _ & _).
  unfold subject_doc. rewrite Hc. cbn [received_subject sb_category sb_attributes]. rewrite A.
  split; [intros (_ & _ & K); exact K|intros K]. split; [reflexivity|]. split; [reflexivity|exact K].
Qed.

Lemma part_written : forall name l n, (forall a t k, called name (Elem (context_tag name) a t k) = true) ->
  attributes_xml lxml name [] l = Ok n ->
  (part_doc name cm n l <-> sendable_attributes cm l).
Proof.
  intros name l n Hn H. assert (A := attributes_written _ _ _ H).
  apply attributes_shape in H. destruct H as (attrs & kids & -> & _).
  unfold part_doc. rewrite A, Hn. tauto.
Qed.

Definition sendable_resource (s : resource) : Prop :=
  sendable_attributes cm (rs_attributes s) /\
  forall n, rs_content s = Some n -> called "ResourceContent" n = true.

Lemma resource_written : forall s n, resource_xml lxml s = Ok n ->
  (resource_doc cm n s <-> sendable_resource s).
Proof.
  intros s n H. apply attributes_shape in H. destruct H as (attrs & kids & -> & _ & T & V).
  unfold resource_doc, sendable_resource, attributes_doc, elems_called. cbn [elems].
  rewrite !filter_app, (tagged_elems _ _ T).
  rewrite (tagged_called "Attribute" "Attribute" true (fun _ _ _ => eq_refl) kids T).
  rewrite (tagged_called "Attribute" "ResourceContent" false (fun _ _ _ => eq_refl) kids T).
  rewrite app_nil_r.
  destruct (rs_content s) as [[tag at_ tx ks|tx]|] eqn:Ec; cbn [filter].
  - assert (He : is_elem (Elem tag at_ tx ks)) by exact I.
    set (x := Elem tag at_ tx ks) in *.
    destruct (called "ResourceContent" x) eqn:C.
    + assert (N : called "Attribute" x = false).
      { rewrite (called_ln "ResourceContent" x eq_refl He) in C.
        rewrite (called_ln "Attribute" x eq_refl He). apply String.eqb_eq in C. rewrite C. reflexivity. }
      rewrite N. cbn [app]. split.
      * intros (_ & K & _). split; [apply V, K|]. intros n [= <-]. exact C.
      * intros (K & _). split; [reflexivity|]. split; [apply V, K|].
        split; [intros k [<-|[]]; exists x; reflexivity|]. exists x. split; reflexivity.
    + split.
      * intros (_ & _ & K). apply last_one_nil in K. discriminate K.
      * intros (_ & K). specialize (K x eq_refl). congruence.
  - split.
    + intros (_ & _ & K). apply last_one_nil in K. discriminate K.
    + intros (_ & K). specialize (K _ eq_refl). discriminate K.
  - rewrite last_one_nil. cbn [app]. split.
    + intros (_ & K & _). split; [apply V, K|discriminate].
    + intros (K & _). split; [reflexivity|]. split; [apply V, K|reflexivity].
Qed.

Lemma last_one_single : forall A (D : node -> A -> Prop) n a,
  last_one D [n] (Some a) <-> D n a.
Proof.
  intros A D n a. split.
  - intros (_ & b & [= <-] & H). exact H.
  - intros H. split; [intros k [<-|[]]; exists a; exact H|]. exists a. auto.
Qed.

(** Reading back a written request gives the request received exactly if it is
    sendable. *)
Lemma request_written : forall r n, request_xml lxml r = Ok n ->
  (request_doc cm n (received r) <-> sendable cm r).
Proof.
  intros r n H. apply bind_ok in H. destruct H as (ss & Hs & H).
  apply bind_ok in H. destruct H as (rs & Hr & H).
  apply bind_ok in H. destruct H as (act & Ha & H).
  apply bind_ok in H. destruct H as (en & He & H). injection H as <-.
  destruct (rq_action r) as [la|] eqn:Ea; [|discriminate Ha].
  destruct (rq_environment r) as [le|] eqn:Ee; [|discriminate He].
  assert (TS := tagged_mapM _ _ "Subject" (fun s n => attributes_tag "Subject" _ _ n) _ _ Hs).
  assert (TR := tagged_mapM _ _ "Resource" (fun s n => attributes_tag "Resource" _ _ n) _ _ Hr).
  assert (VS := mapM_docs _ _ _ received_subject _ _ subject_written _ _ Hs).
  assert (VR := mapM_docs _ _ _ (fun s => s) _ _ resource_written _ _ Hr). rewrite map_id in VR.
  assert (VA := part_written "Action" _ _ (fun _ _ _ => eq_refl) Ha).
  assert (VE := part_written "Environment" _ _ (fun _ _ _ => eq_refl) He).
  destruct (attributes_tag _ _ _ _ Ha) as (a1 & t1 & k1 & E1).
  destruct (attributes_tag _ _ _ _ He) as (a2 & t2 & k2 & E2).
  assert (KA : part_doc "Action" cm act la <->
               last_one (part_doc "Action" cm) [act] (Some la)) by (symmetry; apply last_one_single).
  assert (KE : part_doc "Environment" cm en le <->
               last_one (part_doc "Environment" cm) [en] (Some le)) by (symmetry; apply last_one_single).
  assert (F : forall name b1 b2,
    (forall a t k, called name (Elem (context_tag "Subject") a t k) = b1) ->
    (forall a t k, called name (Elem (context_tag "Resource") a t k) = b2) ->
    filter (called name) (ss ++ rs ++ [act; en]) =
    (if b1 then ss else []) ++ (if b2 then rs else []) ++
    (if called name act then [act] else []) ++ (if called name en then [en] else [])).
  { intros name b1 b2 H1 H2. rewrite !filter_app, (tagged_called "Subject" name b1),
      (tagged_called "Resource" name b2) by assumption. cbn [filter].
    destruct (called name act), (called name en); reflexivity. }
  unfold request_doc, sendable, sendable_part, elems_called, make_element. cbn [elems].
  rewrite !filter_app with (l := ss), !filter_app with (l := rs).
  rewrite (tagged_elems _ _ TS), (tagged_elems _ _ TR).
  replace (filter _ [act; en]) with [act; en] by (rewrite E1, E2; reflexivity).
  rewrite (F "Subject" true false), (F "Resource" false true), (F "Action" false false),
    (F "Environment" false false) by reflexivity.
  replace (called "Subject" act) with false by (rewrite E1; reflexivity).
  replace (called "Subject" en) with false by (rewrite E2; reflexivity).
  replace (called "Resource" act) with false by (rewrite E1; reflexivity).
  replace (called "Resource" en) with false by (rewrite E2; reflexivity).
  replace (called "Action" act) with true by (rewrite E1; reflexivity).
  replace (called "Action" en) with false by (rewrite E2; reflexivity).
  replace (called "Environment" act) with false by (rewrite E1; reflexivity).
  replace (called "Environment" en) with true by (rewrite E2; reflexivity).
  rewrite !app_nil_r. cbn [app].
  cbn [received rq_subjects rq_resources rq_action rq_environment rq_ctxHandler rq_selector].
  rewrite Ea, Ee, <- KA, <- KE, VA, VE, VR.
  change (map _ (rq_subjects r)) with (map received_subject (rq_subjects r)). rewrite VS.
  split.
  - intros (_ & _ & H1 & H2 & H3 & H4 & _). split; [exact H1|]. split; [exact H2|].
    split; eexists; split; [reflexivity|exact H3|reflexivity|exact H4].
  - intros (H1 & H2 & (l1 & [= <-] & H3) & (l2 & [= <-] & H4)).
    split; [reflexivity|]. split; [|auto 10].
    intros k Hk. apply in_app_iff in Hk. destruct Hk as [Hk|Hk].
    { destruct (TS k Hk) as (? & ? & ? & ->). exists "Subject". cbn [In]. auto. }
    apply in_app_iff in Hk. destruct Hk as [Hk|[<-|[<-|[]]]].
    { destruct (TR k Hk) as (? & ? & ? & ->). exists "Resource". cbn [In]. auto. }
    { rewrite E1. exists "Action". cbn [In]. auto 6. }
    { rewrite E2. exists "Environment". cbn [In]. auto 6. }
Qed.

Lemma request_writes : forall r, sendable cm r -> exists n, request_xml lxml r = Ok n.
Proof.
  intros r (H1 & H2 & (la & Ha & H3) & (le & He & H4)). unfold request_xml.
  destruct (mapM_written _ (subject_xml lxml) (fun s => sendable_attributes cm (sb_attributes s))
    (fun s => attributes_writes "Subject" [] (sb_attributes s)) _ H1) as (ss & ->).
  destruct (mapM_written _ (resource_xml lxml) sendable_resource
    (fun s H => attributes_writes "Resource" _ (rs_attributes s) (proj1 H)) _ H2) as (rs & ->).
  rewrite Ha, He.
  destruct (attributes_writes "Action" [] la H3) as (na & ->).
  destruct (attributes_writes "Environment" [] le H4) as (ne & ->).
  eexists. reflexivity.
Qed.

Lemma exchange_iff : forall r,
  exchange_request lxml cm r = Ok (received r) <-> sendable cm r.
Proof.
  intros r. unfold exchange_request. rewrite bind_ok. split.
  - intros (n & Hn & H). apply request_iff in H. apply (request_written _ _ Hn), H.
  - intros H. destruct (request_writes r H) as (n & Hn). exists n. split; [exact Hn|].
    apply request_iff, (request_written _ _ Hn), H.
Qed.

Lemma no_action_written : forall r n, request_xml lxml r = Ok n ->
  rq_action r <> None /\ rq_environment r <> None.
Proof.
  intros r n H. apply bind_ok in H. destruct H as (ss & Hs & H).
  apply bind_ok in H. destruct H as (rs & Hr & H).
  apply bind_ok in H. destruct H as (act & Ha & H).
  apply bind_ok in H. destruct H as (en & He & H).
  destruct (rq_action r); [|discriminate Ha]. destruct (rq_environment r); [|discriminate He].
  split; discriminate.
Qed.

(** *** Responses *)
Lemma result_written : forall s r n, result_xml lxml s r = Ok n ->
  rs_resourceId r = None /\ exists d, rs_decision r = Some d /\
  result_doc n (mkResult (Some (DOwn (value_of s d))) None None None).
Proof.
  intros s r n H. unfold result_xml in H. destruct (rs_resourceId r); [discriminate H|].
  destruct (rs_decision r) as [d|]; [|discriminate H]. injection H as <-.
  split; [reflexivity|]. exists d. split; [reflexivity|].
  unfold result_doc, make_element. cbn [elems filter rs_decision rs_resourceId rs_status rs_obligations].
  split; [reflexivity|]. split; [intros k [<-|[]]; reflexivity|].
  split; [|split; [destruct lxml; reflexivity|split; reflexivity]].
  apply last_one_single. exists (value_of s d). split; [|reflexivity].
  split; [reflexivity|]. cbn [xml_text]. destruct (value_of s d); reflexivity.
Qed.

Lemma result_tag : forall s r n, result_xml lxml s r = Ok n ->
  exists attrs text kids, n = Elem (context_tag "Result") attrs text kids.
Proof.
  intros s r n H. unfold result_xml in H. destruct (rs_resourceId r); [discriminate H|].
  destruct (rs_decision r); [|discriminate H]. injection H as <-. do 3 eexists. reflexivity.
Qed.

Lemma response_written : forall s r n, response_xml lxml s r = Ok n ->
  exists r', response_doc n r' /\ length r' = length r /\
    (forall s', decisions s' r' = decisions s r) /\
    (forall x, In x r -> rs_resourceId x = None /\ rs_decision x <> None).
Proof.
  intros s r n H. apply bind_ok in H. destruct H as (kids & Hk & H). injection H as <-.
  assert (T := tagged_mapM _ _ "Result" (result_tag s) _ _ Hk).
  assert (K : exists r', Forall2 result_doc kids r' /\ length r' = length r /\
    (forall s', decisions s' r' = decisions s r) /\
    (forall x, In x r -> rs_resourceId x = None /\ rs_decision x <> None)).
  { apply mapM_ok in Hk. clear T. induction Hk as [|x k r kids Hx Hk IH].
    - exists []. split; [constructor|]. split; [reflexivity|]. split; [reflexivity|intros x []].
    - destruct IH as (r' & H1 & H2 & H3 & H4). apply result_written in Hx.
      destruct Hx as (Hi & d & Hd & Hx). exists (mkResult (Some (DOwn (value_of s d))) None None None :: r').
      split; [constructor; assumption|]. split; [cbn [length]; rewrite H2; reflexivity|].
      split; [|intros y [<-|Hy]; [split; [exact Hi|rewrite Hd; discriminate]|apply H4, Hy]].
      intros s'. unfold decisions in *. cbn [map rs_decision option_map value_of]. rewrite Hd, H3. reflexivity. }
  destruct K as (r' & H1 & H2). exists r'. split; [|exact H2].
  unfold response_doc, make_element. cbn [elems]. rewrite (tagged_elems _ _ T).
  split; [reflexivity|]. split; [|exact H1].
  intros k H. destruct (T k H) as (? & ? & ? & ->). reflexivity.
Qed.

Lemma response_writes : forall s r,
  (forall x, In x r -> rs_resourceId x = None /\ rs_decision x <> None) ->
  exists n, response_xml lxml s r = Ok n.
Proof.
  intros s r H. unfold response_xml.
  destruct (mapM_written _ (result_xml lxml s)
    (fun x => rs_resourceId x = None /\ rs_decision x <> None)) with (l := r) as (ns & ->);
    [|exact H|eexists; reflexivity].
  intros x [Hi Hd]. unfold result_xml. rewrite Hi.
  destruct (rs_decision x); [eexists; reflexivity|destruct (Hd eq_refl)].
Qed.
End Write.
