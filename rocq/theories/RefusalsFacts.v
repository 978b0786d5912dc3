(** Lemmas for C99: a refused policy has a mistake. *)
From Verif Require Import Readers SpecText SpecSetters SpecRead SpecRefusals.
From Verif Require Import EvalFacts StringFacts SettersFacts TextFacts ReadFacts.
Open Scope string_scope.

Lemma expect_raise : forall name n e, has_char close_brace name = false -> called name n = true ->
  expect name n = Raise e -> False.
Proof.
  intros name n e Hb Hc H. apply (expect_ok name n Hb tt) in Hc. congruence.
Qed.

Lemma required_raise : forall n attr e, required n attr = Raise e -> xml_attr attr n = None /\ e = EXMLParseError.
Proof.
  intros n attr e. unfold required. rewrite attrs_get. destruct (xml_attr attr n); [discriminate|].
  intros [= <-]. split; reflexivity.
Qed.

Lemma foldM_raise : forall A B (f : A -> B -> res A) l a e, foldM f l a = Raise e ->
  exists pre x post b, l = (pre ++ x :: post)%list /\ foldM f pre a = Ok b /\ f b x = Raise e.
Proof.
  intros A B f l. induction l as [|y l IH]; intros a e H; [discriminate H|].
  cbn [foldM] in H. apply bind_raise in H. destruct H as [H|(b & Hb & H)].
  - exists [], y, l, a. repeat split; assumption.
  - apply IH in H. destruct H as (pre & x & post & c & -> & Hc & Hx).
    exists (y :: pre), x, post, c. cbn [foldM app]. rewrite Hb. repeat split; assumption.
Qed.

Lemma called_is : forall name n, has_char close_brace name = false -> is_elem n -> ln n = name -> called name n = true.
Proof. intros name n Hb He H. rewrite called_ln, H; [apply String.eqb_refl|exact Hb|exact He]. Qed.
Lemma ln_is : forall name n, has_char close_brace name = false -> called name n = true -> ln n = name.
Proof.
  intros name n Hb H. rewrite called_ln in H; [apply String.eqb_eq, H|exact Hb|exact (called_elem _ _ H)].
Qed.

Section Blame.
Variable E : renv.
Hypothesis HE : default_readers E.

Lemma wrong_self : forall n e, mistake E n e -> wrong E n e.
Proof. intros n e H. exists n. split; [apply part_self|exact H]. Qed.
Lemma wrong_below : forall n k e, called_one_of with_children n -> In k (elems n) -> wrong E k e -> wrong E n e.
Proof. intros n k e Hn Hk (m & Hm & H). exists m. split; [apply (part_below m n k); assumption|exact H]. Qed.

Lemma one_of : forall tag names n, called tag n = true -> In tag names -> called_one_of names n.
Proof. intros tag names n H Hi. exists tag. split; assumption. Qed.

Ltac inl := repeat (first [left; reflexivity|right]).

Lemma load_fn_raise : forall id e, load_fn E id = Raise e -> no_function E id e.
Proof.
  intros id e. unfold load_fn.
  destruct (fst (fm_get (re_cm E) id (re_fmap E))) as [[[g|e'|]|]|e'] eqn:H; intros H'; try discriminate H';
    injection H' as <-; [apply nf_unusable|apply nf_standard|apply nf_none|apply nf_raises]; exact H.
Qed.

Lemma value_blame : forall n e, called "AttributeValue" n = true -> read_value E n = Raise e -> mistake E n e.
Proof.
  intros n e Hc H. unfold read_value in H. apply bind_raise in H. destruct H as [H|(u & _ & H)].
  { destruct (expect_raise "AttributeValue" n e eq_refl Hc H). }
  apply bind_raise in H. destruct H as [H|(dt & Hdt & H)].
  { apply required_raise in H. destruct H as [H ->].
    apply (lacks_attribute E n "AttributeValue" "DataType"); [inl|exact Hc|exact H]. }
  apply required_ok in Hdt.
  destruct (dict_get dt (re_cm E)) as [c|] eqn:Hcl.
  2:{ injection H as <-. apply (unknown_type E n dt); assumption. }
  destruct (dict_get dt (re_readers E)) as [rd|] eqn:Hr.
  2:{ injection H as <-. apply (no_value_reader E n dt); assumption. }
  rewrite (HE dt rd Hr) in H. unfold default_dtreader in H. rewrite text_get in H by exact (called_elem _ _ Hc).
  destruct (xml_text n) as [s|] eqn:Ht.
  2:{ injection H as <-. apply no_text; assumption. }
  unfold av_set_value in H. cbn [av_class av_dataType] in H.
  destruct (ac_type c) eqn:Ety; try discriminate H; cbn [native_isinstance bind] in H; try discriminate H;
    injection H as <-; apply (not_a_string_type E n dt c); try assumption; congruence.
Qed.

Lemma designator_blame : forall k n e, k <> DEnvironment -> called (designator_tag k) n = true ->
  read_designator k n = Raise e -> mistake E n e.
Proof.
  intros k n e Hk Hc H. unfold read_designator in H. apply bind_raise in H. destruct H as [H|(u & _ & H)].
  { rewrite designator_name_tag in H. eapply expect_raise in H; [destruct H| |exact Hc]. destruct k; reflexivity. }
  apply bind_raise in H. destruct H as [H|(dt & Hdt & H)].
  { apply required_raise in H. destruct H as [H ->].
    apply (lacks_attribute E n (designator_tag k) "DataType"); [destruct k; [inl|inl|inl|congruence]|exact Hc|exact H]. }
  apply bind_raise in H. destruct H as [H|(id & Hid & H)]; [|discriminate H].
  apply required_raise in H. destruct H as [H ->].
  apply (lacks_attribute E n (designator_tag k) "AttributeId"); [destruct k; [inl|inl|inl|congruence]|exact Hc|exact H].
Qed.

Lemma selector_blame : forall n e, called "AttributeSelector" n = true -> read_selector n = Raise e -> mistake E n e.
Proof.
  intros n e Hc H. unfold read_selector in H. apply bind_raise in H. destruct H as [H|(u & _ & H)].
  { destruct (expect_raise "AttributeSelector" n e eq_refl Hc H). }
  apply bind_raise in H. destruct H as [H|(dt & Hdt & H)].
  { apply required_raise in H. destruct H as [H ->].
    apply (lacks_attribute E n "AttributeSelector" "DataType"); [inl|exact Hc|exact H]. }
  apply bind_raise in H. destruct H as [H|(u' & _ & H)].
  { destruct (expect_raise "AttributeSelector" n e eq_refl Hc H). }
  apply bind_raise in H. destruct H as [H|(p & Hp & H)]; [|discriminate H].
  apply required_raise in H. destruct H as [H ->].
  apply (lacks_attribute E n "AttributeSelector" "RequestContextPath"); [inl|exact Hc|exact H].
Qed.

(** A child with a name in none of the lists. *)
Lemma stray : forall names n c, In c (elems n) ->
  forallb (fun s => negb (has_char close_brace s)) names = true -> ~ In (ln c) names -> ~ called_one_of names c.
Proof. intros names n c Hc Hb H H'. apply one_of_ln in H'; [auto|exact (elems_is n c Hc)|exact Hb]. Qed.

Ltac not_in := cbn [In app]; let H := fresh in intros H; repeat (destruct H as [H|H]; [congruence|]); exact H.
Ltac by_name n Hn := apply (called_is _ n eq_refl ltac:(assumption) Hn).

Ltac case_name n s := destruct (String.eqb_spec (ln n) s) as [?Hn|?Hn].

(** ** Expressions *)
Definition expr_fault (n : node) (e : exn) : Prop :=
  if String.eqb (ln n) "EnvironmentAttributeDesignator" then e = EImportError
  else if String.eqb (ln n) "Condition" then e = ETypeError \/ wrong E n e
  else if String.eqb (ln n) "Function" || String.eqb (ln n) "VariableReference" then e = ENotImplementedError
  else if str_in (ln n) ["Apply"; "AttributeValue"; "SubjectAttributeDesignator"; "ResourceAttributeDesignator";
                         "ActionAttributeDesignator"; "AttributeSelector"] then wrong E n e
  else e = EXMLParseError.

Lemma condition_shape : forall n,
  read_condition E n =
  match n with Comment _ => Raise EAttributeError | Elem _ _ _ _ =>
  if negb (String.eqb (ln n) "Condition") then Raise EXMLParseError
  else match elems n with
       | [k] => if String.eqb (ln k) "Apply" then read_apply E k else Raise EXMLParseError
       | _ => Raise EXMLParseError
       end end.
Proof.
  intros [tag a t kids|t]; [|reflexivity]. cbn [read_condition ln elems]. unfold condition_of.
  destruct (negb (String.eqb (get_local_part tag) "Condition")); [reflexivity|].
  assert (filter (fun p : node * res expr => match fst p with Elem _ _ _ _ => true | Comment _ => false end)
            (map (fun c => (c, read_apply E c)) kids)
          = map (fun c => (c, read_apply E c)) (elements kids)) as ->.
  { induction kids as [|[tg at_ x sub|x] kids IH]; [reflexivity| |].
    - cbn [map filter fst elements]. fold (elements kids). rewrite IH. reflexivity.
    - cbn [map filter fst elements]. exact IH. }
  fold (elements kids).
  assert (forall k, In k (elements kids) -> is_elem k) as Hel.
  { intros k Hk. apply filter_In in Hk. destruct Hk as [_ Hk]. destruct k; [exact I|discriminate Hk]. }
  destruct (elements kids) as [|k [|k2 r]]; [reflexivity| |reflexivity].
  cbn [map]. rewrite local_ln by (apply Hel; left; reflexivity). reflexivity.
Qed.

Lemma condition_blame_from : forall n e, called "Condition" n = true ->
  (forall k, In k (elems n) -> called "Apply" k = true -> forall e, read_apply E k = Raise e -> wrong E k e) ->
  read_condition E n = Raise e -> wrong E n e.
Proof.
  intros n e Hc HA H. rewrite condition_shape in H.
  assert (H' : match elems n with
       | [k] => if String.eqb (ln k) "Apply" then read_apply E k else Raise EXMLParseError
       | _ => Raise EXMLParseError
       end = Raise e).
  { rewrite (ln_is "Condition" n eq_refl Hc) in H. destruct n; [exact H|discriminate Hc]. }
  clear H. pose proof (elems_is n) as Hel.
  destruct (elems n) as [|k [|k2 r]] eqn:Hk.
  - injection H' as <-. apply wrong_self, bad_condition; [exact Hc|]. intros (k & Hk' & _). congruence.
  - assert (is_elem k) as He by (apply Hel; left; reflexivity).
    destruct (String.eqb_spec (ln k) "Apply") as [Ha|Ha].
    + apply (wrong_below n k); [apply (one_of "Condition"); [exact Hc|cbn; inl]|rewrite Hk; left; reflexivity|].
      apply HA; [left; reflexivity|apply called_is; [reflexivity|exact He|exact Ha]|exact H'].
    + injection H' as <-. apply wrong_self, bad_condition; [exact Hc|]. intros (k' & Hk' & Hc').
      assert (k' = k) by congruence. subst k'. apply (ln_is "Apply" k eq_refl) in Hc'. congruence.
  - injection H' as <-. apply wrong_self, bad_condition; [exact Hc|]. intros (k' & Hk' & _). congruence.
Qed.

Lemma apply_blame_from : forall n e, called "Apply" n = true ->
  (forall k, In k (elems n) -> forall e, read_expr E k = Raise e -> expr_fault k e) ->
  read_apply E n = Raise e -> wrong E n e.
Proof.
  intros n e Hc HK H. rewrite read_apply_eq in H by exact (called_elem _ _ Hc).
  rewrite (ln_is "Apply" n eq_refl Hc) in H. cbn [negb String.eqb Ascii.eqb Bool.eqb] in H.
  destruct (xml_attr "FunctionId" n) as [id|] eqn:Hid.
  2:{ injection H as <-. apply wrong_self, (lacks_attribute E n "Apply" "FunctionId"); [inl|exact Hc|exact Hid]. }
  apply bind_raise in H. destruct H as [H|(f & _ & H)].
  { apply load_fn_raise in H. apply wrong_self, (lacks_function E n "Apply" "FunctionId" id); [inl|exact Hc|exact Hid|exact H]. }
  apply bind_raise in H. destruct H as [H|(args & _ & H)]; [|discriminate H].
  apply mapM_raise in H. destruct H as (pre & k & post & ys & Hel & Hk & _).
  assert (In k (elems n)) as Hin by (rewrite Hel; apply in_or_app; right; left; reflexivity).
  assert (is_elem k) as He by exact (elems_is n k Hin).
  apply (HK k Hin) in Hk. unfold expr_fault in Hk.
  assert (called_one_of with_children n) as Hn by (apply (one_of "Apply"); [exact Hc|cbn; inl]).
  destruct (String.eqb_spec (ln k) "EnvironmentAttributeDesignator") as [N1|N1].
  { subst e. apply wrong_self. eapply (classless_child E n "Apply"); [|exact Hc|exact Hin|].
    - inl.
    - apply (one_of "EnvironmentAttributeDesignator"); [apply called_is; [reflexivity|exact He|exact N1]|cbn; inl]. }
  destruct (String.eqb_spec (ln k) "Condition") as [N2|N2].
  { destruct Hk as [->|Hk]; [|apply (wrong_below n k); assumption].
    apply wrong_self, (condition_in_apply E n k); [exact Hc|exact Hin|apply called_is; [reflexivity|exact He|exact N2]]. }
  destruct (String.eqb (ln k) "Function" || String.eqb (ln k) "VariableReference") eqn:N3.
  { subst e. apply wrong_self. eapply (unimplemented_child E n "Apply"); [|exact Hc|exact Hin|].
    - inl.
    - apply one_of_ln; [exact He|reflexivity|]. apply Bool.orb_true_iff in N3. rewrite !String.eqb_eq in N3.
      cbn [In not_implemented]. destruct N3 as [N3|N3]; [left|right; left]; symmetry; exact N3. }
  apply Bool.orb_false_iff in N3. rewrite !String.eqb_neq in N3. destruct N3 as [N3 N4].
  match type of Hk with (if ?c then _ else _) => destruct c eqn:N5 end; [apply (wrong_below n k); assumption|].
  subst e. apply wrong_self. eapply (stray_child E n "Apply"); [|exact Hc|exact Hin|].
  - inl.
  - apply (stray _ n); [exact Hin|reflexivity|]. intros Hl.
    unfold str_in in N5. cbn [existsb] in N5. rewrite !Bool.orb_false_iff, !String.eqb_neq in N5.
    cbn [app understood not_implemented no_class In] in Hl.
    destruct N5 as (M1 & M2 & M3 & M4 & M5 & M6 & _).
    repeat (destruct Hl as [Hl|Hl]; [congruence|]). exact Hl.
Qed.

Lemma expr_blame : forall n, is_elem n -> (forall e, read_expr E n = Raise e -> expr_fault n e) /\
  (called "Apply" n = true -> forall e, read_apply E n = Raise e -> wrong E n e) /\
  (forall k, In k (elems n) -> is_elem k -> called "Apply" k = true -> forall e, read_apply E k = Raise e -> wrong E k e).
Proof.
  induction n as [t|tag a t kids IH] using node_ind'; intros He; [destruct He|].
  set (n := Elem tag a t kids) in *.
  assert (forall k, In k (elems n) ->
    (forall e, read_expr E k = Raise e -> expr_fault k e) /\
    (called "Apply" k = true -> forall e, read_apply E k = Raise e -> wrong E k e)) as IH'.
  { intros k Hk. rewrite Forall_forall in IH. destruct (IH k) as (H1 & H2 & _).
    - apply filter_In in Hk. apply Hk.
    - exact (elems_is n k Hk).
    - split; assumption. }
  clear IH. clearbody n.
  assert (called "Apply" n = true -> forall e, read_apply E n = Raise e -> wrong E n e) as HA.
  { intros Hc e. apply apply_blame_from; [exact Hc|]. intros k Hk. apply IH', Hk. }
  split; [|split; [exact HA|intros k Hk _; apply IH', Hk]].
  intros e H. unfold read_expr in H. unfold expr_fault.
  case_name n "Apply".
  { rewrite Hn. cbn [String.eqb Ascii.eqb Bool.eqb orb str_in existsb].
    apply HA; [apply called_is; [reflexivity|exact He|exact Hn]|exact H]. }
  case_name n "AttributeValue".
  { rewrite Hn0. cbn [String.eqb Ascii.eqb Bool.eqb orb str_in existsb].
    apply bind_raise in H. destruct H as [H|(v & _ & H)]; [|discriminate H].
    apply wrong_self, value_blame; [apply called_is; [reflexivity|exact He|assumption]|exact H]. }
  case_name n "SubjectAttributeDesignator".
  { rewrite Hn1. cbn [String.eqb Ascii.eqb Bool.eqb orb str_in existsb].
    apply bind_raise in H. destruct H as [H|(v & _ & H)]; [|discriminate H].
    apply wrong_self, (designator_blame DSubject); [discriminate|apply called_is; [reflexivity|exact He|assumption]|exact H]. }
  case_name n "ResourceAttributeDesignator".
  { rewrite Hn2. cbn [String.eqb Ascii.eqb Bool.eqb orb str_in existsb].
    apply bind_raise in H. destruct H as [H|(v & _ & H)]; [|discriminate H].
    apply wrong_self, (designator_blame DResource); [discriminate|apply called_is; [reflexivity|exact He|assumption]|exact H]. }
  case_name n "EnvironmentAttributeDesignator"; [congruence|].
  case_name n "ActionAttributeDesignator".
  { rewrite Hn4. cbn [String.eqb Ascii.eqb Bool.eqb orb str_in existsb].
    apply bind_raise in H. destruct H as [H|(v & _ & H)]; [|discriminate H].
    apply wrong_self, (designator_blame DAction); [discriminate|apply called_is; [reflexivity|exact He|assumption]|exact H]. }
  case_name n "AttributeSelector".
  { rewrite Hn5. cbn [String.eqb Ascii.eqb Bool.eqb orb str_in existsb].
    apply bind_raise in H. destruct H as [H|(v & _ & H)]; [|discriminate H].
    apply wrong_self, selector_blame; [apply called_is; [reflexivity|exact He|assumption]|exact H]. }
  case_name n "Condition".
  { apply bind_raise in H. destruct H as [H|(v & _ & H)]; [right|left; congruence].
    apply condition_blame_from; [apply called_is; [reflexivity|exact He|assumption]| |exact H].
    intros k Hk. apply IH', Hk. }
  case_name n "Function"; [cbn [orb]; congruence|].
  case_name n "VariableReference"; [cbn [orb]; congruence|]. cbn [orb].
  unfold str_in. cbn [existsb].
  repeat match goal with Hx : ln n <> ?s |- _ => apply String.eqb_neq in Hx; try rewrite Hx; clear Hx end.
  cbn [orb]. congruence.
Qed.

Lemma condition_blame : forall n e, called "Condition" n = true -> read_condition E n = Raise e -> wrong E n e.
Proof.
  intros n e Hc H. apply condition_blame_from; [exact Hc| |exact H].
  intros k Hk. apply expr_blame. exact (elems_is n k Hk).
Qed.
End Blame.
