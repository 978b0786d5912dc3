(** Facts for PropertiesListMethods.v. *)
From Coq Require Import Permutation Lia.
From Verif Require Import SpecListMethods UtilsFacts.
Local Open Scope list_scope.

Section Any.
Context {A : Type}.
Variable own : list A -> lop A -> res unit * list A.
Variable same : A -> A -> bool.
Variable eq : A -> A -> res bool.

Lemma in_firstn : forall n (l : list A) x, In x (firstn n l) -> In x l.
Proof.
  intros n l x H. rewrite <- (firstn_skipn n l). apply in_or_app. auto.
Qed.
Lemma in_skipn : forall n (l : list A) x, In x (skipn n l) -> In x l.
Proof.
  intros n l x H. rewrite <- (firstn_skipn n l). apply in_or_app. auto.
Qed.
Lemma in_put : forall a b xs (l : list A) x, In x (put_between a b xs l) -> In x xs \/ In x l.
Proof.
  intros a b xs l x H. unfold put_between in H. rewrite !in_app_iff in H.
  destruct H as [H|[H|H]]; auto; right.
  - eapply in_firstn; eauto.
  - eapply in_skipn; eauto.
Qed.

Lemma sublist_refl : forall l : list A, sublist l l.
Proof. induction l; [apply sub_nil|apply sub_keep; auto]. Qed.
Lemma sublist_nil : forall l : list A, sublist [] l.
Proof. induction l; [apply sub_nil|apply sub_skip; auto]. Qed.

Lemma remove_sublist : forall x l l', remove_item same eq x l = Ok l' -> sublist l' l.
Proof.
  induction l as [|y r IH]; intros l'; simpl; [discriminate|].
  destruct (same y x); [intros [= <-]; apply sub_skip, sublist_refl|].
  destruct (eq y x) as [[]|e]; simpl; [intros [= <-]; apply sub_skip, sublist_refl| |discriminate].
  destruct (remove_item same eq x r) as [r'|e]; simpl; [|discriminate].
  intros [= <-]. apply sub_keep. auto.
Qed.

Lemma sublist_put : forall a b (l : list A), a <= b -> sublist (put_between a b [] l) l.
Proof.
  unfold put_between. intros a b l. revert a b. induction l as [|x l IH]; intros a b H.
  - rewrite firstn_nil, skipn_nil. apply sub_nil.
  - destruct a as [|a]; destruct b as [|b]; cbn [firstn skipn app]; try lia.
    + apply sublist_refl.
    + apply sub_skip. apply (IH 0 b). lia.
    + apply sub_keep. apply (IH a b). lia.
Qed.
Lemma slice_le : forall i j (l : list A) a b, slice_of i j l = (a, b) -> a <= b.
Proof. unfold slice_of. intros i j l a b [= <- <-]. lia. Qed.

(** A call that is not one of the class' own and does not add keeps a selection
    or a rearrangement. *)
Lemma call_keeps : forall l c, sorts c -> adds c = false -> (forall o, c <> COwn o) ->
  sublist (snd (call own same eq l c)) l \/ Permutation (snd (call own same eq l c)) l.
Proof.
  intros l c Hs Ha Ho. destruct c; cbn [call]; try discriminate.
  - destruct (Ho o eq_refl).
  - left. destruct (index_of i l); [apply sublist_put; lia|apply sublist_refl].
  - left. destruct (slice_of i j l) as [a b] eqn:E. apply sublist_put. eapply slice_le; eauto.
  - left. destruct (index_of _ l); [apply sublist_put; lia|apply sublist_refl].
  - left. destruct (remove_item same eq x l) as [l'|e] eqn:E; [eapply remove_sublist; eauto|apply sublist_refl].
  - left. apply sublist_nil.
  - right. apply Permutation_sym, Permutation_rev.
  - right. apply Hs.
Qed.

Lemma call_in : forall l c x, sorts c -> (forall o, c <> COwn o) ->
  In x (snd (call own same eq l c)) -> In x l \/ In x (slipped_in c).
Proof.
  intros l c x Hs Ho H. destruct (adds c) eqn:Ha.
  - destruct c; try discriminate; cbn [call slipped_in] in *; auto.
    + apply in_put in H. tauto.
    + destruct (index_of i l); [apply in_put in H; tauto|auto].
    + destruct (slice_of i j l) as [a b]. apply in_put in H. tauto.
    + cbn [snd] in H. apply in_concat in H. destruct H as (l' & Hl & Hx).
      apply repeat_spec in Hl. subst. auto.
  - left. destruct (call_keeps l c Hs Ha Ho) as [K|K].
    + eapply sublist_in; eauto.
    + eapply Permutation_in; eauto.
Qed.

(** A failing call changes nothing, unless it is a sort. *)
Lemma call_fails : forall l c e,
  (forall o, fst (own l o) = Raise e -> snd (own l o) = l) ->
  fst (call own same eq l c) = Raise e -> (forall f, c <> CSort f) ->
  snd (call own same eq l c) = l.
Proof.
  intros l c e Ho H Hs. destruct c; cbn [call] in *; try discriminate; auto.
  - destruct (index_of i l); [discriminate|reflexivity].
  - destruct (index_of i l); [discriminate|reflexivity].
  - destruct (index_of _ l); [discriminate|reflexivity].
  - destruct (remove_item same eq x l); [discriminate|reflexivity].
  - destruct (Hs f eq_refl).
Qed.

Lemma calls_snoc : forall cs c l,
  calls own same eq (cs ++ [c]) l = snd (call own same eq (calls own same eq cs l) c).
Proof. intros. unfold calls. rewrite fold_left_app. reflexivity. Qed.
End Any.

Section Typed.
Context {A : Type}.
Variable inst : A -> bool.
Variable same : A -> A -> bool.
Variable eq : A -> A -> res bool.

Lemma own_in : forall l o x, In x (snd (tl_step inst l o)) -> In x l \/ inst x = true.
Proof.
  intros l o x. destruct (tl_step_spec inst l o) as [H1 H2].
  destruct (forallb inst (offered o)) eqn:F.
  - rewrite (H1 eq_refl). simpl. rewrite in_app_iff. intros [H|H]; auto. right.
    rewrite forallb_forall in F. apply F. clear - H.
    destruct o as [y|[]|[]]; simpl in *; auto; tauto.
  - rewrite (H2 eq_refl). auto.
Qed.

Lemma own_dec : forall c : lcall A, (exists o, c = COwn o) \/ (forall o, c <> COwn o).
Proof. intros []; eauto; right; discriminate. Qed.

Lemma typed_history : forall cs l x, (forall c, In c cs -> sorts c) ->
  In x (typed_calls inst same eq cs l) ->
  In x l \/ inst x = true \/ exists c, In c cs /\ In x (slipped_in c).
Proof.
  intros cs l x. unfold typed_calls. induction cs as [|c cs IH] using rev_ind; intros Hs H; [auto|].
  rewrite calls_snoc in H.
  assert (K : In x (calls (tl_step inst) same eq cs l) \/ inst x = true \/ In x (slipped_in c)).
  { destruct (own_dec c) as [(o & ->)|Ho].
    - cbn [call] in H. destruct (own_in _ _ _ H); auto.
    - destruct (call_in (tl_step inst) same eq _ _ _ (Hs c (in_snoc _ cs c)) Ho H); auto. }
  destruct K as [K|[K|K]]; auto.
  - destruct IH as [I|[I|(c' & I & I')]]; auto.
    + intros c' Hc. apply Hs. apply in_or_app. auto.
    + right. right. exists c'. split; auto. apply in_or_app. auto.
  - right. right. exists c. split; auto. apply in_snoc.
Qed.
End Typed.

Section Uniq.
Context {A : Type}.
Variable same : A -> A -> bool.
Variable eq : A -> A -> res bool.
Hypothesis eq_sym : forall x y, eq x y = Ok false -> eq y x = Ok false.

Lemma no_equal_perm : forall a b : list A, Permutation a b -> no_equal eq b -> no_equal eq a.
Proof.
  intros a b P. apply Permutation_sym in P. induction P; intros H; auto.
  - rewrite no_equal_cons in *. destruct H as (H1 & H2). split; auto.
    intros y Hy. apply H1. apply (Permutation_in y (Permutation_sym P)). exact Hy.
  - rewrite !no_equal_cons in *. destruct H as (H1 & H2 & H3). repeat split; auto.
    + intros z [<-|Hz]; [apply eq_sym, H1; simpl; auto|]. auto.
    + intros z Hz. apply H1. simpl. auto.
Qed.

Lemma own_no_equal : forall l o, no_equal eq l ->
  match o with LAppend _ => True | _ => no_equal eq (offered o) end ->
  no_equal eq (snd (ul_step same eq l o)).
Proof.
  intros l o Hl Ho.
  assert (Hext : forall it, no_equal eq (items it) ->
     no_equal eq (snd (match ul_new_items same eq l (fst (iterate it)) with
                       | Ok k => (Ok tt, (l ++ k)%list) | Raise e => (Raise e, l) end))).
  { intros it Hit. destruct (ul_new_items same eq l (fst (iterate it))) as [k|e] eqn:E; [|exact Hl].
    cbn [snd]. destruct (ul_new_items_spec _ _ _ _ _ E) as [Hs Hx]. apply no_equal_app; [exact Hl| |exact Hx].
    apply (no_equal_sublist eq k (items it)); [|exact Hit]. destruct it; exact Hs. }
  destruct o as [x|it|it]; cbn [ul_step].
  - unfold ul_append. destruct (ul_present eq x l) as [[]|e] eqn:E; try exact Hl. cbn [snd].
    apply no_equal_app; [exact Hl| |].
    + apply no_equal_cons. split; [intros y []|apply no_equal_nil].
    + intros z [<-|[]] y Hy. apply (ul_present_false _ _ _ E). exact Hy.
  - apply Hext. exact Ho.
  - apply Hext. exact Ho.
Qed.

Lemma uniq_history : forall cs l, no_equal eq l ->
  (forall c, In c cs -> sorts c /\ adds c = false /\
     (forall o, c = COwn o -> match o with LAppend _ => True | _ => no_equal eq (offered o) end)) ->
  no_equal eq (uniq_calls same eq cs l).
Proof.
  intros cs l Hl. unfold uniq_calls. induction cs as [|c cs IH] using rev_ind; intros H; [exact Hl|].
  rewrite calls_snoc.
  assert (I : no_equal eq (calls (ul_step same eq) same eq cs l)).
  { apply IH. intros c' Hc. apply H. apply in_or_app. auto. }
  destruct (H c (in_snoc _ cs c)) as (Hs & Ha & Hu).
  destruct (own_dec c) as [(o & ->)|Ho].
  - cbn [call]. specialize (Hu o eq_refl).
    clear IH. revert I. generalize (calls (ul_step same eq) same eq cs l). intros k I.
    apply own_no_equal; auto.
  - destruct (call_keeps (ul_step same eq) same eq (calls (ul_step same eq) same eq cs l) c Hs Ha Ho) as [K|K].
    + eapply no_equal_sublist; eauto.
    + eapply no_equal_perm; eauto.
Qed.
End Uniq.
