(** The readers of expressions, targets and rules. *)
From Verif Require Import SpecReadObjects ObjectsFacts ObjectsFacts2 ObjectsFacts3 FuncMapFacts StateFacts
  ReadFacts ReadObjectsFacts ReadObjectsFacts2.
From Coq Require Import Lia.

Section Readers.
Variable E : renv.
Notation cm := (re_cm E).

(** What a reader makes consists of new objects that stand for what the document
    means. *)
Definition makes {X} (R : heap -> pval -> X -> Prop) (m : lm pval) (r : res X) : Prop :=
  forall s, good E s ->
  out (from E s) (fun v x s' => R (fresh (length (ls_heap s)) (ls_heap s')) v x) (m s) r.

Lemma new_nth : forall (h : heap) o l, nth_error (h ++ o :: l) (length h) = Some o.
Proof. intros h o l. rewrite nth_error_app2, Nat.sub_diag; [reflexivity | lia]. Qed.
Lemma new_nth_at : forall (h : heap) o l i, nth_error (h ++ o :: l) (S i + length h) = nth_error l i.
Proof. intros h o l i. rewrite nth_error_app2 by lia. replace (S i + length h - length h) with (S i) by lia. reflexivity. Qed.

Ltac make_new c :=
  match goal with
  | G : good E ?s |- _ =>
      let F0 := fresh "F0" in pose proof (from_refl E s G) as F0;
      let s1 := fresh "s1" in let E1 := fresh "E1" in let F1 := fresh "F1" in let H1 := fresh "H1" in
      destruct (make_step E c s s F0) as (s1 & E1 & F1 & H1);
      eapply out_step; [exact E1|]; clear E1 F0;
      let N1 := fresh "N1" in
      pose proof (new_nth (ls_heap s) (PInst c (new_inst (ls_heap s) c)) (new_lists (ls_heap s) c)) as N1;
      rewrite <- H1 in N1
  end.
(** the next statement is an assignment to the object at [a] *)
Ltac set_next a :=
  match goal with
  | F : from E ?s0 ?s, N : nth_error (ls_heap ?s) a = Some (PInst ?c ?attrs)
    |- out _ _ (bind_l (set_l E a ?name ?v) _ ?s) _ =>
      let s' := fresh "s" in let E' := fresh "E" in let F' := fresh "F" in let H' := fresh "H" in
      let N' := fresh "N" in
      destruct (set_step E s0 s a c attrs name v _ F ltac:(lia) N eq_refl) as (s' & E' & F' & H');
      [try reflexivity | try (intros ? ? ?; reflexivity) |
       eapply out_step; [exact E'|]; clear E';
       assert (N' : nth_error (ls_heap s') a = Some (PInst c (dict_set name v attrs)))
         by (rewrite H'; eapply nth_replace_same; exact N)]
  end.

Lemma value_ok : forall n, makes for_value (value_l E n) (read_value E n).
Proof.
  intros n s G. unfold value_l, read_value. pose proof (from_refl E s G) as F0.
  apply out_lift; [exact F0|]. intros _ _. apply out_lift; [exact F0|]. intros dt _.
  destruct (dict_get dt cm) as [c|]; [|apply out_raise; exact F0].
  eapply out_step; [unfold make_l, do_l; cbn [ostep]; reflexivity|].
  set (a := length (ls_heap s)).
  eapply out_step.
  { unfold set_str, set_l, do_l. cbn [ostep ls_os with_os os_heap os_map].
    change (os_heap (ls_os s)) with (ls_heap s). unfold a at 1. rewrite new_nth.
    cbn [as_native av_step av_class av_value String.eqb Ascii.eqb Bool.eqb]. reflexivity. }
  set (s2 := with_os _ _).
  assert (F2 : from E s s2).
  { pose proof (from_append E s s [PValue (mkAV c (ac_id c) NNone)] F0) as F1.
    exact (from_replace E s _ a (PValue (mkAV c dt NNone)) (os_map (ls_os s)) F1 (le_n _) (from_good _ _ _ F0)). }
  assert (N2 : nth_error (ls_heap s2) a = Some (PValue (mkAV c dt NNone))).
  { unfold s2, ls_heap. cbn [ls_os with_os os_heap]. eapply nth_replace_same. apply new_nth. }
  destruct (dict_get dt (re_readers E)) as [reader|]; [|apply out_raise; exact F2].
  unfold bind_l, content_l. rewrite N2. destruct (reader n (mkAV c dt NNone)) as [v|e]; [|apply out_raise; exact F2].
  apply out_ok.
  - apply from_replace; [exact F2 | apply le_n | apply (from_good _ _ _ F2)].
  - exists a. split; [reflexivity|]. apply fresh_some; [apply le_n|].
    unfold ls_heap. cbn [ls_os with_os os_heap]. eapply nth_replace_same. exact N2.
Qed.

(** the attributes of an object that is done *)
Lemma attr_of : forall h a c attrs name v (P : pval -> Prop), nth_error h a = Some (PInst c attrs) ->
  dict_get name attrs = Some v -> P v -> attr_is h a name P.
Proof. intros h a c attrs name v P N D Pv. exists v. split; [unfold get_attr; rewrite N, D; reflexivity | exact Pv]. Qed.
Lemma get_of : forall h a c attrs name v, nth_error h a = Some (PInst c attrs) ->
  dict_get name attrs = Some v -> get_attr h a name = Ok v.
Proof. intros h a c attrs name v N D. unfold get_attr. rewrite N, D. reflexivity. Qed.
Lemma inst_of : forall h a c attrs, nth_error h a = Some (PInst c attrs) -> instance h (PRef a) c a.
Proof. intros h a c attrs N. split; [reflexivity | eauto]. Qed.

(** the object at [a] is done: its state is known *)
Ltac done_with a :=
  match goal with
  | F : from E ?s0 ?s, N : nth_error (ls_heap ?s) a = Some (PInst ?c ?attrs)
    |- out _ _ (ret_l (PRef a) ?s) _ =>
      let N' := fresh "ND" in
      apply out_ok; [assumption|];
      assert (N' : nth_error (fresh (length (ls_heap s0)) (ls_heap s)) a = Some (PInst c attrs))
        by (apply fresh_some; [lia | exact N]);
      exists a; split; [eapply inst_of; exact N'|];
      repeat match goal with |- _ /\ _ => split end
  end.
Ltac attr_done := eapply attr_of; [eassumption | reflexivity | first [reflexivity | cbn; auto]].

Lemma designator_ok : forall k n, makes for_designator (designator_l E k n) (read_designator k n).
Proof.
  intros k n s G. unfold designator_l, read_designator. make_new (KDesignator k).
  set (a := length (ls_heap s)) in *.
  apply out_lift; [exact F1|]. intros _ _. apply out_lift; [exact F1|]. intros dt _.
  unfold set_str. set_next a. apply out_lift; [assumption|]. intros id _. set_next a.
  destruct (dict_get "Issuer" (el_attrs n)) as [i|]; [set_next a | eapply out_step; [reflexivity|]];
    (destruct (dict_get "MustBePresent" (el_attrs n)) as [b|]; [set_next a | eapply out_step; [reflexivity|]]);
    done_with a; attr_done.
Qed.

Lemma selector_ok : forall n, makes for_selector (selector_l E n) (read_selector n).
Proof.
  intros n s G. unfold selector_l, read_selector. make_new KSelector.
  set (a := length (ls_heap s)) in *.
  apply out_lift; [exact F1|]. intros _ _. apply out_lift; [exact F1|]. intros dt _.
  unfold set_str. set_next a. apply out_lift; [assumption|]. intros _ _.
  apply out_lift; [assumption|]. intros path _. set_next a.
  (destruct (dict_get "MustBePresent" (el_attrs n)) as [b|]; [set_next a | eapply out_step; [reflexivity|]]);
    done_with a; attr_done.
Qed.

Lemma defaults_ok : forall n, makes (fun h v x => exists a, instance h v KPolicyDefaults a /\
    attr_is h a "xpathVersion" (maybe for_string (Some x))) (defaults_l E n) (read_defaults n).
Proof.
  intros n s G. unfold defaults_l, read_defaults. make_new KPolicyDefaults.
  set (a := length (ls_heap s)) in *.
  apply out_lift; [exact F1|]. intros _ _.
  destruct (el_kids n) as [|c [|? ?]]; try (apply out_raise; exact F1).
  apply out_lift; [exact F1|]. intros l _. destruct (String.eqb l "XPathVersion"); [|apply out_raise; exact F1].
  destruct (el_text c) as [v|]; [|apply out_raise; exact F1].
  unfold set_str. set_next a. done_with a; attr_done.
Qed.

(** *** Lists under construction *)

Lemma makes_at : forall X (R : heap -> pval -> X -> Prop) m r s0 s,
  makes R m r -> from E s0 s ->
  out (from E s0) (fun v x s' => from E s s' /\ R (fresh (length (ls_heap s)) (ls_heap s')) v x) (m s) r.
Proof.
  intros X R m r s0 s M F. eapply out_weaken; [apply M, (from_good _ _ _ F)| |].
  - intros s' F'. eapply from_trans; eassumption.
  - intros v x s' F' H. split; assumption.
Qed.

Definition growing {X} (R : heap -> pval -> X -> Prop) (s0 : lstate) (k a : nat) (c : pcls)
  (attrs : list (string * pval)) (l : nat) (t : ptype) (xs : list X) (s : lstate) : Prop :=
  from E s0 s /\ nth_error (ls_heap s) a = Some (PInst c attrs) /\
  exists items, nth_error (ls_heap s) l = Some (PTypedList t items) /\
    Forall2 (R (fresh k (ls_heap s))) items xs.

Section Growing.
Context {X : Type}.
Variable R : heap -> pval -> X -> Prop.
Hypothesis mono : forall h h' v x, hsub h h' -> R h v x -> R h' v x.
Variables (s0 : lstate) (k a : nat) (c : pcls) (attrs : list (string * pval)) (l : nat) (t : ptype).

Lemma Forall2_mono : forall h h' vs xs, hsub h h' -> Forall2 (R h) vs xs -> Forall2 (R h') vs xs.
Proof. intros h h' vs xs S F. induction F; constructor; eauto. Qed.
Lemma growing_from : forall xs s s', growing R s0 k a c attrs l t xs s -> from E s s' ->
  growing R s0 k a c attrs l t xs s'.
Proof.
  intros xs s s' (F & N & items & NL & FI) F'. pose proof (from_untouched _ _ _ F') as U.
  split; [eapply from_trans; eassumption|]. split; [apply U; exact N|]. exists items. split; [apply U; exact NL|].
  eapply Forall2_mono; [|exact FI]. apply fresh_hsub; [lia | exact U].
Qed.
Lemma growing_append : forall xs s x v name, growing R s0 k a c attrs l t xs s ->
  dict_get name attrs = Some (PRef l) -> a <> l -> l < k -> length (ls_heap s0) <= l ->
  R (fresh k (ls_heap s)) v x -> isinstance (ls_heap s) v t = true ->
  exists s', append_l E a name v s = (Ok tt, s') /\ growing R s0 k a c attrs l t (xs ++ [x]) s'.
Proof.
  intros xs s x v name (F & N & items & NL & FI) D Nal Lk L0 Rv IS.
  destruct (append_step E s0 s a l c attrs name t items v F L0 N D NL IS) as (s' & E' & F' & H').
  exists s'. split; [exact E'|]. split; [exact F'|].
  split; [rewrite H', nth_replace_other by congruence; exact N|].
  exists (items ++ [v]). split; [rewrite H'; eapply nth_replace_same; exact NL|].
  rewrite H', fresh_replace by exact Lk. apply Forall2_app; [exact FI|]. constructor; [exact Rv | constructor].
Qed.
(** an item is read and appended *)
Lemma growing_item : forall (m : lm pval) (r : res X) name xs s,
  growing R s0 k a c attrs l t xs s -> makes R m r ->
  dict_get name attrs = Some (PRef l) -> a <> l -> l < k -> length (ls_heap s0) <= l ->
  k <= length (ls_heap s) -> (forall h v x, R h v x -> has_type h v t) ->
  (forall h h' v, hsub h h' -> has_type h v t -> has_type h' v t) ->
  out (from E s0) (fun _ x s' => growing R s0 k a c attrs l t (xs ++ [x]) s' /\ k <= length (ls_heap s'))
    ((let> v := m in append_l E a name v) s) r.
Proof.
  intros m r name xs s Gr M D Nal Lk L0 Lks HT HM.
  assert (Q : out (from E s0) (fun _ x s' => growing R s0 k a c attrs l t (xs ++ [x]) s' /\ k <= length (ls_heap s'))
    (bind_l m (append_l E a name) s) (bind r Ok)).
  { eapply out_bind; [apply makes_at; [exact M | apply Gr]|].
    intros v x s' _ (F' & Rv).
    assert (Rk : R (fresh k (ls_heap s')) v x).
    { eapply mono; [|exact Rv]. apply fresh_hsub; [exact Lks | apply untouched_refl]. }
    destruct (growing_append xs s' x v name (growing_from _ _ _ Gr F') D Nal Lk L0 Rk) as (s2 & E2 & G2).
    { apply isinstance_iff. eapply HM; [|eapply HT; exact Rv]. apply hide_hsub_all. }
    rewrite E2. apply out_ok; [apply G2|]. split; [exact G2|].
    pose proof (from_length _ _ _ F').
    destruct Gr as (_ & Na & _). destruct G2 as (_ & _ & items & NL & _).
    unfold append_l, bind_l, get_l in E2.
    assert (LL : length (ls_heap s2) = length (ls_heap s')).
    { revert E2. unfold get_attr. rewrite (from_untouched _ _ _ F' _ _ Na), D. unfold do_l. cbn [ostep].
      change (os_heap (ls_os s')) with (ls_heap s').
      destruct (nth_error (ls_heap s') l) as [[]|]; try (intro Z; discriminate Z).
      destruct (tl_step _ _ _). intro Z; inversion Z; subst. unfold ls_heap; cbn. apply replace_length. }
    lia. }
  destruct r; exact Q.
Qed.
End Growing.

(** *** Types *)
Lemma has_type_mono : forall h h' v t, t <> TAny -> t <> TEffect -> hsub h h' -> has_type h v t -> has_type h' v t.
Proof.
  intros h h' v t D1 D2 HS T. destruct T; try (exfalso; apply D1; reflexivity); try (exfalso; apply D2; reflexivity); try apply ht_str; try apply ht_bool; try apply ht_handler; try apply ht_xpath;
    match goal with H : nth_error _ _ = Some ?o |- _ => assert (ND : o <> hole) by discriminate; pose proof (HS _ _ H ND) as Hn; clear H ND end.
  - eapply ht_class; eassumption.
  - eapply ht_designator; eassumption.
  - eapply ht_designator_expression; eassumption.
  - eapply ht_selector_expression; eassumption.
  - eapply ht_apply_expression; eassumption.
  - eapply ht_value_expression; eassumption.
  - eapply ht_value; eassumption.
  - eapply ht_policy; eassumption.
  - eapply ht_policyset; eassumption.
  - eapply ht_list; eassumption.
Qed.
Lemma instance_type : forall h v c a, instance h v c a -> has_type h v (TCls c).
Proof. intros h v c a (-> & attrs & N). eapply ht_class; exact N. Qed.
Lemma expr_type : forall h v x, for_expr h v x -> has_type h v TExpression.
Proof.
  intros h v x F. destruct F as [v x (a & -> & N)|v d (a & (-> & attrs & N) & _)|v d (a & (-> & attrs & N) & _)
    |v a fid f l t items args (-> & attrs & N) _ _ _ _ _].
  - eapply ht_value_expression; exact N.
  - eapply ht_designator_expression; exact N.
  - eapply ht_selector_expression; exact N.
  - eapply ht_apply_expression; exact N.
Qed.
Lemma exprs_of_forall2 : forall h vs xs, Forall2 (for_expr h) vs xs -> for_exprs h vs xs.
Proof. intros h vs xs F. induction F; constructor; assumption. Qed.

(** *** Conditions and Apply *)
Lemma filter_map_elements : forall A (f : node -> A) ks,
  filter (fun p : node * A => match fst p with Elem _ _ _ _ => true | Comment _ => false end)
    (map (fun c => (c, f c)) ks) = map (fun c => (c, f c)) (elements ks).
Proof.
  intros A f ks. unfold elements. induction ks as [|[tag a t kids|t] ks IH]; cbn; [reflexivity|rewrite IH; reflexivity|exact IH].
Qed.
Lemma elements_in : forall ks k, In k (elements ks) -> In k ks.
Proof. intros ks k I. apply filter_In in I. apply I. Qed.

Lemma condition_with_ok : forall tag at_ tx ks sub,
  (forall c, In c sub -> makes for_expr (apply_l E c) (read_apply E c)) ->
  makes (fun h v x => for_condition h v (Some x))
    (condition_with E (Elem tag at_ tx ks) (map (fun c => (c, apply_l E c)) sub))
    (condition_of tag (map (fun c => (c, read_apply E c)) sub)).
Proof.
  intros tag at_ tx ks sub IH s G. unfold condition_with, condition_of. make_new KCondition.
  set (a := length (ls_heap s)) in *.
  rewrite !filter_map_elements.
  unfold expect. cbn [local_name bind]. destruct (String.eqb (get_local_part tag) "Condition"); cbn [negb];
    [|apply out_raise; exact F1].
  eapply out_step; [reflexivity|].
  pose proof (elements_in sub) as EI.
  destruct (elements sub) as [|c [|? ?]]; cbn [map]; try (apply out_raise; exact F1).
  apply out_lift; [exact F1|]. intros l _. destruct (String.eqb l "Apply"); [|apply out_raise; exact F1].
  assert (Q : forall (r : res expr) m, makes for_expr m r ->
     out (from E s) (fun v x s' => for_condition (fresh (length (ls_heap s)) (ls_heap s')) v (Some x))
       ((let> v := m in let> _ := set_l E a "expression" v in ret_l (PRef a)) s1) (bind r Ok)).
  { intros r m M. eapply out_bind; [apply makes_at; [exact M | exact F1]|].
    intros v x s2 F2 (F12 & Rv).
    pose proof (from_untouched _ _ _ F12 _ _ N1) as N2.
    assert (IS : isinstance (ls_heap s2) v TExpression = true).
    { apply isinstance_iff. eapply has_type_mono; [discriminate | discriminate | apply hide_hsub_all | eapply expr_type; exact Rv]. }
    destruct (set_step E s s2 a _ _ "expression" v TExpression F2 ltac:(lia) N2 eq_refl IS ltac:(intros ? ? ?; reflexivity))
      as (s3 & E3 & F3 & H3). eapply out_step; [exact E3|].
    assert (N3 : nth_error (ls_heap s3) a = Some (PInst KCondition (dict_set "expression" v (new_inst (ls_heap s) KCondition))))
      by (rewrite H3; eapply nth_replace_same; exact N2).
    done_with a. eapply attr_of; [eassumption | reflexivity |]. cbn.
    eapply expr_mono; [|exact Rv]. rewrite H3.
    assert (L1 : length (ls_heap s1) = S a) by (rewrite H1, app_length; cbn; unfold a; lia).
    rewrite <- (fresh_replace (length (ls_heap s1)) a (PInst KCondition (dict_set "expression" v (new_inst (ls_heap s) KCondition)))) by lia.
    apply fresh_hsub; [lia | apply untouched_refl]. }
  assert (Id : forall r : res expr, bind r Ok = r) by (intros []; reflexivity).
  rewrite <- (Id (read_apply E c)). apply Q. apply IH, EI. left; reflexivity.
Qed.

Lemma bind_l_assoc : forall A B C (m : lm A) (f : A -> lm B) (g : B -> lm C) s,
  bind_l m (fun x => bind_l (f x) g) s = bind_l (bind_l m f) g s.
Proof. intros. unfold bind_l. destruct (m s) as [[x|e] s']; reflexivity. Qed.
Lemma makes_map : forall X Y (R : heap -> pval -> X -> Prop) (R' : heap -> pval -> Y -> Prop) m r (f : X -> Y),
  makes R m r -> (forall h v x, R h v x -> R' h v (f x)) -> makes R' m (let* x := r in Ok (f x)).
Proof.
  intros X Y R R' m r f M K s G. specialize (M s G). destruct M as [HF H]. split; [exact HF|].
  destruct r as [x|e]; cbn [bind]; [|exact H]. destruct H as (v & E1 & Rv). exists v; auto.
Qed.
Lemma makes_fail : forall X (R : heap -> pval -> X -> Prop) e, makes R (fail_l e) (Raise e).
Proof. intros X R e s G. apply out_raise. apply from_refl; exact G. Qed.

Lemma makes_item : forall X (R : heap -> pval -> X -> Prop) Y (R' : unit -> Y -> lstate -> Prop)
  s0 k a c attrs l t name xs s (m : lm pval) (r : res X) (g : lm unit) (f : X -> res Y),
  (forall h h' v x, hsub h h' -> R h v x -> R h' v x) ->
  growing R s0 k a c attrs l t xs s -> makes R m r ->
  dict_get name attrs = Some (PRef l) -> a <> l -> l < k -> length (ls_heap s0) <= l ->
  k <= length (ls_heap s) -> (forall h v x, R h v x -> has_type h v t) -> t <> TAny -> t <> TEffect ->
  (forall x s', r = Ok x -> growing R s0 k a c attrs l t (xs ++ [x]) s' -> k <= length (ls_heap s') ->
     out (from E s0) R' (g s') (f x)) ->
  out (from E s0) R' ((let> v := m in let> _ := append_l E a name v in g) s) (bind r f).
Proof.
  intros X R Y R' s0 k a c attrs l t name xs s m r g f Mo Gr M D Nal Lk L0 Lks HT T1 T2 C.
  rewrite (bind_l_assoc _ _ _ m (append_l E a name) (fun _ => g)).
  assert (Q := growing_item R Mo s0 k a c attrs l t m r name xs s Gr M D Nal Lk L0 Lks HT
      (fun h h' v S => has_type_mono h h' v t T1 T2 S)).
  destruct Q as [QK Q]. unfold bind_l at 1. destruct (bind_l m (append_l E a name) s) as [o s']. cbn [fst snd] in *.
  destruct r as [x|e]; cbn [bind].
  - destruct Q as (v & -> & G' & L'). apply C; auto.
  - rewrite Q. apply out_raise; exact QK.
Qed.

Lemma apply_ok : forall n, makes for_expr (apply_l E n) (read_apply E n).
Proof.
  assert (All : forall n, makes for_expr (apply_l E n) (read_apply E n) /\
                  forall c, In c (el_kids n) -> makes for_expr (apply_l E c) (read_apply E c)).
  { induction n as [t|tag attrs tx kids IH] using node_ind'.
    { split; [|intros c []]. intros s G. cbn [apply_l read_apply]. make_new KApply. apply out_raise; exact F1. }
    rewrite Forall_forall in IH. split; [|intros c I; exact (proj1 (IH c I))].
    intros s G. cbn [apply_l read_apply]. make_new KApply. set (a := length (ls_heap s)) in *.
    destruct (String.eqb (get_local_part tag) "Apply"); cbn [negb]; [|apply out_raise; exact F1].
    destruct (dict_get "FunctionId" attrs) as [id|]; [|apply out_raise; exact F1].
    eapply out_bind; [apply (set_function E s s1 a KApply _ "functionId" id F1 ltac:(lia) N1); [right; split; reflexivity | reflexivity]|].
    intros [] f s2 F2 H2.
    set (at_ := dict_set "function" _ _) in H2.
    assert (NL1 : nth_error (ls_heap s1) (S a) = Some (PTypedList TExpression [])).
    { rewrite H1. change (S a) with (1 + length (ls_heap s)). rewrite new_nth_at. reflexivity. }
    assert (N2 : nth_error (ls_heap s2) a = Some (PInst KApply at_)) by (rewrite H2; eapply nth_replace_same; exact N1).
    assert (NL2 : nth_error (ls_heap s2) (S a) = Some (PTypedList TExpression []))
      by (rewrite H2, nth_replace_other by lia; exact NL1).
    assert (L2 : S (S a) <= length (ls_heap s2)).
    { rewrite H2, replace_length, H1, app_length. cbn. unfold a. lia. }
    assert (G2 : growing for_expr s (S (S a)) a KApply at_ (S a) TExpression [] s2)
      by (split; [exact F2|]; split; [exact N2|]; exists []; split; [exact NL2 | constructor]).
    assert (D1 : dict_get "functionId" at_ = Some (PNat (NStr id))) by reflexivity.
    assert (D2 : dict_get "function" at_ = Some (PFn f)) by reflexivity.
    assert (D3 : dict_get "expressions" at_ = Some (PRef (S a))) by reflexivity.
    clearbody at_. clear F1 N1 NL1 H1 N2 NL2 F2.
    match goal with |- out _ _ (bind_l (?g kids) _ _) (bind (?h kids) _) =>
      assert (L : forall ks, (forall c, In c ks -> In c kids) -> forall xs st,
        growing for_expr s (S (S a)) a KApply at_ (S a) TExpression xs st -> S (S a) <= length (ls_heap st) ->
        out (from E s) (fun _ es s' => growing for_expr s (S (S a)) a KApply at_ (S a) TExpression (xs ++ es) s')
          (g ks st) (h ks)) end.
    { induction ks as [|k ks IHks]; intros Sub xs st Gr Lst.
      { cbn beta iota. apply out_ok; [apply Gr|]. rewrite app_nil_r. exact Gr. }
      assert (Sub' : forall c, In c ks -> In c kids) by (intros c I; apply Sub; right; exact I).
      specialize (IHks Sub'). pose proof (IH k (Sub k (or_introl eq_refl))) as [IHk IHs].
      destruct k as [t ats txt sub|t]; cbn beta iota; [|apply IHks; assumption].
      set (k := Elem t ats txt sub) in *.
      match goal with |- out _ _ (bind_l _ (fun e => bind_l _ (fun _ => ?g ks)) _) (bind _ (fun x => bind (?h ks) _)) =>
        set (GO := g) in *; set (HO := h) in * end.
      assert (Item : forall (m : lm pval) (r : res expr), makes for_expr m r ->
        out (from E s) (fun _ es s' => growing for_expr s (S (S a)) a KApply at_ (S a) TExpression (xs ++ es) s')
          ((let> e := m in let> _ := append_l E a "expressions" e in GO ks) st)
          (let* e := r in let* es := HO ks in Ok (e :: es))).
      { intros m r M. eapply makes_item; try eassumption; try lia; try discriminate.
        - intros ? ? ? ? HS; apply expr_mono; exact HS.
        - apply expr_type.
        - intros x s' _ G' L'. pose proof (IHks _ s' G' L') as Q. destruct Q as [QK Q]. split; [exact QK|].
          destruct (HO ks) as [es|e]; cbn [bind]; [|exact Q]. destruct Q as (v & Ev & Gv). exists v. split; [exact Ev|].
          rewrite <- app_assoc in Gv. exact Gv. }
      destruct (String.eqb (get_local_part t) "Apply"); [apply Item; exact IHk|].
      destruct (String.eqb (get_local_part t) "AttributeValue");
        [apply Item; eapply makes_map; [apply value_ok | intros h v x; apply fe_value]|].
      destruct (String.eqb (get_local_part t) "SubjectAttributeDesignator");
        [apply Item; eapply makes_map; [apply designator_ok | intros h v x; apply fe_designator]|].
      destruct (String.eqb (get_local_part t) "ResourceAttributeDesignator");
        [apply Item; eapply makes_map; [apply designator_ok | intros h v x; apply fe_designator]|].
      destruct (String.eqb (get_local_part t) "EnvironmentAttributeDesignator"); [apply Item, makes_fail|].
      destruct (String.eqb (get_local_part t) "ActionAttributeDesignator");
        [apply Item; eapply makes_map; [apply designator_ok | intros h v x; apply fe_designator]|].
      destruct (String.eqb (get_local_part t) "AttributeSelector");
        [apply Item; eapply makes_map; [apply selector_ok | intros h v x; apply fe_selector]|].
      destruct (String.eqb (get_local_part t) "Condition").
      { assert (Hc : forall (r : res expr), bind (bind r (fun _ => Raise ETypeError)) (fun e => bind (HO ks) (fun es => Ok (e :: es)))
            = bind r (fun _ => @Raise (list expr) ETypeError)) by (intros []; reflexivity).
        rewrite Hc. clear Hc.
        eapply out_bind; [apply makes_at; [apply condition_with_ok; exact IHs | apply Gr]|].
        intros v x s' F' (F'' & Cv). pose proof (growing_from _ (fun h h' v x HS => expr_mono h h' HS v x) _ _ _ _ _ _ _ _ _ _ Gr F'') as (_ & Na & items & Nl & _).
        destruct (append_refused E s s' a (S a) KApply at_ "expressions" TExpression items v F' Na D3 Nl) as (s4 & E4 & F4).
        { destruct Cv as (b & (-> & cattrs & Nb) & _). apply (mono_inst _ _ (hide_hsub_all _ _)) in Nb. cbn. rewrite Nb. reflexivity. }
        unfold bind_l. rewrite E4. apply out_raise; exact F4. }
      destruct (String.eqb (get_local_part t) "Function"); [apply Item, makes_fail|].
      destruct (String.eqb (get_local_part t) "VariableReference"); apply Item, makes_fail. }
    eapply out_bind; [apply (L kids (fun c I => I) [] s2 G2 L2)|].
    intros [] args s3 F3 (_ & N3 & items & NL3 & FI). cbn [app] in FI.
    assert (ND : nth_error (fresh (length (ls_heap s)) (ls_heap s3)) a = Some (PInst KApply at_)) by (apply fresh_some; [lia | exact N3]).
    apply out_ok; [exact F3|].
    eapply fe_apply with (a := a) (l := S a) (items := items).
    - eapply inst_of; exact ND.
    - eapply attr_of; [exact ND | exact D1 | reflexivity].
    - eapply attr_of; [exact ND | exact D2 | reflexivity].
    - eapply get_of; [exact ND | exact D3].
    - apply fresh_some; [lia | exact NL3].
    - apply exprs_of_forall2. eapply Forall2_mono; [intros ? ? ? ? HS; apply expr_mono; exact HS| |exact FI].
      apply fresh_hsub; [lia | apply untouched_refl]. }
  intros n. apply All.
Qed.

Lemma condition_ok : forall n, makes (fun h v x => for_condition h v (Some x)) (condition_l E n) (read_condition E n).
Proof.
  intros [tag at_ tx ks|t].
  - apply condition_with_ok. intros c _. apply apply_ok.
  - intros s G. unfold condition_l, condition_with. make_new KCondition. apply out_raise; exact F1.
Qed.

(** *** Objects under construction *)

Definition has (attrs : list (string * pval)) (name : string) (P : pval -> Prop) : Prop :=
  exists v, dict_get name attrs = Some v /\ P v.
Lemma has_set : forall attrs name v (P : pval -> Prop), P v -> has (dict_set name v attrs) name P.
Proof. intros attrs name v P Pv. exists v. rewrite dict_get_set_same. auto. Qed.
Lemma has_other : forall attrs name v name' P, name' <> name -> has attrs name' P -> has (dict_set name v attrs) name' P.
Proof. intros attrs name v name' P D (w & G & Pw). exists w. rewrite dict_get_set_other; auto. Qed.
Lemma has_impl : forall attrs name (P Q : pval -> Prop), (forall v, P v -> Q v) -> has attrs name P -> has attrs name Q.
Proof. intros attrs name P Q I (w & G & Pw). exists w; auto. Qed.
Lemma has_attr : forall h a c attrs name P, nth_error h a = Some (PInst c attrs) -> has attrs name P -> attr_is h a name P.
Proof. intros h a c attrs name P N (v & D & Pv). eapply attr_of; eassumption. Qed.

Lemma set_step' : forall s0 s a c attrs attrs' name v t, from E s0 s -> length (ls_heap s0) <= a ->
  nth_error (ls_heap s) a = Some (PInst c attrs) -> setter_type c name = Some t ->
  isinstance (ls_heap s) v t = true -> (forall m, assign cm c name v attrs m = (Ok tt, attrs', m)) ->
  exists s', set_l E a name v s = (Ok tt, s') /\ from E s0 s' /\
    nth_error (ls_heap s') a = Some (PInst c attrs') /\
    (forall k, a < k -> fresh k (ls_heap s') = fresh k (ls_heap s)) /\
    (forall b, b <> a -> nth_error (ls_heap s') b = nth_error (ls_heap s) b) /\
    length (ls_heap s') = length (ls_heap s).
Proof.
  intros s0 s a c attrs attrs' name v t F L N ST IS P. eexists. split.
  - unfold set_l, do_l. cbn [ostep]. change (os_heap (ls_os s)) with (ls_heap s).
    rewrite N, ST, IS, P. reflexivity.
  - split; [apply from_replace; [exact F | exact L | apply (from_good _ _ _ F)]|].
    unfold ls_heap at 1 2 4. cbn [ls_os with_os os_heap].
    split; [eapply nth_replace_same; exact N|].
    split; [intros k Lk; apply fresh_replace; exact Lk|].
    split; [intros b D; apply nth_replace_other; congruence | apply replace_length].
Qed.

Lemma isinstance_fresh : forall n h v t, t <> TAny -> t <> TEffect -> has_type (fresh n h) v t -> isinstance h v t = true.
Proof. intros n h v t T1 T2 T. apply isinstance_iff. eapply has_type_mono; [exact T1 | exact T2 | apply hide_hsub_all | exact T]. Qed.

(** *** Matches *)
Definition match_so_far (k : designator_kind) (s0 : lstate) (a : nat) (m : matchel) (s : lstate) : Prop :=
  let H := fresh (S a) (ls_heap s) in
  from E s0 s /\ exists attrs, nth_error (ls_heap s) a = Some (PInst (KMatch k) attrs) /\
    has attrs "matchId" (maybe for_string (mt_id m)) /\
    has attrs "function" (maybe for_function (mt_fn m)) /\
    has attrs "attributeValue" (maybe (for_value H) (mt_value m)) /\
    has attrs "attributeDesignator" (maybe (for_designator H) (mt_designator m)) /\
    has attrs "attributeSelector" (maybe (for_selector H) (mt_selector m)).

Ltac hmono M := eapply has_impl; [intros ? ?; eapply maybe_local; [intros ? ?; eapply M; eassumption | eassumption] | eassumption].

Lemma match_later : forall k s0 a m s s', match_so_far k s0 a m s -> from E s s' -> match_so_far k s0 a m s'.
Proof.
  intros k s0 a m s s' (F & attrs & N & A1 & A2 & A3 & A4 & A5) F'.
  pose proof (from_untouched _ _ _ F') as U.
  assert (HS : hsub (fresh (S a) (ls_heap s)) (fresh (S a) (ls_heap s'))) by (apply fresh_hsub; [lia | exact U]).
  split; [eapply from_trans; eassumption|]. exists attrs. split; [apply U; exact N|].
  split; [exact A1|]. split; [exact A2|].
  split; [hmono value_mono|]. split; [hmono designator_mono | hmono selector_mono].
Qed.
Lemma inst_length : forall s a c attrs, nth_error (ls_heap s) a = Some (PInst c attrs) -> S a <= length (ls_heap s).
Proof. intros s a c attrs N. apply nth_error_Some. congruence. Qed.

(** a value read for an attribute of the object at [a] *)
Lemma read_at : forall X (R : heap -> pval -> X -> Prop) (m : lm pval) (r : res X) Y (R' : unit -> Y -> lstate -> Prop) f a s0 s name,
  (forall h h' v x, hsub h h' -> R h v x -> R h' v x) ->
  makes R m r -> from E s0 s -> S a <= length (ls_heap s) ->
  (forall v x s', from E s0 s' -> from E s s' -> R (fresh (S a) (ls_heap s')) v x -> out (from E s0) R' (set_l E a name v s') (f x)) ->
  out (from E s0) R' ((let> v := m in set_l E a name v) s) (bind r f).
Proof.
  intros X R m r Y R' f a s0 s name Mo M F L C.
  eapply out_bind; [apply makes_at; [exact M | exact F]|].
  intros v x s' F' (F'' & Rv). apply C; auto. eapply Mo; [|exact Rv]. apply fresh_hsub; [exact L | apply untouched_refl].
Qed.

Lemma match_child_ok : forall k a s0 c m s, length (ls_heap s0) <= a -> match_so_far k s0 a m s ->
  out (from E s0) (fun _ m' s' => match_so_far k s0 a m' s') (match_child_l E k a c s) (match_child E k m c).
Proof.
  intros k a s0 c m s L0 I. pose proof (proj1 I) as F. unfold match_child_l, match_child.
  apply out_lift; [exact F|]. intros l _.
  assert (Ls : S a <= length (ls_heap s)) by (destruct I as (_ & attrs & N & _); eapply inst_length; exact N).
  destruct (String.eqb l "AttributeValue").
  { eapply read_at with (R := for_value); [intros ? ? ? ? HS; apply value_mono; exact HS | apply value_ok | exact F | exact Ls |].
    intros v x s' F' F'' Rv. destruct (match_later _ _ _ _ _ _ I F'') as (_ & attrs & N & A1 & A2 & A3 & A4 & A5).
    destruct (set_step' s0 s' a _ attrs (dict_set "attributeValue" v attrs) "attributeValue" v _ F' L0 N eq_refl) as (s2 & E2 & F2 & N2 & H2 & _).
    { eapply isinstance_fresh; [discriminate | discriminate |]. destruct Rv as (b & -> & Nb). eapply ht_value; exact Nb. }
    { reflexivity. }
    rewrite E2. apply out_ok; [exact F2|]. split; [exact F2|]. eexists. split; [exact N2|]. rewrite H2 by lia.
    split; [apply has_other; [discriminate | exact A1]|]. split; [apply has_other; [discriminate | exact A2]|].
    split; [apply has_set; exact Rv|]. split; (apply has_other; [discriminate|]; assumption). }
  destruct (String.eqb l (designator_name k)).
  { pose proof I as (_ & attrs0 & N0 & _ & _ & _ & _ & (w & D0 & W)).
    eapply out_step; [unfold get_l, get_attr; rewrite N0, D0; reflexivity|].
    destruct (mt_selector m) as [sel|] eqn:Em.
    { cbn in W. destruct W as (b & (-> & _) & _). apply out_raise; exact F. }
    cbn in W. subst w.
    eapply read_at with (R := for_designator); [intros ? ? ? ? HS; apply designator_mono; exact HS | apply designator_ok | exact F | exact Ls |].
    intros v x s' F' F'' Rv. destruct (match_later _ _ _ _ _ _ I F'') as (_ & attrs & N & A1 & A2 & A3 & A4 & A5).
    destruct (set_step' s0 s' a _ attrs (dict_set "attributeSelector" PNone (dict_set "attributeDesignator" v attrs)) "attributeDesignator" v _ F' L0 N eq_refl) as (s2 & E2 & F2 & N2 & H2 & _).
    { eapply isinstance_fresh; [discriminate | discriminate |]. destruct Rv as (b & (-> & ats & Nb) & _). eapply ht_designator; exact Nb. }
    { reflexivity. }
    rewrite E2. apply out_ok; [exact F2|]. split; [exact F2|]. eexists. split; [exact N2|]. rewrite H2 by lia.
    do 3 (split; [apply has_other; [discriminate|]; apply has_other; [discriminate|]; assumption|]).
    split; [apply has_other; [discriminate|]; apply has_set; exact Rv | apply has_set; reflexivity]. }
  destruct (String.eqb l "AttributeSelector"); [|apply out_raise; exact F].
  pose proof I as (_ & attrs0 & N0 & _ & _ & _ & (w & D0 & W) & _).
  eapply out_step; [unfold get_l, get_attr; rewrite N0, D0; reflexivity|].
  destruct (mt_designator m) as [dd|] eqn:Em.
  { cbn in W. destruct W as (b & (-> & _) & _). apply out_raise; exact F. }
  cbn in W. subst w.
  eapply read_at with (R := for_selector); [intros ? ? ? ? HS; apply selector_mono; exact HS | apply selector_ok | exact F | exact Ls |].
  intros v x s' F' F'' Rv. destruct (match_later _ _ _ _ _ _ I F'') as (_ & attrs & N & A1 & A2 & A3 & A4 & A5).
  destruct (set_step' s0 s' a _ attrs (dict_set "attributeDesignator" PNone (dict_set "attributeSelector" v attrs)) "attributeSelector" v _ F' L0 N eq_refl) as (s2 & E2 & F2 & N2 & H2 & _).
  { eapply isinstance_fresh; [discriminate | discriminate |]. destruct Rv as (b & (-> & ats & Nb) & _). eapply ht_class; exact Nb. }
  { reflexivity. }
  rewrite E2. apply out_ok; [exact F2|]. split; [exact F2|]. eexists. split; [exact N2|]. rewrite H2 by lia.
  do 3 (split; [apply has_other; [discriminate|]; apply has_other; [discriminate|]; assumption|]).
  split; [apply has_set; reflexivity | apply has_other; [discriminate|]; apply has_set; exact Rv].
Qed.

Lemma match_ok : forall k n, makes (fun h v x => for_match h k v x) (match_l E k n) (read_match E k n).
Proof.
  intros k n s G. unfold match_l, read_match.
  assert (Q : out (from E s) (fun v x s' => for_match (fresh (length (ls_heap s)) (ls_heap s')) k v x)
     ((let> a := make_l E (ONew (KMatch k)) in
      let> _ := lift_l (expect (match_name k) n) in
      let> id := lift_l (required n "MatchId") in
      let> _ := set_str E a "matchId" id in
      let> _ := each_l (match_child_l E k a) (elements (el_kids n)) in
      ret_l (PRef a)) s)
     (let* _ := expect (match_name k) n in
      let* id := required n "MatchId" in
      let* f := load_fn E id in
      foldM (match_child E k) (elements (el_kids n)) (mkMatch (Some id) (Some f) None None None))).
  { make_new (KMatch k). set (a := length (ls_heap s)) in *.
    apply out_lift; [exact F1|]. intros _ _. apply out_lift; [exact F1|]. intros id _.
    eapply out_bind; [apply (set_function E s s1 a (KMatch k) _ "matchId" id F1 ltac:(lia) N1); [left; exists k; split; reflexivity | reflexivity]|].
    intros [] f s2 F2 H2.
    assert (I2 : match_so_far k s a (mkMatch (Some id) (Some f) None None None) s2).
    { split; [exact F2|]. eexists. split; [rewrite H2; eapply nth_replace_same; exact N1|].
      repeat match goal with |- _ /\ _ => split end; eexists; split; try reflexivity. }
    pose proof (each_out _ (from E s) (match_so_far k s a) (match_child_l E k a) (match_child E k) (elements (el_kids n))
      (fun x st HI => proj1 HI) (fun c x st _ HI => match_child_ok k a s c x st (le_n _) HI) _ _ I2) as Q.
    set (r := foldM _ _ _) in *.
    assert (Id : bind r Ok = r) by (destruct r; reflexivity). rewrite <- Id.
    eapply out_bind; [exact Q|]. intros [] m s3 F3 (_ & attrs & N3 & A1 & A2 & A3 & A4 & A5).
    apply out_ok; [exact F3|].
    assert (ND : nth_error (fresh (length (ls_heap s)) (ls_heap s3)) a = Some (PInst (KMatch k) attrs)) by (apply fresh_some; [lia | exact N3]).
    assert (HS : hsub (fresh (S a) (ls_heap s3)) (fresh (length (ls_heap s)) (ls_heap s3))) by (apply fresh_hsub; [lia | apply untouched_refl]).
    exists a. split; [eapply inst_of; exact ND|].
    split; [eapply has_attr; eassumption|]. split; [eapply has_attr; eassumption|].
    split; [eapply has_attr; [exact ND | hmono value_mono]|].
    split; (eapply has_attr; [exact ND|]); [hmono designator_mono | hmono selector_mono]. }
  destruct k; try exact Q. apply out_raise. apply from_refl; exact G.
Qed.

(** *** Targets *)
Lemma out_map : forall A X Y K (R : A -> X -> lstate -> Prop) (R' : A -> Y -> lstate -> Prop) p (r : res X) (f : X -> Y),
  out K R p r -> (forall v x s, K s -> R v x s -> R' v (f x) s) -> out K R' p (let* x := r in Ok (f x)).
Proof.
  intros A X Y K R R' p r f [HK H] W. split; [exact HK|]. destruct r as [x|e]; cbn [bind]; [|exact H].
  destruct H as (v & Ev & Rv). exists v; auto.
Qed.

Lemma target_child_ok : forall k n, makes (fun h v x => for_child h k v x) (target_child_l E k n) (read_target_child E k n).
Proof.
  intros k n s G. unfold target_child_l, read_target_child. make_new (KTargetChild k).
  set (a := length (ls_heap s)) in *.
  apply out_lift; [exact F1|]. intros _ _.
  assert (NL1 : nth_error (ls_heap s1) (S a) = Some (PTypedList (TCls (KMatch k)) [])).
  { rewrite H1. change (S a) with (1 + length (ls_heap s)). rewrite new_nth_at. reflexivity. }
  assert (L1 : S (S a) <= length (ls_heap s1)) by (rewrite H1, app_length; cbn; unfold a; lia).
  set (at_ := new_inst (ls_heap s) (KTargetChild k)) in *.
  assert (D : dict_get "matches" at_ = Some (PRef (S a))) by reflexivity.
  set (I := fun xs st => growing (fun h v x => for_match h k v x) s (S (S a)) a (KTargetChild k) at_ (S a) (TCls (KMatch k)) xs st
                         /\ S (S a) <= length (ls_heap st)).
  assert (I1 : I [] s1) by (split; [split; [exact F1|]; split; [exact N1|]; exists []; split; [exact NL1 | constructor] | exact L1]).
  match goal with |- out _ _ (bind_l (each_l ?f ?ks) _ _) (foldM ?g _ _) =>
    pose proof (each_out _ (from E s) I f g ks (fun x st HI => proj1 (proj1 HI))) as Q end.
  specialize (fun St => Q St [] s1 I1). set (r := foldM _ _ _) in *.
  assert (Id : bind r Ok = r) by (destruct r; reflexivity). rewrite <- Id.
  eapply out_bind; [apply Q|].
  - intros c xs st _ (Gr & Ls). apply out_lift; [apply Gr|]. intros l _.
    destruct (String.eqb l (match_name k)); [|apply out_raise; apply Gr].
    eapply out_map; [eapply growing_item; try eassumption; try lia|].
    + intros ? ? ? ? HS; apply match_mono; exact HS.
    + apply match_ok.
    + intros h v x (b & Ib & _). eapply instance_type; exact Ib.
    + intros h h' v HS; apply has_type_mono; [discriminate | discriminate | exact HS].
    + intros v x s' _ H. exact H.
  - intros [] ms s3 F3 ((_ & N3 & items & NL3 & FI) & _). apply out_ok; [exact F3|].
    assert (ND : nth_error (fresh (length (ls_heap s)) (ls_heap s3)) a = Some (PInst (KTargetChild k) at_)) by (apply fresh_some; [lia | exact N3]).
    exists a. split; [eapply inst_of; exact ND|]. eapply attr_of; [exact ND | exact D |].
    exists (S a), (TCls (KMatch k)), items. split; [reflexivity|]. split; [apply fresh_some; [lia | exact NL3]|].
    eapply (Forall2_mono (fun h => for_match h k)); [intros ? ? ? ? HS; apply match_mono; exact HS| |exact FI].
    apply fresh_hsub; [lia | apply untouched_refl].
Qed.

Definition tg_of (k : designator_kind) (t : target) : list (list matchel) :=
  match k with
  | DSubject => tg_subjects t | DResource => tg_resources t | DAction => tg_actions t | DEnvironment => tg_environments t
  end.
Definition tg_upd (k : designator_kind) (x : list (list matchel)) (t : target) : target :=
  match k with
  | DSubject => mkTarget x (tg_resources t) (tg_actions t) (tg_environments t)
  | DResource => mkTarget (tg_subjects t) x (tg_actions t) (tg_environments t)
  | DAction => mkTarget (tg_subjects t) (tg_resources t) x (tg_environments t)
  | DEnvironment => mkTarget (tg_subjects t) (tg_resources t) (tg_actions t) x
  end.
Definition slot (k : designator_kind) : nat :=
  match k with DSubject => 1 | DResource => 2 | DAction => 3 | DEnvironment => 4 end.

Section Target.
Variables (s0 : lstate) (a : nat) (attrs : list (string * pval)).
Hypothesis L0 : length (ls_heap s0) <= a.
Hypothesis D : forall k, dict_get (container_attr k) attrs = Some (PRef (slot k + a)).

Definition target_so_far (t : target) (s : lstate) : Prop :=
  (forall k, growing (fun h v x => for_child h k v x) s0 (5 + a) a KTarget attrs (slot k + a) (TCls (KTargetChild k)) (tg_of k t) s)
  /\ 5 + a <= length (ls_heap s).

Lemma slot_lt : forall k, slot k + a < 5 + a /\ a < slot k + a.
Proof. intros []; cbn; lia. Qed.

Lemma target_item : forall kd t s c, target_so_far t s ->
  out (from E s0) (fun _ x s' => target_so_far (tg_upd kd (tg_of kd t ++ [x]) t) s')
    ((let> v := target_child_l E kd c in append_l E a (container_attr kd) v) s) (read_target_child E kd c).
Proof.
  intros kd t s c (Gr & Ls). pose proof (Gr kd) as (F & _). destruct (slot_lt kd) as [Sl1 Sl2].
  set (r := read_target_child E kd c). assert (Id : bind r Ok = r) by (destruct r; reflexivity). rewrite <- Id.
  eapply out_bind; [apply makes_at; [apply target_child_ok | exact F]|].
  intros v x s' F' (F'' & Rv).
  assert (Gr' : forall k, growing (fun h v x => for_child h k v x) s0 (5 + a) a KTarget attrs (slot k + a) (TCls (KTargetChild k)) (tg_of k t) s').
  { intros k. eapply growing_from; [intros ? ? ? ? HS; apply child_mono; exact HS | apply Gr | exact F'']. }
  destruct (Gr' kd) as (_ & N & items & NL & FI).
  assert (IS : isinstance (ls_heap s') v (TCls (KTargetChild kd)) = true).
  { eapply isinstance_fresh; [discriminate | discriminate |]. destruct Rv as (b & Ib & _). eapply instance_type; exact Ib. }
  destruct (append_step E s0 s' a (slot kd + a) _ _ _ _ _ v F' ltac:(lia) N (D kd) NL IS) as (s2 & E2 & F2 & H2).
  rewrite E2. apply out_ok; [exact F2|]. pose proof (from_length _ _ _ F'') as Lf.
  split; [|rewrite H2, replace_length; lia].
  assert (HF : fresh (5 + a) (ls_heap s2) = fresh (5 + a) (ls_heap s')) by (rewrite H2; apply fresh_replace; exact Sl1).
  intros k. split; [exact F2|]. split; [rewrite H2, nth_replace_other by lia; exact N|].
  rewrite HF.
  destruct (Nat.eq_dec (slot k) (slot kd)) as [Eq|Ne].
  - assert (k = kd) by (destruct k, kd; try reflexivity; discriminate Eq). subst k.
    exists (items ++ [v]). split; [rewrite H2; eapply nth_replace_same; exact NL|].
    assert (TU : tg_of kd (tg_upd kd (tg_of kd t ++ [x]) t) = tg_of kd t ++ [x]) by (destruct kd; reflexivity). rewrite TU.
    apply Forall2_app; [exact FI|]. constructor; [|constructor]. eapply child_mono; [|exact Rv].
    apply fresh_hsub; [exact Ls | apply untouched_refl].
  - destruct (Gr' k) as (_ & _ & itemsk & NLk & FIk). exists itemsk.
    split; [rewrite H2, nth_replace_other by lia; exact NLk|].
    assert (TU : tg_of k (tg_upd kd (tg_of kd t ++ [x]) t) = tg_of k t) by (destruct k, kd; try reflexivity; destruct (Ne eq_refl)).
    rewrite TU. exact FIk.
Qed.

Lemma container_ok : forall kd t s c, target_so_far t s ->
  out (from E s0) (fun _ x s' => target_so_far (tg_upd kd x t) s') (container_l E kd a c s) (read_container E kd (tg_of kd t) c).
Proof.
  intros kd t s c I. unfold container_l, read_container.
  apply (each_out _ (from E s0) (fun x st => target_so_far (tg_upd kd x t) st)).
  - intros x st HI. apply (proj1 HI DSubject).
  - intros k x st _ HI. eapply out_map; [apply target_item; exact HI|].
    intros v y s' _ HI'. destruct kd; exact HI'.
  - destruct kd, t; exact I.
Qed.
End Target.

Lemma target_ok : forall n, makes for_target (target_l E n) (read_target E n).
Proof.
  intros n s G. unfold target_l, read_target. make_new KTarget.
  set (a := length (ls_heap s)) in *.
  apply out_lift; [exact F1|]. intros _ _.
  set (at_ := new_inst (ls_heap s) KTarget) in *.
  assert (D : forall k, dict_get (container_attr k) at_ = Some (PRef (slot k + a))) by (intros []; reflexivity).
  assert (I1 : target_so_far s a at_ (mkTarget [] [] [] []) s1).
  { split; [|rewrite H1, app_length; cbn; unfold a; lia].
    intros k. split; [exact F1|]. split; [exact N1|]. exists [].
    split; [|destruct k; constructor]. destruct k; cbn [slot]; rewrite H1.
    - exact (new_nth_at (ls_heap s) _ _ 0). - exact (new_nth_at (ls_heap s) _ _ 1).
    - exact (new_nth_at (ls_heap s) _ _ 2). - exact (new_nth_at (ls_heap s) _ _ 3). }
  match goal with |- out _ _ (bind_l (each_l ?f ?ks) _ _) (foldM ?g _ _) =>
    pose proof (each_out _ (from E s) (target_so_far s a at_) f g ks (fun x st HI => proj1 (proj1 HI DSubject))) as Q end.
  specialize (fun St => Q St _ s1 I1). set (r := foldM _ _ _) in *.
  assert (Id : bind r Ok = r) by (destruct r; reflexivity). rewrite <- Id.
  eapply out_bind; [apply Q|].
  - intros c t st _ HI. pose proof (proj1 (proj1 HI DSubject)) as F. apply out_lift; [exact F|]. intros l _.
    assert (La : length (ls_heap s) <= a) by apply le_n.
    destruct (String.eqb l "Subjects"); [eapply out_map; [exact (container_ok s a at_ La D DSubject t st c HI) | intros v x s' _ H; exact H]|].
    destruct (String.eqb l "Resources"); [eapply out_map; [exact (container_ok s a at_ La D DResource t st c HI) | intros v x s' _ H; exact H]|].
    destruct (String.eqb l "Actions"); [eapply out_map; [exact (container_ok s a at_ La D DAction t st c HI) | intros v x s' _ H; exact H]|].
    destruct (String.eqb l "Environments"); [eapply out_map; [exact (container_ok s a at_ La D DEnvironment t st c HI) | intros v x s' _ H; exact H]|].
    apply out_raise; exact F.
  - intros [] t s3 F3 (Gr & _). apply out_ok; [exact F3|].
    pose proof (Gr DSubject) as (_ & N3 & _).
    assert (ND : nth_error (fresh (length (ls_heap s)) (ls_heap s3)) a = Some (PInst KTarget at_)) by (apply fresh_some; [lia | exact N3]).
    assert (Li : forall k, attr_is (fresh (length (ls_heap s)) (ls_heap s3)) a (container_attr k)
       (listing (fresh (length (ls_heap s)) (ls_heap s3)) (Forall2 (for_child (fresh (length (ls_heap s)) (ls_heap s3)) k)) (tg_of k t))).
    { intros k. destruct (Gr k) as (_ & _ & items & NL & FI). assert (a <= slot k + a) by (destruct k; cbn; lia). eapply attr_of; [exact ND | apply D |].
      exists (slot k + a), (TCls (KTargetChild k)), items. split; [reflexivity|]. split; [apply fresh_some; [lia | exact NL]|].
      eapply (Forall2_mono (fun h => for_child h k)); [intros ? ? ? ? HS; apply child_mono; exact HS| |exact FI].
      apply fresh_hsub; [lia | apply untouched_refl]. }
    exists a. split; [eapply inst_of; exact ND|].
    split; [exact (Li DSubject)|]. split; [exact (Li DResource)|]. split; [exact (Li DAction) | exact (Li DEnvironment)].
Qed.

(** *** Rules *)
Definition described (attrs : list (string * pval)) (d : option string) : Prop :=
  match d with
  | None => dict_get "description" attrs = None
  | Some x => dict_get "description" attrs = Some (PNat (NStr x))
  end.
Lemma described_other : forall attrs name v d, name <> "description"%string -> described attrs d -> described (dict_set name v attrs) d.
Proof. intros attrs name v [x|] D H; cbn in *; rewrite dict_get_set_other; congruence. Qed.

Definition rule_so_far (s0 : lstate) (a : nat) (r : rule) (s : lstate) : Prop :=
  let H := fresh (S a) (ls_heap s) in
  from E s0 s /\ exists attrs, nth_error (ls_heap s) a = Some (PInst KRule attrs) /\
    has attrs "id" (maybe for_string (rl_id r)) /\
    has attrs "effect" (maybe (for_effect H) (rl_effect r)) /\
    has attrs "target" (maybe (for_target H) (rl_target r)) /\
    has attrs "condition" (maybe (for_condition H) (rl_condition r)) /\
    described attrs (rl_description r).

Lemma rule_later : forall s0 a m s s', rule_so_far s0 a m s -> from E s s' -> rule_so_far s0 a m s'.
Proof.
  intros s0 a m s s' (F & attrs & N & A1 & A2 & A3 & A4 & A5) F'.
  pose proof (from_untouched _ _ _ F') as U.
  assert (HS : hsub (fresh (S a) (ls_heap s)) (fresh (S a) (ls_heap s'))) by (apply fresh_hsub; [lia | exact U]).
  split; [eapply from_trans; eassumption|]. exists attrs. split; [apply U; exact N|].
  split; [exact A1|]. split; [hmono effect_mono|]. split; [hmono target_mono|]. split; [hmono condition_mono | exact A5].
Qed.

(** a description, of a rule or a policy *)
Lemma description_step : forall s0 s a c attrs n (K' : option string -> lstate -> Prop) old, from E s0 s -> length (ls_heap s0) <= a ->
  nth_error (ls_heap s) a = Some (PInst c attrs) -> setter_type c "description" = Some TStr -> plain E c "description" ->
  K' old s ->
  (forall x s', from E s0 s' -> nth_error (ls_heap s') a = Some (PInst c (dict_set "description" (PNat (NStr x)) attrs)) ->
     (forall k, a < k -> fresh k (ls_heap s') = fresh k (ls_heap s)) ->
     (forall b, b <> a -> nth_error (ls_heap s') b = nth_error (ls_heap s) b) ->
     length (ls_heap s') = length (ls_heap s) -> K' (Some x) s') ->
  out (from E s0) (fun _ d s' => K' d s') (description_l E a n s) (Ok (description_of n old)).
Proof.
  intros s0 s a c attrs n K' old F L0 N ST P K0 K1. unfold description_l, description_of.
  destruct (el_text n) as [t|]; [|apply out_ok; assumption].
  destruct (set_step' s0 s a _ attrs (dict_set "description" (PNat (NStr (py_strip t))) attrs) "description" (PNat (NStr (py_strip t))) _ F L0 N ST)
    as (s2 & E2 & F2 & N2 & H2 & O2 & L2); [reflexivity | intros m; apply P |].
  unfold set_str. rewrite E2. apply out_ok; [exact F2|]. apply K1; assumption.
Qed.

Lemma rule_child_ok : forall s0 a c r s, length (ls_heap s0) <= a -> rule_so_far s0 a r s ->
  out (from E s0) (fun _ r' s' => rule_so_far s0 a r' s')
    ((let> l := lift_l (local_name c) in
      if String.eqb l "Description" then description_l E a c
      else if String.eqb l "Condition" then let> v := condition_l E c in set_l E a "condition" v
      else if String.eqb l "Target" then let> v := target_l E c in set_l E a "target" v
      else fail_l EXMLParseError) s)
    (let* l := local_name c in
     if String.eqb l "Description" then
       Ok (mkRule (rl_id r) (rl_effect r) (rl_target r) (rl_condition r) (description_of c (rl_description r)))
     else if String.eqb l "Condition" then
       let* e := read_condition E c in
       Ok (mkRule (rl_id r) (rl_effect r) (rl_target r) (Some (Some e)) (rl_description r))
     else if String.eqb l "Target" then
       let* t := read_target E c in
       Ok (mkRule (rl_id r) (rl_effect r) (Some t) (rl_condition r) (rl_description r))
     else Raise EXMLParseError).
Proof.
  intros s0 a c r s L0 I. pose proof (proj1 I) as F. apply out_lift; [exact F|]. intros l _.
  assert (Ls : S a <= length (ls_heap s)) by (destruct I as (_ & attrs & N & _); eapply inst_length; exact N).
  destruct (String.eqb l "Description").
  { destruct I as (_ & attrs & N & A1 & A2 & A3 & A4 & A5).
    change (Ok (mkRule (rl_id r) (rl_effect r) (rl_target r) (rl_condition r) (description_of c (rl_description r))))
      with (let* d := Ok (description_of c (rl_description r)) in Ok (mkRule (rl_id r) (rl_effect r) (rl_target r) (rl_condition r) d)).
    eapply out_map; [|intros v x s' _ H; exact H].
    apply (description_step s0 s a KRule attrs c (fun d s' => rule_so_far s0 a (mkRule (rl_id r) (rl_effect r) (rl_target r) (rl_condition r) d) s'));
      try assumption; try reflexivity; [intros ? ? ?; reflexivity | |].
    - split; [exact F|]. exists attrs. repeat (split; [assumption|]). exact A5.
    - intros x s' F' N' H' O' L'. split; [exact F'|]. eexists. split; [exact N'|]. rewrite H' by lia. cbn.
      do 4 (split; [apply has_other; [discriminate|]; assumption|]). apply dict_get_set_same. }
  destruct (String.eqb l "Condition").
  { eapply read_at with (R := fun h v x => for_condition h v (Some x)); [intros ? ? ? ? HS; apply condition_mono; exact HS | apply condition_ok | exact F | exact Ls |].
    intros v x s' F' F'' Rv. destruct (rule_later _ _ _ _ _ I F'') as (_ & attrs & N & A1 & A2 & A3 & A4 & A5).
    destruct (set_step' s0 s' a _ attrs (dict_set "condition" v attrs) "condition" v _ F' L0 N eq_refl) as (s2 & E2 & F2 & N2 & H2 & _).
    { eapply isinstance_fresh; [discriminate | discriminate |]. destruct Rv as (b & Ib & _). eapply instance_type; exact Ib. }
    { reflexivity. }
    rewrite E2. apply out_ok; [exact F2|]. split; [exact F2|]. eexists. split; [exact N2|]. rewrite H2 by lia. cbn.
    do 3 (split; [apply has_other; [discriminate|]; assumption|]). split; [apply has_set; exact Rv|].
    apply described_other; [discriminate | exact A5]. }
  destruct (String.eqb l "Target"); [|apply out_raise; exact F].
  eapply read_at with (R := for_target); [intros ? ? ? ? HS; apply target_mono; exact HS | apply target_ok | exact F | exact Ls |].
  intros v x s' F' F'' Rv. destruct (rule_later _ _ _ _ _ I F'') as (_ & attrs & N & A1 & A2 & A3 & A4 & A5).
  destruct (set_step' s0 s' a _ attrs (dict_set "target" v attrs) "target" v _ F' L0 N eq_refl) as (s2 & E2 & F2 & N2 & H2 & _).
  { eapply isinstance_fresh; [discriminate | discriminate |]. destruct Rv as (b & Ib & _). eapply instance_type; exact Ib. }
  { reflexivity. }
  rewrite E2. apply out_ok; [exact F2|]. split; [exact F2|]. eexists. split; [exact N2|]. rewrite H2 by lia. cbn.
  do 2 (split; [apply has_other; [discriminate|]; assumption|]). split; [apply has_set; exact Rv|].
  split; [apply has_other; [discriminate|]; assumption|]. apply described_other; [discriminate | exact A5].
Qed.

Lemma rule_ok : forall n, makes for_rule (rule_l E n) (read_rule E n).
Proof.
  intros n s G. unfold rule_l, read_rule. make_new KRule.
  set (a := length (ls_heap s)) in *.
  apply out_lift; [exact F1|]. intros _ _. apply out_lift; [exact F1|]. intros id _. apply out_lift; [exact F1|]. intros eff _.
  pose proof (inst_length _ _ _ _ N1) as L1.
  (* effect = Effect("Deny") *)
  set (e := length (ls_heap s1)) in *.
  eapply out_step; [unfold make_l, do_l; cbn [ostep as_pyobj]; unfold effect_new, effect_set; cbn [str_in existsb EFFECT_TYPES]; reflexivity|].
  change (os_heap (ls_os s1)) with (ls_heap s1).
  pose proof (from_append E s s1 [PEffect "Deny"] F1) as F2. set (s2 := with_os s1 _) in *.
  assert (N2 : nth_error (ls_heap s2) a = Some (PInst KRule (new_inst (ls_heap s) KRule))) by (unfold s2, ls_heap; cbn [with_os ls_os os_heap]; apply untouched_app; exact N1).
  assert (Ne2 : nth_error (ls_heap s2) e = Some (PEffect "Deny")) by (unfold s2, ls_heap; cbn [with_os ls_os os_heap]; apply new_nth).
  destruct (set_step' s s2 a _ _ (dict_set "effect" (PRef e) (new_inst (ls_heap s) KRule)) "effect" (PRef e) _ F2 (le_n _) N2 eq_refl)
    as (s3 & E3 & F3 & N3 & H3 & O3 & L3); [cbn [isinstance]; rewrite Ne2; reflexivity | reflexivity |].
  eapply out_step; [exact E3|].
  destruct (set_step' s s3 a _ _ (dict_set "id" (PNat (NStr id)) (dict_set "effect" (PRef e) (new_inst (ls_heap s) KRule))) "id" (PNat (NStr id)) _ F3 (le_n _) N3 eq_refl)
    as (s4 & E4 & F4 & N4 & H4 & O4 & L4); [reflexivity | reflexivity |].
  eapply out_step; [exact E4|].
  eapply out_step; [unfold get_l; erewrite get_of; [reflexivity | exact N4 | reflexivity]|]. cbn iota.
  assert (Nea : e <> a) by (unfold e; lia).
  assert (Ne4 : nth_error (ls_heap s4) e = Some (PEffect "Deny")) by (rewrite O4, O3 by exact Nea; exact Ne2).
  (* rule.effect.value = eff *)
  assert (Ef : out (from E s) (fun _ x s' => exists x', x' = match x with EffPermit => "Permit"%string | EffDeny => "Deny"%string end /\
               ls_heap s' = replace_nth e (PEffect x') (ls_heap s4))
               (set_str E e "value" eff s4) (effect_of eff)).
  { assert (Le : length (ls_heap s) <= e) by (unfold e; lia).
    unfold set_str, set_l, do_l. cbn [ostep]. change (os_heap (ls_os s4)) with (ls_heap s4). rewrite Ne4. cbn [String.eqb Ascii.eqb Bool.eqb as_pyobj].
    unfold effect_of. unfold effect_set. destruct (str_in eff EFFECT_TYPES) eqn:S.
    - assert (X : eff = "Permit"%string \/ eff = "Deny"%string).
      { unfold str_in in S. apply existsb_exists in S. destruct S as (y & I & Q). apply String.eqb_eq in Q. subst y. cbn in I. intuition. }
      destruct X as [-> | ->]; cbn [String.eqb Ascii.eqb Bool.eqb];
        (apply out_ok; [apply from_replace; [exact F4 | exact Le | apply (from_good _ _ _ F4)] | eexists; split; [reflexivity|reflexivity]]).
    - apply out_raise. apply from_replace; [exact F4 | exact Le | apply (from_good _ _ _ F4)]. }
  eapply out_bind; [exact Ef|]. intros [] x s5 F5 (x' & Ex & H5).
  assert (I5 : rule_so_far s a (mkRule (Some id) (Some x) None None None) s5).
  { split; [exact F5|]. eexists. split; [rewrite H5, nth_replace_other by exact (not_eq_sym Nea) || exact Nea; exact N4|].
    repeat match goal with |- _ /\ _ => split end; try (eexists; split; [reflexivity|]; try reflexivity); try reflexivity.
    exists e. split; [reflexivity|]. apply fresh_some; [unfold e; lia|]. rewrite H5.
    rewrite <- Ex. eapply nth_replace_same; exact Ne4. }
  pose proof (each_out _ (from E s) (rule_so_far s a) _ _ (elements (el_kids n))
      (fun x st HI => proj1 HI) (fun c x st _ HI => rule_child_ok s a c x st (le_n _) HI) _ _ I5) as Q.
  set (r := foldM _ _ _) in *.
  assert (Id : bind r Ok = r) by (destruct r; reflexivity). rewrite <- Id.
  eapply out_bind; [exact Q|]. intros [] m s6 F6 (_ & attrs & N6 & A1 & A2 & A3 & A4 & A5).
  apply out_ok; [exact F6|].
  assert (ND : nth_error (fresh (length (ls_heap s)) (ls_heap s6)) a = Some (PInst KRule attrs)) by (apply fresh_some; [lia | exact N6]).
  assert (HS : hsub (fresh (S a) (ls_heap s6)) (fresh (length (ls_heap s)) (ls_heap s6))) by (apply fresh_hsub; [lia | apply untouched_refl]).
  exists a. split; [eapply inst_of; exact ND|].
  split; [eapply has_attr; eassumption|].
  split; [eapply has_attr; [exact ND | hmono effect_mono]|].
  split; [eapply has_attr; [exact ND | hmono target_mono]|].
  split; [eapply has_attr; [exact ND | hmono condition_mono]|].
  destruct (rl_description m); cbn in A5; [eapply get_of; [exact ND | exact A5]|].
  unfold get_attr. pose proof ND as ND'. fold a in ND'. rewrite ND', A5. reflexivity.
Qed.

(** *** Policies *)
Definition policy_so_far (s0 : lstate) (a : nat) (id ver algId : string) (alg : comb_alg) (p : pacc) (s : lstate) : Prop :=
  let H := fresh (3 + a) (ls_heap s) in
  from E s0 s /\ 3 + a <= length (ls_heap s) /\
  exists attrs items, nth_error (ls_heap s) a = Some (PInst KPolicy attrs) /\
    has attrs "policyId" (maybe for_string (Some id)) /\
    has attrs "version" (maybe for_string (Some ver)) /\
    has attrs "ruleCombiningAlgId" (maybe for_string (Some algId)) /\
    has attrs "description" (maybe for_string (pc_description p)) /\
    has attrs "policyDefaults" (for_defaults H (pc_xpath p)) /\
    has attrs "target" (maybe (for_target H) (pc_target p)) /\
    has attrs "ruleCombiningAlg" (maybe for_algorithm (Some alg)) /\
    has attrs "rules" (fun v => v = PRef (S a)) /\
    nth_error (ls_heap s) (S a) = Some (PTypedList (TCls KRule) items) /\
    Forall2 (for_rule H) items (pc_rules p).

Lemma policy_later : forall s0 a id ver algId alg p s s', policy_so_far s0 a id ver algId alg p s -> from E s s' ->
  policy_so_far s0 a id ver algId alg p s'.
Proof.
  intros s0 a id ver algId alg p s s' (F & L & attrs & items & N & A1 & A2 & A3 & A4 & A5 & A6 & A7 & A8 & NL & FI) F'.
  pose proof (from_untouched _ _ _ F') as U. pose proof (from_length _ _ _ F') as L'.
  assert (HS : hsub (fresh (3 + a) (ls_heap s)) (fresh (3 + a) (ls_heap s'))) by (apply fresh_hsub; [lia | exact U]).
  split; [eapply from_trans; eassumption|]. split; [lia|]. exists attrs, items. split; [apply U; exact N|].
  do 4 (split; [assumption|]).
  split; [eapply has_impl; [intros v; apply defaults_mono; exact HS | exact A5]|].
  split; [hmono target_mono|]. split; [exact A7|]. split; [exact A8|]. split; [apply U; exact NL|].
  eapply (Forall2_mono for_rule); [intros ? ? ? ? HS'; apply rule_mono; exact HS' | exact HS | exact FI].
Qed.

Lemma attrs_ids : forall H s items rules, hsub H (ls_heap s) -> Forall2 (for_rule H) items rules ->
  attrs_l "id" items s = (Ok (map rl_id rules), s).
Proof.
  intros H s items rules HS FI. induction FI as [|v r items rules (a & (-> & ats & NA) & (w & G & M) & _) FI IH]; [reflexivity|].
  cbn [attrs_l map]. unfold bind_l at 1, get_l.
  assert (G' : get_attr (ls_heap s) a "id" = Ok w) by (rewrite <- G; eapply (mono_get _ _ HS (PRef a) KRule); split; [reflexivity | eauto]).
  rewrite G'. unfold bind_l. rewrite IH. unfold ret_l. f_equal. f_equal. f_equal.
  destruct (rl_id r); [unfold maybe, for_string in M | cbn in M]; rewrite M; reflexivity.
Qed.

Lemma read_far : forall X (R : heap -> pval -> X -> Prop) (m : lm pval) (r : res X) Y (R' : unit -> Y -> lstate -> Prop) f (k : pval -> lm unit) n s0 s,
  (forall h h' v x, hsub h h' -> R h v x -> R h' v x) ->
  makes R m r -> from E s0 s -> n <= length (ls_heap s) ->
  (forall v x s', from E s0 s' -> from E s s' -> R (fresh n (ls_heap s')) v x -> out (from E s0) R' (k v s') (f x)) ->
  out (from E s0) R' ((let> v := m in k v) s) (bind r f).
Proof.
  intros X R m r Y R' f k n s0 s Mo M F L C.
  eapply out_bind; [apply makes_at; [exact M | exact F]|].
  intros v x s' F' (F'' & Rv). apply C; auto. eapply Mo; [|exact Rv]. apply fresh_hsub; [exact L | apply untouched_refl].
Qed.

Lemma policy_child_ok : forall s0 a id ver algId alg c p s, length (ls_heap s0) <= a -> policy_so_far s0 a id ver algId alg p s ->
  out (from E s0) (fun _ p' s' => policy_so_far s0 a id ver algId alg p' s') (policy_child_l E a c s) (policy_child E p c).
Proof.
  intros s0 a id ver algId alg c p s L0 I. pose proof (proj1 I) as F. pose proof (proj1 (proj2 I)) as Ls.
  unfold policy_child_l, policy_child. apply out_lift; [exact F|]. intros l _.
  destruct (String.eqb l "Description").
  { destruct I as (_ & _ & attrs & items & N & A1 & A2 & A3 & A4 & A5 & A6 & A7 & A8 & NL & FI).
    change (Ok (mkPacc (description_of c (pc_description p)) (pc_xpath p) (pc_target p) (pc_rules p)))
      with (let* d := Ok (description_of c (pc_description p)) in Ok (mkPacc d (pc_xpath p) (pc_target p) (pc_rules p))).
    eapply out_map; [|intros v x s' _ H; exact H].
    apply (description_step s0 s a KPolicy attrs c (fun d s' => policy_so_far s0 a id ver algId alg (mkPacc d (pc_xpath p) (pc_target p) (pc_rules p)) s'));
      try assumption; try reflexivity; [intros ? ? ?; reflexivity | |].
    - split; [exact F|]. split; [exact Ls|]. exists attrs, items. repeat (split; [assumption|]). exact FI.
    - intros x s' F' N' H' O' L'. split; [exact F'|]. split; [rewrite L'; exact Ls|]. eexists. exists items. split; [exact N'|]. rewrite H' by lia. cbn [pc_description pc_xpath pc_target pc_rules].
      do 3 (split; [apply has_other; [discriminate|]; assumption|]). split; [apply has_set; reflexivity|].
      do 4 (split; [apply has_other; [discriminate|]; assumption|]). split; [rewrite O' by lia; exact NL | exact FI]. }
  destruct (String.eqb l "PolicyDefaults").
  { eapply read_far with (n := 3 + a); [|apply defaults_ok | exact F | exact Ls |].
    { intros h h' v x HS (b & Ib & Ab). destruct (defaults_mono h h' HS (Some x) v) as [[_ X]|X]; [right; eauto | discriminate X | exact X]. }
    intros v x s' F' F'' Rv. destruct (policy_later _ _ _ _ _ _ _ _ _ I F'') as (_ & L' & attrs & items & N & A1 & A2 & A3 & A4 & A5 & A6 & A7 & A8 & NL & FI).
    destruct (set_step' s0 s' a _ attrs (dict_set "policyDefaults" v attrs) "policyDefaults" v _ F' L0 N eq_refl) as (s2 & E2 & F2 & N2 & H2 & O2 & L2).
    { eapply isinstance_fresh; [discriminate | discriminate |]. destruct Rv as (b & Ib & _). eapply instance_type; exact Ib. }
    { reflexivity. }
    rewrite E2. apply out_ok; [exact F2|]. split; [exact F2|]. split; [rewrite L2; exact L'|]. eexists. exists items. split; [exact N2|]. rewrite H2 by lia. cbn [pc_description pc_xpath pc_target pc_rules].
    do 4 (split; [apply has_other; [discriminate|]; assumption|]). split; [apply has_set; right; exact Rv|].
    do 3 (split; [apply has_other; [discriminate|]; assumption|]). split; [rewrite O2 by lia; exact NL | exact FI]. }
  destruct (String.eqb l "Target").
  { eapply read_far with (n := 3 + a) (R := for_target); [intros ? ? ? ? HS; apply target_mono; exact HS | apply target_ok | exact F | exact Ls |].
    intros v x s' F' F'' Rv. destruct (policy_later _ _ _ _ _ _ _ _ _ I F'') as (_ & L' & attrs & items & N & A1 & A2 & A3 & A4 & A5 & A6 & A7 & A8 & NL & FI).
    destruct (set_step' s0 s' a _ attrs (dict_set "target" v attrs) "target" v _ F' L0 N eq_refl) as (s2 & E2 & F2 & N2 & H2 & O2 & L2).
    { eapply isinstance_fresh; [discriminate | discriminate |]. destruct Rv as (b & Ib & _). eapply instance_type; exact Ib. }
    { reflexivity. }
    rewrite E2. apply out_ok; [exact F2|]. split; [exact F2|]. split; [rewrite L2; exact L'|]. eexists. exists items. split; [exact N2|]. rewrite H2 by lia. cbn [pc_description pc_xpath pc_target pc_rules].
    do 5 (split; [apply has_other; [discriminate|]; assumption|]). split; [apply has_set; exact Rv|].
    do 2 (split; [apply has_other; [discriminate|]; assumption|]). split; [rewrite O2 by lia; exact NL | exact FI]. }
  destruct (String.eqb l "CombinerParameters"); [apply out_raise; exact F|].
  destruct (String.eqb l "RuleCombinerParameters"); [apply out_raise; exact F|].
  destruct (String.eqb l "VariableDefinition"); [apply out_raise; exact F|].
  destruct (String.eqb l "Rule"); [|destruct (String.eqb l "Obligations"); apply out_raise; exact F].
  eapply read_far with (n := 3 + a) (R := for_rule); [intros ? ? ? ? HS; apply rule_mono; exact HS | apply rule_ok | exact F | exact Ls |].
  intros v x s' F' F'' Rv. destruct (policy_later _ _ _ _ _ _ _ _ _ I F'') as (_ & L' & attrs & items & N & A1 & A2 & A3 & A4 & A5 & A6 & A7 & A8 & NL & FI).
  pose proof (hide_hsub_all (fun b => Nat.ltb b (3 + a)) (ls_heap s')) as HS. fold (fresh (3 + a)) in HS.
  eapply out_step; [eapply (attrs_ids _ s' [v] [x]); [exact HS | constructor; [exact Rv | constructor]]|].
  assert (Dr : dict_get "rules" attrs = Some (PRef (S a))) by (destruct A8 as (w & Dw & ->); exact Dw).
  eapply out_step. { unfold items_l, bind_l, get_l. erewrite get_of; [|exact N | exact Dr]. cbv beta iota. rewrite NL. reflexivity. }
  eapply out_step; [eapply attrs_ids; [exact HS | exact FI]|].
  cbn [map existsb]. rewrite orb_false_r.
  destruct (existsb (opt_eqb String.eqb (rl_id x)) (map rl_id (pc_rules p))); [apply out_raise; exact F'|].
  assert (IS : isinstance (ls_heap s') v (TCls KRule) = true).
  { eapply isinstance_fresh; [discriminate | discriminate |]. destruct Rv as (b & Ib & _). eapply instance_type; exact Ib. }
  destruct (append_step E s0 s' a (S a) _ _ _ _ _ v F' ltac:(lia) N Dr NL IS) as (s2 & E2 & F2 & H2).
  rewrite E2. apply out_ok; [exact F2|]. split; [exact F2|]. split; [rewrite H2, replace_length; exact L'|].
  exists attrs, (items ++ [v]). split; [rewrite H2, nth_replace_other by lia; exact N|].
  rewrite H2, fresh_replace by lia. do 8 (split; [assumption|]). split; [eapply nth_replace_same; exact NL|].
  apply Forall2_app; [exact FI|]. constructor; [exact Rv | constructor].
Qed.

Lemma rule_alg_table : forall id, rule_alg_of id = alg_from_table RULE_ALG_MAP id.
Proof.
  intros id. unfold rule_alg_of, alg_from_table. cbn [policy_alg_step]. unfold policy_alg_from_id. cbn [pa_factory policy_alg_new].
  destruct (dict_get id RULE_ALG_MAP) as [[| |]|]; reflexivity.
Qed.
Lemma policy_alg_table : forall id, policy_alg_of id = alg_from_table POLICY_ALG_MAP id.
Proof.
  intros id. unfold policy_alg_of, alg_from_table. cbn [policyset_alg_step]. unfold policyset_alg_from_id. cbn [pa_factory policyset_alg_new].
  destruct (dict_get id POLICY_ALG_MAP) as [[| |]|]; reflexivity.
Qed.

Lemma set_algorithm : forall s0 s a c attrs name alg table id, from E s0 s -> length (ls_heap s0) <= a ->
  nth_error (ls_heap s) a = Some (PInst c attrs) ->
  (c = KPolicy /\ name = "ruleCombiningAlgId" /\ alg = "ruleCombiningAlg" /\ table = RULE_ALG_MAP)%string \/
  (c = KPolicySet /\ name = "policyCombiningAlgId" /\ alg = "policyCombiningAlg" /\ table = POLICY_ALG_MAP)%string ->
  out (from E s0) (fun _ x s' => ls_heap s' =
         replace_nth a (PInst c (dict_set alg (PAlg x) (dict_set name (PNat (NStr id)) attrs))) (ls_heap s))
    (set_str E a name id s) (alg_from_table table id).
Proof.
  intros s0 s a c attrs name alg table id F L N C. unfold set_str, set_l, do_l. cbn [ostep].
  change (os_heap (ls_os s)) with (ls_heap s). rewrite N.
  assert (X : setter_type c name = Some TStr /\
    assign cm c name (PNat (NStr id)) attrs (os_map (ls_os s)) =
     let attrs1 := dict_set name (PNat (NStr id)) attrs in
     match alg_from_table table id with
     | Ok x => (Ok tt, dict_set alg (PAlg x) attrs1, os_map (ls_os s))
     | Raise e => (Raise e, attrs1, os_map (ls_os s))
     end).
  { destruct C as [(-> & -> & -> & ->)|(-> & -> & -> & ->)]; split; reflexivity. }
  destruct X as [-> ->]. cbn [isinstance].
  destruct (alg_from_table table id) as [x|e]; cbn.
  - apply out_ok; [|reflexivity]. apply from_replace; [exact F | exact L | apply (from_good _ _ _ F)].
  - apply out_raise. apply from_replace; [exact F | exact L | apply (from_good _ _ _ F)].
Qed.

Lemma policy_ok : forall n, makes for_policy (policy_l E n) (read_policy E n).
Proof.
  intros n s G. unfold policy_l, read_policy. make_new KPolicy.
  set (a := length (ls_heap s)) in *.
  apply out_lift; [exact F1|]. intros _ _. apply out_lift; [exact F1|]. intros id _. apply out_lift; [exact F1|]. intros algId _.
  assert (NL1 : nth_error (ls_heap s1) (S a) = Some (PTypedList (TCls KRule) [])).
  { rewrite H1. exact (new_nth_at (ls_heap s) _ _ 0). }
  assert (L1 : 3 + a <= length (ls_heap s1)) by (rewrite H1, app_length; cbn; unfold a; lia).
  destruct (set_step' s s1 a _ _ (dict_set "policyId" (PNat (NStr id)) (new_inst (ls_heap s) KPolicy)) "policyId" (PNat (NStr id)) _ F1 (le_n _) N1 eq_refl)
    as (s2 & E2 & F2 & N2 & H2 & O2 & L2); [reflexivity | reflexivity |].
  eapply out_step; [exact E2|]. rewrite rule_alg_table.
  eapply out_bind; [eapply (set_algorithm s s2 a); [exact F2 | apply le_n | exact N2 | left; auto]|].
  intros [] alg s3 F3 H3.
  assert (N3 : nth_error (ls_heap s3) a = Some (PInst KPolicy (dict_set "ruleCombiningAlg" (PAlg alg) (dict_set "ruleCombiningAlgId" (PNat (NStr algId))
     (dict_set "policyId" (PNat (NStr id)) (new_inst (ls_heap s) KPolicy)))))) by (rewrite H3; eapply nth_replace_same; exact N2).
  destruct (set_step' s s3 a _ _ (dict_set "version" (PNat (NStr (version_of n))) (dict_set "ruleCombiningAlg" (PAlg alg) (dict_set "ruleCombiningAlgId" (PNat (NStr algId))
     (dict_set "policyId" (PNat (NStr id)) (new_inst (ls_heap s) KPolicy))))) "version" (PNat (NStr (version_of n))) _ F3 (le_n _) N3 eq_refl)
    as (s4 & E4 & F4 & N4 & H4 & O4 & L4); [reflexivity | reflexivity |].
  eapply out_step; [exact E4|].
  assert (I4 : policy_so_far s a id (version_of n) algId alg (mkPacc None None None []) s4).
  { split; [exact F4|]. split; [rewrite L4, H3, replace_length, L2; exact L1|].
    eexists. exists []. split; [exact N4|].
    do 4 (split; [eexists; split; [reflexivity|]; reflexivity|]).
    split; [eexists; split; [reflexivity|]; left; split; reflexivity|].
    do 3 (split; [eexists; split; [reflexivity|]; reflexivity|]).
    split; [|constructor]. rewrite O4, H3, nth_replace_other, O2 by lia. exact NL1. }
  pose proof (each_out _ (from E s) (policy_so_far s a id (version_of n) algId alg) _ _ (elements (el_kids n))
      (fun x st HI => proj1 HI) (fun c x st _ HI => policy_child_ok s a id (version_of n) algId alg c x st (le_n _) HI) _ _ I4) as Q.
  eapply out_bind; [exact Q|]. intros [] p s6 F6 (_ & L6 & attrs & items & N6 & A1 & A2 & A3 & A4 & A5 & A6 & A7 & A8 & NL & FI).
  apply out_ok; [exact F6|].
  assert (ND : nth_error (fresh (length (ls_heap s)) (ls_heap s6)) a = Some (PInst KPolicy attrs)) by (apply fresh_some; [lia | exact N6]).
  assert (HS : hsub (fresh (3 + a) (ls_heap s6)) (fresh (length (ls_heap s)) (ls_heap s6))) by (apply fresh_hsub; [lia | apply untouched_refl]).
  eapply fp_policy; [eapply inst_of; exact ND| | | | | | | |]; cbn [pm_id pm_version pm_algId pm_description pm_xpathVersion].
  1-4: eapply has_attr; eassumption.
  - eapply has_attr; [exact ND|]. eapply has_impl; [intros v; apply defaults_mono; exact HS | exact A5].
  - eapply has_attr; [exact ND | hmono target_mono].
  - eapply has_attr; eassumption.
  - eapply has_attr; [exact ND|]. eapply has_impl; [|exact A8]. intros v ->.
    exists (S a), (TCls KRule), items. split; [reflexivity|]. split; [apply fresh_some; [lia | exact NL]|].
    eapply (Forall2_mono for_rule); [intros ? ? ? ? HS'; apply rule_mono; exact HS' | exact HS | exact FI].
Qed.
End Readers.
