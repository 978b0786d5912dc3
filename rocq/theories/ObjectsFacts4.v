(** Outcomes of assignments, new objects, exclusive attributes, refused operations. *)
From Verif Require Import Objects SpecObjects StateFacts SpecFuncMap FuncMapFacts FuncMapFacts2 SpecSetters SettersFacts
  ObjectsFacts ObjectsFacts2 ObjectsFacts3.
From Coq Require Import Lia.

Lemma assign_ok_result : forall cm c name v attrs m, ~ In name id_attributes ->
  fst (fst (assign cm c name v attrs m)) = Ok tt.
Proof.
  intros cm c name v attrs m D. unfold assign.
  assert (D1 : name <> "matchId"%string) by (intros ->; apply D; cbn; auto).
  assert (D2 : name <> "functionId"%string) by (intros ->; apply D; cbn; auto).
  assert (D3 : name <> "ruleCombiningAlgId"%string) by (intros ->; apply D; cbn; auto).
  assert (D4 : name <> "policyCombiningAlgId"%string) by (intros ->; apply D; cbn; auto).
  apply String.eqb_neq in D1, D2, D3, D4.
  destruct c as [k| | | |k|k| | | | | | | | | | | | |]; try reflexivity.
  - rewrite D2. reflexivity.
  - rewrite D1. destruct (String.eqb name "attributeDesignator"); [reflexivity|].
    destruct (String.eqb name "attributeSelector"); reflexivity.
  - rewrite D3. reflexivity.
  - rewrite D4. reflexivity.
Qed.

(** ** The shared function map after a history *)

Definition only_lookups (ops : list fop) : Prop := Forall (fun o => exists id, o = FGet id) ops.

Lemma lookups_no_custom : forall ops id, only_lookups ops -> last_custom id ops = None.
Proof.
  intros ops id F. apply untouched_no_custom. intros o I.
  unfold only_lookups in F. rewrite Forall_forall in F. destruct (F o I) as [x ->]. exact Logic.I.
Qed.

Definition looked_up (cm : list (string * avclass)) (m : fmap) : Prop :=
  exists ops, only_lookups ops /\ m = fm_run cm ops fm_new.

Lemma looked_up_get : forall cm id m, looked_up cm m -> looked_up cm (snd (fm_get cm id m)).
Proof.
  intros cm id m (ops & F & ->). exists (ops ++ [FGet id]). split.
  - apply Forall_app; split; [exact F | constructor; [eauto | constructor]].
  - unfold fm_run. rewrite fold_left_app. reflexivity.
Qed.

Lemma load_function_looked_up : forall cm id m, looked_up cm m -> looked_up cm (snd (load_function cm id m)).
Proof.
  intros cm id m L. pose proof (looked_up_get cm id m L) as K. unfold load_function.
  destruct (fm_get cm id m) as [r m']. cbn in K.
  destruct r as [[[]|]|]; exact K.
Qed.

Lemma load_function_result : forall cm id m, looked_up cm m ->
  match usable (resolve cm id) with
  | Some f => fst (load_function cm id m) = Ok f
  | None => exists e, fst (load_function cm id m) = Raise e
  end.
Proof.
  intros cm id m (ops & F & ->). pose proof (get_after cm ops id) as G.
  rewrite (lookups_no_custom ops id F) in G. unfold load_function.
  destruct (fm_get cm id (fm_run cm ops fm_new)) as [r m']. cbn [fst] in G. subst r.
  destruct (resolve cm id) as [[]|e]; cbn; eauto.
Qed.

Lemma assign_looked_up : forall cm c name v attrs m, looked_up cm m ->
  looked_up cm (snd (assign cm c name v attrs m)).
Proof.
  intros cm c name v attrs m L.
  assert (K : forall n, looked_up cm (snd
     match v, dict_get "loadFunctionFromId" (dict_set name v attrs) with
     | PNat (NStr id), Some (PNat (NBool true)) =>
        match load_function cm id m with
        | (Ok f, m') => (Ok tt, dict_set n (PFn f) (dict_set name v attrs), m')
        | (Raise e, m') => (Raise e, dict_set name v attrs, m')
        end
     | _, _ => (Ok tt, dict_set name v attrs, m)
     end)).
  { intros n. destruct v as [[]| | | | | |]; try exact L.
    destruct (dict_get "loadFunctionFromId" _) as [[[]| | | | | |]|]; try exact L.
    destruct b; try exact L.
    pose proof (load_function_looked_up cm s m L) as Q.
    destruct (load_function cm s m) as [[f|e] m1]; exact Q. }
  unfold assign. destruct c as [k| | | |k|k| | | | | | | | | | | | |]; try exact L.
  - destruct (String.eqb name "functionId"); [apply K | exact L].
  - destruct (String.eqb name "attributeDesignator"); [exact L|].
    destruct (String.eqb name "attributeSelector"); [exact L|].
    destruct (String.eqb name "matchId"); [apply K | exact L].
  - destruct (String.eqb name "ruleCombiningAlgId"); [|exact L].
    destruct v as [[]| | | | | |]; try exact L. destruct (alg_from_table _ s); exact L.
  - destruct (String.eqb name "policyCombiningAlgId"); [|exact L].
    destruct v as [[]| | | | | |]; try exact L. destruct (alg_from_table _ s); exact L.
Qed.

Lemma ostep_looked_up : forall cm s o, looked_up cm (os_map s) -> looked_up cm (os_map (snd (ostep cm s o))).
Proof.
  intros cm [h m] o L.
  destruct o as [c|v|e|t items|a name v|a lo|a i v|a i]; cbn -[Nat.ltb skipn] in *; try exact L.
  - destruct (effect_new (as_pyobj h e)); exact L.
  - destruct (nth_error h a) as [[c attrs|t items|y|e]|]; try exact L.
    + destruct (setter_type c name) as [t|]; [|exact L]. destruct (isinstance h v t); [|exact L].
      pose proof (assign_looked_up cm c name v attrs m L) as K.
      destruct (assign cm c name v attrs m) as [[r attrs'] m']. exact K.
    + destruct (String.eqb name "value"); [|destruct (String.eqb name "dataType"); [|exact L]].
      * destruct (av_set_value y (as_native v)); exact L.
      * destruct (as_native v); exact L.
    + destruct (String.eqb name "value"); [|exact L].
      destruct (effect_set (Some e) (as_pyobj h v)) as [r [e'|]]; exact L.
  - destruct (nth_error h a) as [[c attrs|t items|y|e]|]; try exact L.
    destruct (tl_step _ items lo) as [r items']. exact L.
  - destruct (nth_error h a) as [[c attrs|t items|y|e]|]; exact L.
  - destruct (nth_error h a) as [[c attrs|t items|y|e]|]; try exact L.
    destruct (Nat.ltb i (length items)); exact L.
Qed.

Lemma orun_looked_up : forall cm ops s, looked_up cm (os_map s) -> looked_up cm (os_map (orun cm s ops)).
Proof.
  intros cm ops. induction ops as [|o ops IH]; intros s L; [exact L|].
  cbn. apply IH, ostep_looked_up, L.
Qed.

Lemma start_looked_up : forall cm, looked_up cm (os_map ostart).
Proof. intros cm. exists []. split; [constructor | reflexivity]. Qed.

(** ** Algorithms *)
Lemma alg_table_rule : forall id, alg_from_table RULE_ALG_MAP id =
  match rule_algorithm id with Some x => Ok x | None => Raise ETypeError end.
Proof.
  intros id. rewrite <- rule_map_get. unfold alg_from_table.
  destruct (dict_get id RULE_ALG_MAP) as [[]|]; reflexivity.
Qed.
Lemma alg_table_policy : forall id, alg_from_table POLICY_ALG_MAP id =
  match policy_algorithm id with Some x => Ok x | None => Raise ETypeError end.
Proof.
  intros id. rewrite <- policy_map_get. unfold alg_from_table.
  destruct (dict_get id POLICY_ALG_MAP) as [[]|]; reflexivity.
Qed.

(** ** Designator or selector *)

Definition exclusive (o : pobject) : Prop :=
  match o with
  | PInst (KMatch _) attrs =>
      dict_get "attributeDesignator" attrs = Some PNone \/ dict_get "attributeSelector" attrs = Some PNone
  | _ => True
  end.
Definition all_exclusive (h : heap) : Prop := forall a o, nth_error h a = Some o -> exclusive o.

Lemma exclusive_replace : forall h a o, all_exclusive h -> exclusive o -> all_exclusive (replace_nth a o h).
Proof.
  intros h a o H E b x N. destruct (Nat.eq_dec a b) as [->|D].
  - destruct (nth_error h b) eqn:Q; [rewrite (nth_replace_same _ _ _ _ _ Q) in N; injection N as <-; exact E|].
    exfalso. assert (b < length (replace_nth b o h)) as L by (apply nth_error_Some; congruence).
    rewrite replace_length in L. apply nth_error_Some in L. congruence.
  - rewrite nth_replace_other in N by exact D. eapply H; exact N.
Qed.
Lemma exclusive_app : forall h l, all_exclusive h -> Forall exclusive l -> all_exclusive (h ++ l).
Proof.
  intros h l H F b x N. rewrite Forall_forall in F. destruct (Nat.lt_ge_cases b (length h)) as [L|L].
  - rewrite nth_error_app1 in N by exact L. eapply H; exact N.
  - rewrite nth_error_app2 in N by exact L. apply F. eapply nth_error_In; exact N.
Qed.

Lemma init_lists : forall l n, Forall (fun o => exists t, o = PTypedList t []) (snd (init_from n l)).
Proof.
  induction l as [|[k [v|t]] l IH]; intros n; cbn; [constructor| |].
  - specialize (IH n). destruct (init_from n l). exact IH.
  - specialize (IH (S n)). destruct (init_from (S n) l). constructor; [eauto | exact IH].
Qed.

Lemma assign_exclusive : forall cm k name v attrs m,
  exclusive (PInst (KMatch k) attrs) ->
  exclusive (PInst (KMatch k) (snd (fst (assign cm (KMatch k) name v attrs m)))).
Proof.
  intros cm k name v attrs m E. unfold assign.
  destruct (String.eqb_spec name "attributeDesignator") as [->|D1];
    [right; cbn [fst snd]; apply dict_get_set_same|].
  destruct (String.eqb_spec name "attributeSelector") as [->|D2];
    [left; cbn [fst snd]; apply dict_get_set_same|].
  assert (E1 : exclusive (PInst (KMatch k) (dict_set name v attrs))).
  { cbn in *. rewrite !dict_get_set_other by congruence. exact E. }
  destruct (String.eqb name "matchId"); [|exact E1].
  destruct v as [[]| | | | | |]; try exact E1.
  destruct (dict_get "loadFunctionFromId" _) as [[[]| | | | | |]|]; try exact E1.
  destruct b; try exact E1.
  destruct (load_function cm s m) as [[f|e] m1]; [|exact E1].
  cbn [fst snd exclusive] in *. destruct E1 as [E1|E1]; [left|right]; (rewrite dict_get_set_other by discriminate; exact E1).
Qed.

Lemma ostep_exclusive : forall cm s o, all_exclusive (os_heap s) -> all_exclusive (os_heap (snd (ostep cm s o))).
Proof.
  intros cm [h m] o L.
  destruct o as [c|v|e|t items|a name v|a lo|a i v|a i]; cbn -[Nat.ltb skipn] in *.
  - unfold construct. pose proof (init_lists (init_attrs c) (S (length h))) as F.
    destruct (init_from _ _) as [attrs lists] eqn:I. apply exclusive_app; [exact L|]. constructor.
    + destruct c; try exact Logic.I. cbn in I. injection I as <- <-. left; reflexivity.
    + eapply Forall_impl; [|exact F]. intros x (t & ->). exact Logic.I.
  - apply exclusive_app; [exact L | constructor; [exact I | constructor]].
  - destruct (effect_new (as_pyobj h e)); [|exact L].
    apply exclusive_app; [exact L | constructor; [exact I | constructor]].
  - apply exclusive_app; [exact L | constructor; [exact I | constructor]].
  - destruct (nth_error h a) as [[c attrs|t items|y|e]|] eqn:N; try exact L.
    + destruct (setter_type c name) as [t|]; [|exact L]. destruct (isinstance h v t); [|exact L].
      destruct (assign cm c name v attrs m) as [[r attrs'] m'] eqn:A. cbn [os_heap snd].
      apply exclusive_replace; [exact L|]. destruct c; try exact I.
      pose proof (assign_exclusive cm k name v attrs m (L _ _ N)) as K. rewrite A in K. exact K.
    + destruct (String.eqb name "value"); [|destruct (String.eqb name "dataType"); [|exact L]].
      * destruct (av_set_value y (as_native v)); (apply exclusive_replace; [exact L | exact I]).
      * destruct (as_native v); (apply exclusive_replace; [exact L | exact I]).
    + destruct (String.eqb name "value"); [|exact L].
      destruct (effect_set (Some e) (as_pyobj h v)) as [r [e'|]]; [|exact L].
      apply exclusive_replace; [exact L | exact I].
  - destruct (nth_error h a) as [[c attrs|t items|y|e]|]; try exact L.
    destruct (tl_step _ items lo) as [r items']. apply exclusive_replace; [exact L | exact I].
  - destruct (nth_error h a) as [[c attrs|t items|y|e]|]; try exact L.
    apply exclusive_replace; [exact L | exact I].
  - destruct (nth_error h a) as [[c attrs|t items|y|e]|]; try exact L.
    destruct (Nat.ltb i (length items)); [|exact L]. apply exclusive_replace; [exact L | exact I].
Qed.

Lemma orun_exclusive : forall cm ops s, all_exclusive (os_heap s) -> all_exclusive (os_heap (orun cm s ops)).
Proof.
  intros cm ops. induction ops as [|o ops IH]; intros s L; [exact L|].
  cbn. apply IH, ostep_exclusive, L.
Qed.

(** ** Refused operations *)
Lemma refused_same : forall cm s o e s', ostep cm s o = (Raise e, s') ->
  s' = s \/ exists a name v, o = OSet a name v /\ In name id_attributes.
Proof.
  intros cm [h m] o e s' E.
  destruct o as [c|v|x|t items|a name v|a lo|a i v|a i]; cbn -[Nat.ltb skipn id_attributes] in E.
  - discriminate E.
  - discriminate E.
  - destruct (effect_new (as_pyobj h x)); [discriminate E|]. injection E as <- <-. auto.
  - discriminate E.
  - destruct (in_dec string_dec name id_attributes) as [I|D]; [right; eauto|]. left.
    destruct (nth_error h a) as [[c attrs|t items|y|x]|] eqn:N; try (injection E as <- <-; reflexivity).
    + destruct (setter_type c name) as [t|]; [|injection E as <- <-; reflexivity].
      destruct (isinstance h v t); [|injection E as <- <-; reflexivity].
      pose proof (assign_ok_result cm c name v attrs m D) as K.
      destruct (assign cm c name v attrs m) as [[r attrs'] m']. cbn in K. subst r. discriminate E.
    + destruct (String.eqb name "value"); [|destruct (String.eqb name "dataType");
        [|injection E as <- <-; reflexivity]].
      * destruct (av_set_value y (as_native v)); [discriminate E|]. injection E as <- <-.
        rewrite (replace_same _ _ _ _ N). reflexivity.
      * destruct (as_native v); try discriminate E; injection E as <- <-;
          rewrite (replace_same _ _ _ _ N); reflexivity.
    + destruct (String.eqb name "value"); [|injection E as <- <-; reflexivity].
      assert (K : forall r e', effect_set (Some x) (as_pyobj h v) = (Raise r, Some e') -> e' = x).
      { intros r e' Q. unfold effect_set in Q. destruct (as_pyobj h v) as [[]| | | | | | |]; try congruence;
          match type of Q with context [if ?b then _ else _] => destruct b end; congruence. }
      destruct (effect_set (Some x) (as_pyobj h v)) as [r [e'|]]; injection E as -> <-; [|reflexivity].
      rewrite (K _ _ eq_refl), (replace_same _ _ _ _ N). reflexivity.
  - left. destruct (nth_error h a) as [[c attrs|t items|y|x]|] eqn:N; try (injection E as <- <-; reflexivity).
    assert (K : forall r items', tl_step (fun v => isinstance h v t) items lo = (Raise r, items') -> items' = items).
    { intros r items' Q. destruct lo as [x|it|it]; cbn in Q; unfold tl_append, tl_extend, tl_iadd in Q;
        [| destruct (iterate it) | destruct (iterate it)];
        match type of Q with context [if ?b then _ else _] => destruct b end; congruence. }
    destruct (tl_step _ items lo) as [r items']. injection E as -> <-.
    rewrite (K _ _ eq_refl), (replace_same _ _ _ _ N). reflexivity.
  - destruct (nth_error h a) as [[c attrs|t items|y|x]|]; try (injection E as <- <-; auto).
    discriminate E.
  - destruct (nth_error h a) as [[c attrs|t items|y|x]|]; try (injection E as <- <-; auto).
    destruct (Nat.ltb i (length items)); [discriminate E | injection E as <- <-; auto].
Qed.

(** ** The lists of a new object *)
Definition plain_init (l : list (string * initial)) : Prop :=
  Forall (fun e => match snd e with IVal (PRef _) => False | _ => True end) l.

Lemma init_ref_range : forall l n k a, plain_init l ->
  dict_get k (fst (init_from n l)) = Some (PRef a) -> n <= a.
Proof.
  induction l as [|[x [v|t]] l IH]; intros n k a P G; cbn in G; [discriminate G| |].
  - inversion P as [|? ? P1 P2]; subst. specialize (IH n k a P2).
    destruct (init_from n l). cbn in G. destruct (String.eqb k x); [|apply IH; exact G].
    injection G as ->. contradiction.
  - inversion P as [|? ? P1 P2]; subst. specialize (IH (S n) k a P2).
    destruct (init_from (S n) l). cbn in G. destruct (String.eqb k x).
    + injection G as ->. lia.
    + specialize (IH G). lia.
Qed.

Lemma init_ref_once : forall l n k k' a, plain_init l ->
  dict_get k (fst (init_from n l)) = Some (PRef a) ->
  dict_get k' (fst (init_from n l)) = Some (PRef a) -> k = k'.
Proof.
  induction l as [|[x [v|t]] l IH]; intros n k k' a P G G'; cbn in G, G'; [discriminate G| |].
  - inversion P as [|? ? P1 P2]; subst. specialize (IH n k k' a P2).
    destruct (init_from n l). cbn in G, G'.
    destruct (String.eqb k x); [injection G as ->; contradiction|].
    destruct (String.eqb k' x); [injection G' as ->; contradiction|]. apply IH; assumption.
  - inversion P as [|? ? P1 P2]; subst. specialize (IH (S n) k k' a P2).
    pose proof (init_ref_range l (S n) k a P2) as R. pose proof (init_ref_range l (S n) k' a P2) as R'.
    destruct (init_from (S n) l). cbn in *.
    destruct (String.eqb_spec k x) as [->|D]; destruct (String.eqb_spec k' x) as [->|D'];
      try reflexivity.
    + injection G as ->. specialize (R' G'). lia.
    + injection G' as ->. specialize (R G). lia.
    + apply IH; assumption.
Qed.

Lemma init_plain : forall c, plain_init (init_attrs c).
Proof. intros c. destruct c; cbn; repeat constructor. Qed.
