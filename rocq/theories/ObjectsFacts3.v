(** Reading back what was assigned, and what operations leave alone. *)
From Verif Require Import Objects SpecObjects StateFacts ObjectsFacts ObjectsFacts2.

(** ** The setters against the documented types *)

Lemma setter_documented : forall c name t, setter_type c name = Some t ->
  In name (map fst (documented_attributes c)).
Proof.
  intros c name t. destruct c; cbn [setter_type documented_attributes map fst]; try discriminate;
    repeat (match goal with |- (if String.eqb name ?n then _ else _) = _ -> _ =>
              destruct (String.eqb_spec name n) as [->|];
              [intros _; simpl; tauto|] end);
    discriminate.
Qed.

Lemma documented_setter : forall c name d, In (name, d) (documented_attributes c) ->
  setter_type c name =
    match d with
    | DOptional t | DLate t => Some t
    | DFlag => Some TBool
    | DListOf _ => if String.eqb name "attributeValues" then Some TTypedList else None
    | DFunction | DAlgorithm => None
    end.
Proof.
  intros c name d I.
  destruct c as [k| | | |k|k| | | | | | | | | | | | |]; cbn in I; each_in I; reflexivity.
Qed.

Lemma assign_get : forall cm c name v attrs m,
  dict_get name (snd (fst (assign cm c name v attrs m))) = Some v.
Proof.
  intros cm c name v attrs m.
  assert (K : forall n w, name <> n -> dict_get name (dict_set n w (dict_set name v attrs)) = Some v).
  { intros n w D. rewrite dict_get_set_other by congruence. apply dict_get_set_same. }
  unfold assign.
  destruct c as [k| | | |k|k| | | | | | | | | | | | |]; try apply dict_get_set_same.
  - destruct (String.eqb_spec name "functionId") as [->|]; [|apply dict_get_set_same].
    destruct v as [[]| | | | | |]; try apply dict_get_set_same.
    destruct (dict_get "loadFunctionFromId" _) as [[[]| | | | | |]|]; try apply dict_get_set_same.
    destruct b; try apply dict_get_set_same.
    destruct (load_function cm s m) as [[f|e] m1]; [|apply dict_get_set_same].
    apply K; discriminate.
  - destruct (String.eqb_spec name "attributeDesignator") as [->|]; [apply K; discriminate|].
    destruct (String.eqb_spec name "attributeSelector") as [->|]; [apply K; discriminate|].
    destruct (String.eqb_spec name "matchId") as [->|]; [|apply dict_get_set_same].
    destruct v as [[]| | | | | |]; try apply dict_get_set_same.
    destruct (dict_get "loadFunctionFromId" _) as [[[]| | | | | |]|]; try apply dict_get_set_same.
    destruct b; try apply dict_get_set_same.
    destruct (load_function cm s m) as [[f|e] m1]; [|apply dict_get_set_same].
    apply K; discriminate.
  - destruct (String.eqb_spec name "ruleCombiningAlgId") as [->|]; [|apply dict_get_set_same].
    destruct v as [[]| | | | | |]; try apply dict_get_set_same.
    destruct (alg_from_table RULE_ALG_MAP s); [|apply dict_get_set_same]. apply K; discriminate.
  - destruct (String.eqb_spec name "policyCombiningAlgId") as [->|]; [|apply dict_get_set_same].
    destruct v as [[]| | | | | |]; try apply dict_get_set_same.
    destruct (alg_from_table POLICY_ALG_MAP s); [|apply dict_get_set_same]. apply K; discriminate.
Qed.

Lemma assign_other : forall cm c name v attrs m other, other <> name -> linked name <> Some other ->
  dict_get other (snd (fst (assign cm c name v attrs m))) = dict_get other attrs.
Proof.
  intros cm c name v attrs m other D L.
  assert (K0 : dict_get other (dict_set name v attrs) = dict_get other attrs)
    by (apply dict_get_set_other; congruence).
  assert (K : forall n w, linked name = Some n ->
            dict_get other (dict_set n w (dict_set name v attrs)) = dict_get other attrs).
  { intros n w E. rewrite dict_get_set_other by congruence. exact K0. }
  unfold assign.
  destruct c as [k| | | |k|k| | | | | | | | | | | | |]; try exact K0.
  - destruct (String.eqb_spec name "functionId") as [->|]; [|exact K0].
    destruct v as [[]| | | | | |]; try exact K0.
    destruct (dict_get "loadFunctionFromId" _) as [[[]| | | | | |]|]; try exact K0.
    destruct b; try exact K0.
    destruct (load_function cm s m) as [[f|e] m1]; [|exact K0]. apply K; reflexivity.
  - destruct (String.eqb_spec name "attributeDesignator") as [->|]; [apply K; reflexivity|].
    destruct (String.eqb_spec name "attributeSelector") as [->|]; [apply K; reflexivity|].
    destruct (String.eqb_spec name "matchId") as [->|]; [|exact K0].
    destruct v as [[]| | | | | |]; try exact K0.
    destruct (dict_get "loadFunctionFromId" _) as [[[]| | | | | |]|]; try exact K0.
    destruct b; try exact K0.
    destruct (load_function cm s m) as [[f|e] m1]; [|exact K0]. apply K; reflexivity.
  - destruct (String.eqb_spec name "ruleCombiningAlgId") as [->|]; [|exact K0].
    destruct v as [[]| | | | | |]; try exact K0.
    destruct (alg_from_table RULE_ALG_MAP s); [|exact K0]. apply K; reflexivity.
  - destruct (String.eqb_spec name "policyCombiningAlgId") as [->|]; [|exact K0].
    destruct v as [[]| | | | | |]; try exact K0.
    destruct (alg_from_table POLICY_ALG_MAP s); [|exact K0]. apply K; reflexivity.
Qed.

(** ** Other objects *)

Lemma ostep_other : forall cm s o b x, touches o <> Some b -> nth_error (os_heap s) b = Some x ->
  nth_error (os_heap (snd (ostep cm s o))) b = Some x.
Proof.
  intros cm [h m] o b x D N.
  assert (A : forall l, nth_error (h ++ l) b = Some x).
  { intro l. rewrite nth_error_app1; [exact N | apply nth_error_Some; cbn in N; congruence]. }
  destruct o as [c|v|e|t items|a name v|a lo|a i v|a i]; cbn -[Nat.ltb skipn] in *.
  - unfold construct. destruct (init_from _ _). apply A.
  - apply A.
  - destruct (effect_new (as_pyobj h e)); [apply A | exact N].
  - apply A.
  - assert (R : forall y, nth_error (replace_nth a y h) b = Some x)
      by (intro y; rewrite nth_replace_other; [exact N | congruence]).
    destruct (nth_error h a) as [[c attrs|t items|y|e]|]; try exact N.
    + destruct (setter_type c name) as [t|]; [|exact N]. destruct (isinstance h v t); [|exact N].
      destruct (assign cm c name v attrs m) as [[r attrs'] m']. apply R.
    + destruct (String.eqb name "value"); [|destruct (String.eqb name "dataType"); [|exact N]].
      * destruct (av_set_value y (as_native v)); apply R.
      * destruct (as_native v); apply R.
    + destruct (String.eqb name "value"); [|exact N].
      destruct (effect_set (Some e) (as_pyobj h v)) as [r [e'|]]; [apply R | exact N].
  - destruct (nth_error h a) as [[c attrs|t items|y|e]|]; try exact N.
    destruct (tl_step _ items lo) as [r items']. cbn. rewrite nth_replace_other; [exact N | congruence].
  - destruct (nth_error h a) as [[c attrs|t items|y|e]|]; try exact N.
    cbn. rewrite nth_replace_other; [exact N | congruence].
  - destruct (nth_error h a) as [[c attrs|t items|y|e]|]; try exact N.
    destruct (Nat.ltb i (length items)); [|exact N].
    cbn. rewrite nth_replace_other; [exact N | congruence].
Qed.

(** ** No reference leads to nothing *)

Lemma has_type_object : forall h a t, has_type h (PRef a) t -> nth_error h a <> None.
Proof. intros h a t T. inversion T; subst; try congruence. apply H; reflexivity. Qed.

Lemma refers_object : forall h a b, well_formed h -> refers h a b -> nth_error h b <> None.
Proof.
  intros h a b W R. destruct R as [a b name G|a b t items N I].
  - unfold get_attr in G. destruct (nth_error h a) as [[c attrs|t items|v|s]|] eqn:N; try discriminate G.
    + destruct (dict_get name attrs) as [v|] eqn:D; [|discriminate G]. injection G as ->.
      destruct (W _ _ N) as [A B]. destruct (B _ _ D) as [d I]. specialize (A _ _ I). rewrite D in A.
      destruct d; cbn in A.
      * destruct A as [A|A]; [discriminate A | eapply has_type_object; exact A].
      * destruct A as [x A]; discriminate A.
      * destruct A as (l & items & E & NL). congruence.
      * destruct A as [A|[f A]]; discriminate A.
      * destruct A as [A|[f A]]; discriminate A.
      * eapply has_type_object; exact A.
    + destruct (String.eqb name "value"); [|destruct (String.eqb name "dataType")]; discriminate G.
    + destruct (String.eqb name "value"); discriminate G.
  - pose proof (W _ _ N) as F. cbn in F. rewrite Forall_forall in F. eapply has_type_object; exact (F _ I).
Qed.

Lemma reaches_object : forall h a b, well_formed h -> nth_error h a <> None -> reaches h a b ->
  nth_error h b <> None.
Proof.
  intros h a b W N R. apply Operators_Properties.clos_rt_rtn1 in R.
  induction R as [|b c R _ _]; [exact N | eapply refers_object; eassumption].
Qed.

Lemma ostep_agree : forall cm s o a, well_formed (os_heap s) -> nth_error (os_heap s) a <> None ->
  (forall b, touches o = Some b -> ~ reaches (os_heap s) a b) ->
  agree (os_heap s) (os_heap (snd (ostep cm s o))) (PRef a).
Proof.
  intros cm s o a W N T a' b E R. injection E as <-.
  destruct (nth_error (os_heap s) b) as [x|] eqn:Nb.
  - apply ostep_other; [|exact Nb]. intro Q. exact (T b Q R).
  - exfalso. exact (reaches_object _ _ _ W N R Nb).
Qed.

Lemma for_policy_object : forall h a p, for_policy h (PRef a) p -> nth_error h a <> None.
Proof.
  intros h a p F. inversion F; subst;
    match goal with H : instance h _ _ _ |- _ => destruct H as (E & attrs & N); injection E as ->; congruence end.
Qed.
Lemma for_request_object : forall h a p, for_request h (PRef a) p -> nth_error h a <> None.
Proof. intros h a p (b & (E & attrs & N) & _). injection E as ->. congruence. Qed.

(** ** Circular policy sets *)
Fixpoint weight (p : policybase) : nat :=
  match p with
  | PPolicy _ _ _ _ => 1
  | PPolicySet _ _ _ cs => S ((fix sum l := match l with [] => 0 | c :: l' => weight c + sum l' end) cs)
  end.
Lemma no_circle : forall m t al p, p <> PPolicySet m t al [p].
Proof.
  intros m t al p E. apply (f_equal weight) in E. cbn in E.
  rewrite PeanoNat.Nat.add_0_r in E. apply (PeanoNat.Nat.neq_succ_diag_r (weight p)). exact E.
Qed.

(** ** A test for circularity *)
Definition refs_of_vals (l : list pval) : list nat :=
  flat_map (fun v => match v with PRef b => [b] | _ => [] end) l.
Definition refs_of (o : pobject) : list nat :=
  match o with
  | PInst _ attrs => refs_of_vals (map snd attrs)
  | PTypedList _ items => refs_of_vals items
  | _ => []
  end.
Definition ranked (rank : nat -> nat) (h : heap) : bool :=
  forallb (fun a => match nth_error h a with
                    | Some o => forallb (fun b => Nat.ltb (rank b) (rank a)) (refs_of o)
                    | None => true
                    end) (seq 0 (length h)).

Lemma in_refs_of_vals : forall b l, In (PRef b) l -> In b (refs_of_vals l).
Proof. intros b l I. apply in_flat_map. exists (PRef b); split; [exact I | left; reflexivity]. Qed.

Lemma dict_get_snd : forall V k (v : V) d, dict_get k d = Some v -> In v (map snd d).
Proof.
  intros V k v d. induction d as [|[k' w] d IH]; cbn; [discriminate|].
  destruct (String.eqb k k'); [intro E; injection E as ->; left; reflexivity | right; auto].
Qed.

Lemma refers_in : forall h a b, refers h a b -> exists o, nth_error h a = Some o /\ In b (refs_of o).
Proof.
  intros h a b R. destruct R as [a b name G|a b t items N I].
  - unfold get_attr in G. destruct (nth_error h a) as [[c attrs|t items|v|s]|] eqn:N; try discriminate G.
    + destruct (dict_get name attrs) as [v|] eqn:D; [|discriminate G]. injection G as ->.
      eexists; split; [reflexivity|]. cbn. apply in_refs_of_vals. eapply dict_get_snd; exact D.
    + destruct (String.eqb name "value"); [|destruct (String.eqb name "dataType")]; discriminate G.
    + destruct (String.eqb name "value"); discriminate G.
  - eexists; split; [exact N|]. apply in_refs_of_vals; exact I.
Qed.

Lemma ranked_not_circular : forall rank h, ranked rank h = true -> forall a, not_circular h a.
Proof.
  intros rank h K.
  assert (S : forall n a, rank a < n -> not_circular h a).
  { induction n as [|n IH]; intros a L; [inversion L|]. constructor. intros b R. apply IH.
    apply refers_in in R as (o & N & I). unfold ranked in K. rewrite forallb_forall in K.
    assert (Q : a < length h) by (apply nth_error_Some; congruence).
    specialize (K a (proj2 (in_seq _ _ _) (conj (PeanoNat.Nat.le_0_l a) Q))). rewrite N in K.
    rewrite forallb_forall in K. specialize (K b I). apply PeanoNat.Nat.ltb_lt in K.
    apply PeanoNat.Nat.lt_le_trans with (rank a); [exact K | apply PeanoNat.Nat.lt_succ_r; exact L]. }
  intro a. apply (S (Datatypes.S (rank a))). apply PeanoNat.Nat.lt_succ_diag_r.
Qed.
