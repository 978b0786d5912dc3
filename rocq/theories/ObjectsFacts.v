(** Facts about objects built through the API. *)
From Verif Require Import Objects SpecObjects StateFacts.
Require Import Lia.

(** ** isinstance *)

Lemma pcls_eqb_eq : forall c d, pcls_eqb c d = true <-> c = d.
Proof.
  intros c d; split.
  - destruct c as [k| | | |k|k| | | | | | | | | | | | |]; destruct d as [j| | | |j|j| | | | | | | | | | | | |]; cbn;
      intro E; try discriminate E; try reflexivity; destruct k; destruct j; try discriminate E; reflexivity.
  - intros ->. destruct d as [j| | | |j|j| | | | | | | | | | | | |]; try reflexivity; destruct j; reflexivity.
Qed.

Lemma isinstance_iff : forall h v t, isinstance h v t = true <-> has_type h v t.
Proof.
  intros h v t; split.
  - intro E. destruct v as [n|a|f|al|n|n|x].
    2:{ assert (E' : match nth_error h a with Some o => object_is o t | None => false end = true)
          by (destruct t; exact E). clear E. rename E' into E.
        destruct (nth_error h a) as [o|] eqn:N; [|discriminate E].
        destruct t as [| |c| | | | | | | | | |]; destruct o as [d attrs|ty items|w|s]; cbn in E; try discriminate E;
          try (apply ht_any; intros b Q; injection Q as <-; congruence).
        + apply pcls_eqb_eq in E as <-. eapply ht_class; eassumption.
        + destruct d; try discriminate E. eapply ht_designator; eassumption.
        + destruct d; try discriminate E; [eapply ht_designator_expression | eapply ht_selector_expression
            | eapply ht_apply_expression]; eassumption.
        + eapply ht_value_expression; eassumption.
        + eapply ht_value; eassumption.
        + destruct d; try discriminate E; [eapply ht_policy | eapply ht_policyset]; eassumption.
        + eapply ht_effect; eassumption.
        + eapply ht_list; eassumption. }
    all: destruct t; cbn in E; try discriminate E; try (apply ht_any; discriminate);
      try (destruct n; try discriminate E); constructor.
  - intro T. destruct T; cbn; try reflexivity;
      try (match goal with H : nth_error _ _ = _ |- _ => rewrite H end; cbn; try reflexivity).
    + destruct v; try reflexivity. destruct (nth_error h a) eqn:N; [destruct p; reflexivity|].
      exfalso. exact (H a eq_refl N).
    + apply pcls_eqb_eq; reflexivity.
Qed.

(** ** Heaps that keep the classes of their objects *)

Definition same_tag (o o' : pobject) : Prop :=
  match o, o' with
  | PInst c _, PInst c' _ => c = c'
  | PTypedList t _, PTypedList t' _ => t = t'
  | PValue _, PValue _ => True
  | PEffect _, PEffect _ => True
  | _, _ => False
  end.
Definition grows (h h' : heap) : Prop :=
  forall a o, nth_error h a = Some o -> exists o', nth_error h' a = Some o' /\ same_tag o o'.

Lemma same_tag_refl : forall o, same_tag o o.
Proof. intros []; cbn; auto. Qed.
Lemma grows_refl : forall h, grows h h.
Proof. intros h a o N. exists o; split; [exact N | apply same_tag_refl]. Qed.
Lemma same_tag_trans : forall a b c, same_tag a b -> same_tag b c -> same_tag a c.
Proof. intros [] [] []; cbn; intros; subst; auto; contradiction. Qed.
Lemma grows_trans : forall a b c, grows a b -> grows b c -> grows a c.
Proof.
  intros a b c G1 G2 x o N. destruct (G1 x o N) as (o1 & N1 & T1). destruct (G2 x o1 N1) as (o2 & N2 & T2).
  exists o2; split; [exact N2 | eapply same_tag_trans; eassumption].
Qed.

Ltac grow G :=
  match goal with
  | H : nth_error _ _ = Some _ |- _ =>
      let o := fresh "o" in let N := fresh "N" in let T := fresh "T" in
      destruct (G _ _ H) as (o & N & T); destruct o; cbn in T; try contradiction; subst
  end.

Lemma has_type_grows : forall h h' v t, grows h h' -> has_type h v t -> has_type h' v t.
Proof.
  intros h h' v t G T. destruct T; try (constructor; fail);
    try (apply ht_any; intros b E; specialize (H b E); destruct (nth_error h b) as [o|] eqn:N;
         [|congruence]; destruct (G _ _ N) as (o' & N' & _); congruence);
    grow G.
  - eapply ht_class; eassumption.
  - eapply ht_designator; eassumption.
  - eapply ht_designator_expression; eassumption.
  - eapply ht_selector_expression; eassumption.
  - eapply ht_apply_expression; eassumption.
  - eapply ht_value_expression; eassumption.
  - eapply ht_value; eassumption.
  - eapply ht_policy; eassumption.
  - eapply ht_policyset; eassumption.
  - eapply ht_effect; eassumption.
  - eapply ht_list; eassumption.
Qed.

Lemma as_documented_grows : forall h h' d v, grows h h' -> as_documented h d v -> as_documented h' d v.
Proof.
  intros h h' d v G D. destruct d; cbn in *; auto.
  - destruct D as [D|D]; [left; exact D | right; eapply has_type_grows; eassumption].
  - destruct D as (l & items & -> & N). grow G. eauto.
  - eapply has_type_grows; eassumption.
Qed.

(** ** Well formed heaps *)

Definition attrs_ok (h : heap) (c : pcls) (attrs : list (string * pval)) : Prop :=
  (forall name d, In (name, d) (documented_attributes c) ->
     match dict_get name attrs with
     | Some v => as_documented h d v
     | None => exists t, d = DLate t
     end) /\
  (forall name v, dict_get name attrs = Some v -> exists d, In (name, d) (documented_attributes c)).
Definition object_ok (h : heap) (o : pobject) : Prop :=
  match o with
  | PInst c attrs => attrs_ok h c attrs
  | PTypedList t items => Forall (fun v => has_type h v t) items
  | PValue _ => True
  | PEffect s => s = "Permit"%string \/ s = "Deny"%string
  end.
Definition well_formed (h : heap) : Prop := forall a o, nth_error h a = Some o -> object_ok h o.

Lemma object_ok_grows : forall h h' o, grows h h' -> object_ok h o -> object_ok h' o.
Proof.
  intros h h' o G. destruct o as [c attrs|t items|v|s]; cbn; auto.
  - intros [A B]; split; [|exact B]. intros name d I. specialize (A name d I).
    destruct (dict_get name attrs); [|exact A]. eapply as_documented_grows; eassumption.
  - intro F. eapply Forall_impl; [|exact F]. intros v. apply has_type_grows; exact G.
Qed.

(** *** Replacing an object *)
Lemma nth_replace_same : forall A n (x : A) l y, nth_error l n = Some y ->
  nth_error (replace_nth n x l) n = Some x.
Proof. induction n; intros x [|z l] y N; cbn in *; try discriminate; eauto. Qed.
Lemma nth_replace_other : forall A n m (x : A) l, n <> m ->
  nth_error (replace_nth n x l) m = nth_error l m.
Proof.
  induction n; intros [|m] x [|z l] N; cbn; try reflexivity; try congruence. apply IHn; congruence.
Qed.
Lemma replace_same : forall A n (x : A) l, nth_error l n = Some x -> replace_nth n x l = l.
Proof. induction n; intros x [|z l] N; cbn in *; try discriminate; try congruence. f_equal; auto. Qed.
Lemma replace_length : forall A n (x : A) l, length (replace_nth n x l) = length l.
Proof. induction n; intros x [|z l]; cbn; auto. Qed.

Lemma replace_grows : forall h a o o', nth_error h a = Some o -> same_tag o o' ->
  grows h (replace_nth a o' h).
Proof.
  intros h a o o' N T b x Nb. destruct (Nat.eq_dec a b) as [<-|D].
  - exists o'; split; [eapply nth_replace_same; eassumption | congruence].
  - exists x; split; [rewrite nth_replace_other by exact D; exact Nb | apply same_tag_refl].
Qed.
Lemma replace_well_formed : forall h a o o', well_formed h -> nth_error h a = Some o -> same_tag o o' ->
  object_ok h o' -> well_formed (replace_nth a o' h).
Proof.
  intros h a o o' W N T K b x Nb. pose proof (replace_grows h a o o' N T) as G.
  eapply object_ok_grows; [exact G|]. destruct (Nat.eq_dec a b) as [<-|D].
  - rewrite (nth_replace_same _ _ _ _ _ N) in Nb. injection Nb as <-. exact K.
  - rewrite nth_replace_other in Nb by exact D. eapply W; exact Nb.
Qed.

(** *** New objects *)
Lemma app_grows : forall h l, grows h (h ++ l).
Proof.
  intros h l a o N. exists o; split; [|apply same_tag_refl].
  rewrite nth_error_app1; [exact N|]. apply nth_error_Some; congruence.
Qed.
Lemma app_well_formed : forall h l, well_formed h -> Forall (object_ok (h ++ l)) l -> well_formed (h ++ l).
Proof.
  intros h l W F a o N. destruct (Nat.lt_ge_cases a (length h)) as [L|L].
  - rewrite nth_error_app1 in N by exact L. eapply object_ok_grows; [apply app_grows | eapply W; exact N].
  - rewrite nth_error_app2 in N by exact L. eapply Forall_forall; [exact F | eapply nth_error_In; exact N].
Qed.
Lemma nth_new : forall (h l : heap) i, nth_error (h ++ l) (i + length h) = nth_error l i.
Proof. intros. rewrite nth_error_app2 by lia. f_equal; lia. Qed.

Ltac each_in I := repeat (destruct I as [I|I]; [injection I as <- <-|]); try contradiction.

Lemma construct_well_formed : forall h c, well_formed h -> well_formed (construct h c).
Proof.
  intros h c W. unfold construct.
  destruct c as [k| | | |k|k| | | | | | | | | | | | |]; cbn [init_attrs init_from];
    (apply app_well_formed; [exact W|]);
    repeat (apply Forall_cons); try apply Forall_nil; try (exact (Forall_nil _));
    (split;
     [intros name d I; cbn in I; each_in I; cbn [dict_get String.eqb Ascii.eqb Bool.eqb];
      try (left; reflexivity); try (eexists; reflexivity);
      eexists; eexists; (split; [reflexivity|]);
      match goal with
      | |- nth_error _ (S ?n) = _ =>
          let rec count n := lazymatch n with
                             | S ?m => let c := count m in constr:(S c)
                             | _ => constr:(O)
                             end in
          let i := count n in exact (nth_new h _ (S i))
      end
     |intros name v I; cbn [dict_get] in I;
      repeat match type of I with
             | context [if String.eqb ?x ?y then _ else _] => destruct (String.eqb_spec x y) as [?|?];
                 [subst name; eexists; cbn; eauto 12; fail|]
             end; discriminate I]).
Qed.

(** ** Assignments *)

Lemma documented_nodup : forall c, NoDup (map fst (documented_attributes c)).
Proof.
  intro c. destruct c as [k| | | |k|k| | | | | | | | | | | | |]; cbn;
    repeat (constructor; [cbn; intuition discriminate|]); constructor.
Qed.

Lemma documented_unique : forall c name d d', In (name, d) (documented_attributes c) ->
  In (name, d') (documented_attributes c) -> d = d'.
Proof.
  intros c name d d'. pose proof (documented_nodup c) as ND. revert ND.
  generalize (documented_attributes c) as l. induction l as [|[k x] l IH]; cbn; [contradiction|].
  intros ND I I'. inversion ND; subst.
  destruct I as [I|I]; destruct I' as [I'|I'].
  - congruence.
  - injection I as -> ->. exfalso; apply H1. apply (in_map fst) in I'. exact I'.
  - injection I' as -> ->. exfalso; apply H1. apply (in_map fst) in I. exact I.
  - auto.
Qed.

Ltac chain I := repeat match type of I with
   | context [if String.eqb ?x ?y then _ else _] => destruct (String.eqb_spec x y) as [?|?]
   end.

Lemma setter_documented : forall c name t, setter_type c name = Some t ->
  (c = KAttribute /\ name = "attributeValues"%string /\ t = TTypedList) \/
  exists d, In (name, d) (documented_attributes c) /\
    forall h v, has_type h v t -> as_documented h d v.
Proof.
  intros c name t E. unfold setter_type in E.
  destruct c as [k| | | |k|k| | | | | | | | | | | | |]; try discriminate E; chain E;
    try discriminate E; injection E as <-; subst name;
    try (left; split; [|split]; reflexivity);
    right; eexists;
    (split; [cbn; repeat (try (left; reflexivity); right)|]);
    intros h v T; cbn; auto; inversion T; eauto.
Qed.

Lemma attrs_ok_set : forall h c attrs name d v, attrs_ok h c attrs ->
  In (name, d) (documented_attributes c) -> as_documented h d v ->
  attrs_ok h c (dict_set name v attrs).
Proof.
  intros h c attrs name d v [A B] I D; split.
  - intros n d' I'. destruct (String.string_dec name n) as [<-|N].
    + rewrite dict_get_set_same. rewrite (documented_unique _ _ _ _ I' I). exact D.
    + rewrite dict_get_set_other by congruence. apply A; exact I'.
  - intros n w G. destruct (String.string_dec name n) as [<-|N]; [eauto|].
    rewrite dict_get_set_other in G by congruence. eapply B; exact G.
Qed.

Lemma assign_ok : forall cm h c name v attrs m r attrs' m' t, attrs_ok h c attrs ->
  setter_type c name = Some t -> has_type h v t ->
  (c = KAttribute -> name = "attributeValues"%string -> as_documented h (DListOf TAttributeValue) v) ->
  assign cm c name v attrs m = (r, attrs', m') -> attrs_ok h c attrs'.
Proof.
  intros cm h c name v attrs m r attrs' m' t K E T C A.
  assert (K1 : attrs_ok h c (dict_set name v attrs)).
  { destruct (setter_documented c name t E) as [(-> & -> & ->)|(d & I & D)].
    - eapply attrs_ok_set; [exact K | cbn; repeat (try (left; reflexivity); right) | apply C; reflexivity].
    - eapply attrs_ok_set; [exact K | exact I | apply D; exact T]. }
  unfold assign in A.
  assert (S : forall n d w, In (n, d) (documented_attributes c) -> as_documented h d w ->
              attrs_ok h c (dict_set n w (dict_set name v attrs)))
    by (intros; eapply attrs_ok_set; eassumption).
  destruct c as [k| | | |k|k| | | | | | | | | | | | |]; try (injection A as <- <- <-; exact K1).
  - destruct (String.eqb name "functionId"); [|injection A as <- <- <-; exact K1].
    destruct v as [[]| | | | | |]; try (injection A as <- <- <-; exact K1).
    destruct (dict_get "loadFunctionFromId" _) as [[[]| | | | | |]|]; try (injection A as <- <- <-; exact K1).
    destruct b; try (injection A as <- <- <-; exact K1).
    destruct (load_function cm s m) as [[f|e] m1]; injection A as <- <- <-; [|exact K1].
    eapply S; [cbn; right; right; left; reflexivity | cbn; eauto].
  - destruct (String.eqb name "attributeDesignator");
      [injection A as <- <- <-; eapply S; [cbn; repeat (try (left; reflexivity); right) | cbn; auto]|].
    destruct (String.eqb name "attributeSelector");
      [injection A as <- <- <-; eapply S; [cbn; repeat (try (left; reflexivity); right) | cbn; auto]|].
    destruct (String.eqb name "matchId"); [|injection A as <- <- <-; exact K1].
    destruct v as [[]| | | | | |]; try (injection A as <- <- <-; exact K1).
    destruct (dict_get "loadFunctionFromId" _) as [[[]| | | | | |]|]; try (injection A as <- <- <-; exact K1).
    destruct b; try (injection A as <- <- <-; exact K1).
    destruct (load_function cm s m) as [[f|e] m1]; injection A as <- <- <-; [|exact K1].
    eapply S; [cbn; right; left; reflexivity | cbn; eauto].
  - destruct (String.eqb name "ruleCombiningAlgId"); [|injection A as <- <- <-; exact K1].
    destruct v as [[]| | | | | |]; try (injection A as <- <- <-; exact K1).
    destruct (alg_from_table RULE_ALG_MAP s) as [f|e]; injection A as <- <- <-; [|exact K1].
    eapply S; [cbn; repeat (try (left; reflexivity); right) | cbn; eauto].
  - destruct (String.eqb name "policyCombiningAlgId"); [|injection A as <- <- <-; exact K1].
    destruct v as [[]| | | | | |]; try (injection A as <- <- <-; exact K1).
    destruct (alg_from_table POLICY_ALG_MAP s) as [f|e]; injection A as <- <- <-; [|exact K1].
    eapply S; [cbn; repeat (try (left; reflexivity); right) | cbn; eauto].
Qed.

(** *** Effects *)
Lemma effect_set_ok : forall e x r e', effect_set (Some e) x = (r, Some e') ->
  e = "Permit"%string \/ e = "Deny"%string -> e' = "Permit"%string \/ e' = "Deny"%string.
Proof.
  intros e x r e' E K. unfold effect_set in E.
  assert (V : forall s, (if str_in s EFFECT_TYPES then (Ok tt, Some s) else (Raise EAttributeError, Some e)) = (r, Some e') ->
     e' = "Permit"%string \/ e' = "Deny"%string).
  { intros s F. destruct (str_in s EFFECT_TYPES) eqn:I; injection F as <- <-; [|exact K].
    unfold str_in, EFFECT_TYPES in I. cbn in I.
    destruct (String.eqb_spec s "Deny") as [->|]; [auto|].
    destruct (String.eqb_spec s "Permit") as [->|]; [auto | discriminate I]. }
  destruct x as [v|a|d|s|s|s|k|m]; try (injection E as <- <-; exact K); [|exact (V s E)].
  destruct v; try (injection E as <- <-; exact K). exact (V s E).
Qed.
Lemma effect_new_ok : forall x e, effect_new x = Ok e -> e = "Permit"%string \/ e = "Deny"%string.
Proof.
  intros x e E. unfold effect_new in E.
  destruct (effect_set None x) as [[u|er] [s|]] eqn:F; try discriminate E; injection E as <-.
  unfold effect_set in F.
  assert (V : forall s', (if str_in s' EFFECT_TYPES then (Ok tt, Some s') else (Raise EAttributeError, None)) = (Ok u, Some s) ->
     s = "Permit"%string \/ s = "Deny"%string).
  { intros s' G. destruct (str_in s' EFFECT_TYPES) eqn:I; try discriminate G. injection G as <- <-.
    unfold str_in, EFFECT_TYPES in I. cbn in I.
    destruct (String.eqb_spec s' "Deny") as [->|]; [auto|].
    destruct (String.eqb_spec s' "Permit") as [->|]; [auto | discriminate I]. }
  destruct x as [v|a|d|q|q|q|k|m]; try discriminate F; [|exact (V q F)].
  destruct v; try discriminate F. exact (V s0 F).
Qed.

(** ** Every operation *)

Lemma Forall_delete : forall A (P : A -> Prop) i l, Forall P l -> Forall P (firstn i l ++ skipn (S i) l).
Proof.
  intros A P i l F. apply Forall_app; split.
  - rewrite <- (firstn_skipn i l) in F. apply Forall_app in F. tauto.
  - rewrite <- (firstn_skipn (S i) l) in F. apply Forall_app in F. tauto.
Qed.

Lemma ostep_grows : forall cm s o, grows (os_heap s) (os_heap (snd (ostep cm s o))).
Proof.
  intros cm [h m] o. destruct o as [c|v|x|t items|a name v|a lo|a i v|a i];
    cbn -[Nat.ltb skipn].
  - unfold construct. destruct (init_from _ _). apply app_grows.
  - apply app_grows.
  - destruct (effect_new (as_pyobj h x)); [apply app_grows | apply grows_refl].
  - apply app_grows.
  - destruct (nth_error h a) as [[c attrs|t items|x|e]|] eqn:N; try apply grows_refl.
    + destruct (setter_type c name) as [t|]; [|apply grows_refl].
      destruct (isinstance h v t); [|apply grows_refl].
      destruct (assign cm c name v attrs m) as [[r attrs'] m'].
      eapply replace_grows; [exact N | reflexivity].
    + destruct (String.eqb name "value"); [|destruct (String.eqb name "dataType"); [|apply grows_refl]].
      * destruct (av_set_value x (as_native v)); (eapply replace_grows; [exact N | exact I]).
      * destruct (as_native v); (eapply replace_grows; [exact N | exact I]).
    + destruct (String.eqb name "value"); [|apply grows_refl].
      destruct (effect_set (Some e) (as_pyobj h v)) as [r [e'|]]; [|apply grows_refl].
      eapply replace_grows; [exact N | exact I].
  - destruct (nth_error h a) as [[c attrs|t items|x|e]|] eqn:N; try apply grows_refl.
    destruct (tl_step _ items lo) as [r items']. eapply replace_grows; [exact N | reflexivity].
  - destruct (nth_error h a) as [[c attrs|t items|x|e]|] eqn:N; try apply grows_refl.
    eapply replace_grows; [exact N | reflexivity].
  - destruct (nth_error h a) as [[c attrs|t items|x|e]|] eqn:N; try apply grows_refl.
    destruct (Nat.ltb i (length items)); [|apply grows_refl].
    eapply replace_grows; [exact N | reflexivity].
Qed.

Lemma tl_step_items : forall A (P : A -> Prop) inst (lo : lop A) items r items',
  (forall x, inst x = true -> P x) -> tl_step inst items lo = (r, items') -> Forall P items -> Forall P items'.
Proof.
  intros A P inst lo items r items' Sound E F.
  assert (X : forall it, (if forallb inst (fst (iterate it)) then (Ok tt, items ++ fst (iterate (snd (iterate it))))
                          else (Raise ETypeError, items)) = (r, items') -> Forall P items').
  { intros it G. destruct (forallb inst (fst (iterate it))) eqn:Q; injection G as <- <-; [|exact F].
    apply Forall_app; split; [exact F|]. destruct it as [l|l]; cbn in *; [|constructor].
    apply Forall_forall. intros x I. apply Sound. rewrite forallb_forall in Q. auto. }
  destruct lo as [x|it|it]; cbn in E.
  - unfold tl_append in E. destruct (inst x) eqn:Q; injection E as <- <-; [|exact F].
    apply Forall_app; split; [exact F | constructor; [auto | constructor]].
  - apply (X it). destruct it; exact E.
  - apply (X it). destruct it; exact E.
Qed.

Lemma ostep_well_formed : forall cm s o, well_formed (os_heap s) -> careful (os_heap s) o ->
  well_formed (os_heap (snd (ostep cm s o))).
Proof.
  intros cm [h m] o W C. destruct o as [c|v|x|t items|a name v|a lo|a i v|a i];
    cbn -[Nat.ltb skipn] in *.
  - apply construct_well_formed; exact W.
  - apply app_well_formed; [exact W | constructor; [exact I | constructor]].
  - destruct (effect_new (as_pyobj h x)) eqn:E; [|exact W].
    apply app_well_formed; [exact W | constructor; [eapply effect_new_ok; exact E | constructor]].
  - apply app_well_formed; [exact W | constructor; [|constructor]]. cbn.
    eapply Forall_impl; [|exact C]. intros v; apply has_type_grows, app_grows.
  - destruct (nth_error h a) as [[c attrs|t items|x|e]|] eqn:N; try exact W.
    + destruct (setter_type c name) as [t|] eqn:ST; [|exact W].
      destruct (isinstance h v t) eqn:IS; [|exact W].
      destruct (assign cm c name v attrs m) as [[r attrs'] m'] eqn:A.
      apply isinstance_iff in IS.
      eapply replace_well_formed; [exact W | exact N | reflexivity|].
      eapply assign_ok; [exact (W _ _ N) | exact ST | exact IS | | exact A].
      intros -> ->. cbn in ST. injection ST as <-. inversion IS; subst.
      exists a0, items. split; [reflexivity|].
      rewrite <- (C attrs a0 t items eq_refl eq_refl eq_refl H). exact H.
    + destruct (String.eqb name "value"); [|destruct (String.eqb name "dataType"); [|exact W]].
      * destruct (av_set_value x (as_native v));
          (eapply replace_well_formed; [exact W | exact N | exact I | exact I]).
      * destruct (as_native v); (eapply replace_well_formed; [exact W | exact N | exact I | exact I]).
    + destruct (String.eqb name "value"); [|exact W].
      destruct (effect_set (Some e) (as_pyobj h v)) as [r [e'|]] eqn:E; [|exact W].
      eapply replace_well_formed; [exact W | exact N | exact I|].
      eapply effect_set_ok; [exact E | exact (W _ _ N)].
  - destruct (nth_error h a) as [[c attrs|t items|x|e]|] eqn:N; try exact W.
    destruct (tl_step _ items lo) as [r items'] eqn:E.
    eapply replace_well_formed; [exact W | exact N | reflexivity|].
    eapply tl_step_items; [|exact E | exact (W _ _ N)].
    intros x; apply isinstance_iff.
  - destruct (nth_error h a) as [[c attrs|t items|x|e]|] eqn:N; try exact W.
    eapply replace_well_formed; [exact W | exact N | reflexivity|].
    pose proof (W _ _ N) as F; cbn in F. rewrite <- (firstn_skipn i items) in F.
    apply Forall_app in F as [F1 F2]. apply Forall_app; split; [exact F1|].
    constructor; [eapply C; reflexivity | exact F2].
  - destruct (nth_error h a) as [[c attrs|t items|x|e]|] eqn:N; try exact W.
    destruct (Nat.ltb i (length items)); [|exact W].
    eapply replace_well_formed; [exact W | exact N | reflexivity|].
    apply (Forall_delete _ _ i). exact (W _ _ N).
Qed.

Lemma orun_well_formed : forall cm ops s, well_formed (os_heap s) -> careful_history cm s ops ->
  well_formed (os_heap (orun cm s ops)).
Proof.
  intros cm ops. induction ops as [|o ops IH]; intros s W C; [exact W|].
  destruct C as [C1 C2]. cbn. apply IH; [apply ostep_well_formed; assumption | exact C2].
Qed.

Lemma start_well_formed : well_formed (os_heap ostart).
Proof. intros [|a] o N; discriminate N. Qed.
