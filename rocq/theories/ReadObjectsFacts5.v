(** What every reader preserves; the registration of what was read. *)
From Verif Require Import SpecReadObjects SpecRead ObjectsFacts ObjectsFacts2 ObjectsFacts3 FuncMapFacts StateFacts
  ReadFacts ReadObjectsFacts ReadObjectsFacts2 ReadObjectsFacts3 ReadObjectsFacts4.
From Coq Require Import Lia.

(** ** The invariant of reachable states *)
Definition made (cm : list (string * avclass)) (m : fmap) : Prop := exists ops, m = fm_run cm ops fm_new.
Definition fit (cm : list (string * avclass)) (s : lstate) : Prop :=
  (well_formed (ls_heap s) /\ made cm (os_map (ls_os s))) /\
  NoDup (map fst (ls_policies s)) /\ NoDup (map fst (ls_sets s)).

Lemma made_more : forall cm m ops, made cm m -> made cm (fm_run cm ops m).
Proof. intros cm m ops (ops0 & ->). exists (ops0 ++ ops)%list. unfold fm_run. rewrite fold_left_app. reflexivity. Qed.
Lemma made_load : forall cm id m, made cm m -> made cm (snd (load_function cm id m)).
Proof.
  intros cm id m M. unfold load_function. apply (made_more cm m [FGet id]) in M. cbn in M.
  destruct (fm_get cm id m) as [[[[]|]|] m']; exact M.
Qed.
Lemma made_assign : forall cm c name v attrs m, made cm m -> made cm (snd (assign cm c name v attrs m)).
Proof.
  intros cm c name v attrs m M.
  assert (L : forall id, made cm (snd (load_function cm id m))) by (intros id; apply made_load; exact M).
  unfold assign.
  repeat match goal with
  | |- context [load_function cm ?id m] => specialize (L id); destruct (load_function cm id m) as [[]]
  | |- context [match ?x with _ => _ end] => destruct x
  end; first [exact M | exact L].
Qed.
Lemma made_step : forall cm s o, made cm (os_map s) -> made cm (os_map (snd (ostep cm s o))).
Proof.
  intros cm [h m] o M. cbn [os_map] in M. destruct o as [c|v|x|t items|a name v|a lo|a i v|a i]; cbn [ostep os_heap os_map].
  - exact M.
  - exact M.
  - destruct (effect_new _); exact M.
  - exact M.
  - destruct (nth_error h a) as [[c attrs|t items|x|e]|]; try exact M.
    + destruct (setter_type c name); [|exact M]. destruct (isinstance h v p); [|exact M].
      pose proof (made_assign cm c name v attrs m M) as K. destruct (assign cm c name v attrs m) as [[r at'] m']. exact K.
    + destruct (String.eqb name "value"); [|destruct (String.eqb name "dataType"); [|exact M]];
        (destruct (av_step x _); exact M).
    + destruct (String.eqb name "value"); [|exact M]. destruct (effect_set _ _) as [r [e'|]]; exact M.
  - destruct (nth_error h a) as [[c attrs|t items|x|e]|]; try exact M. destruct (tl_step _ items lo); exact M.
  - destruct (nth_error h a) as [[c attrs|t items|x|e]|]; exact M.
  - destruct (nth_error h a) as [[c attrs|t items|x|e]|]; try exact M. destruct (Nat.ltb i (length items)); exact M.
Qed.

Lemma NoDup_snoc : forall (k : option string) (v : pval) d, object_for k d = None -> NoDup (map fst d) -> NoDup (map fst (d ++ [(k, v)])).
Proof.
  intros k v d O N. rewrite map_app. cbn. apply NoDup_Add with (a := k) (l := map fst d).
  - pose proof (Add_app k (map fst d) []) as A. rewrite app_nil_r in A. exact A.
  - split; [exact N | apply object_for_None; exact O].
Qed.

Section Typed.
Variable E : renv.
Notation cm := (re_cm E).

Definition keeps {A} (m : lm A) : Prop := forall s, fit cm s -> fit cm (snd (m s)).

Lemma keeps_ret : forall A (x : A), keeps (ret_l x).
Proof. intros A x s W; exact W. Qed.
Lemma keeps_fail : forall A e, keeps (@fail_l A e).
Proof. intros A e s W; exact W. Qed.
Lemma keeps_lift : forall A (r : res A), keeps (lift_l r).
Proof. intros A r s W; exact W. Qed.
Lemma keeps_get : forall a name, keeps (get_l a name).
Proof. intros a name s W; exact W. Qed.
Lemma keeps_bind : forall A B (m : lm A) (k : A -> lm B), keeps m -> (forall x, keeps (k x)) -> keeps (bind_l m k).
Proof.
  intros A B m k Hm Hk s W. unfold bind_l. specialize (Hm s W). destruct (m s) as [[x|e] s']; [apply Hk; exact Hm | exact Hm].
Qed.
Lemma keeps_each : forall X (f : X -> lm unit) ks, (forall k, keeps (f k)) -> keeps (each_l f ks).
Proof. intros X f ks Hf. induction ks as [|k ks IH]; [apply keeps_ret|]. apply keeps_bind; [apply Hf | intros _; exact IH]. Qed.
Lemma keeps_do : forall o, (forall h, careful h o) -> keeps (do_l E o).
Proof.
  intros o C s ((W & M) & N). unfold do_l. pose proof (ostep_well_formed cm (ls_os s) o W (C _)) as K.
  pose proof (made_step cm (ls_os s) o M) as K'.
  destruct (ostep cm (ls_os s) o) as [r os]. split; [split; [exact K | exact K'] | exact N].
Qed.
Lemma keeps_make : forall o, (forall h, careful h o) -> keeps (make_l E o).
Proof.
  intros o C s W. unfold make_l. pose proof (keeps_do o C s W) as K. destruct (do_l E o s) as [[x|e] s']; exact K.
Qed.
Lemma keeps_set : forall a name v, name <> "attributeValues"%string -> keeps (set_l E a name v).
Proof. intros a name v D. apply keeps_do. intros h attrs l t items _ X. contradiction. Qed.
Lemma keeps_append : forall a name v, keeps (append_l E a name v).
Proof.
  intros a name v. apply keeps_bind; [apply keeps_get|]. intros []; try apply keeps_fail. apply keeps_do. intros h. exact I.
Qed.
Lemma keeps_content : forall r n a, keeps (content_l r n a).
Proof.
  intros r n a s W. unfold content_l. destruct (nth_error (ls_heap s) a) as [[c at_|t items|v|e]|] eqn:N; try exact W.
  destruct (r n v) as [v'|e]; [|exact W]. destruct W as ((W & M) & D). split; [|exact D]. split; [|exact M].
  eapply replace_well_formed; [exact W | exact N | exact I | exact I].
Qed.

Ltac keep :=
  repeat match goal with
  | |- keeps (bind_l _ _) => apply keeps_bind; [|intros ?]
  | |- keeps (ret_l _) => apply keeps_ret
  | |- keeps (fail_l _) => apply keeps_fail
  | |- keeps (lift_l _) => apply keeps_lift
  | |- keeps (get_l _ _) => apply keeps_get
  | |- keeps (make_l _ _) => apply keeps_make; intros ?; exact I
  | |- keeps (set_str _ _ _ _) => apply keeps_set; discriminate
  | |- keeps (set_l _ _ _ _) => apply keeps_set; discriminate
  | |- keeps (append_l _ _ _ _) => apply keeps_append
  | |- keeps (content_l _ _ _) => apply keeps_content
  | |- keeps (each_l _ _) => apply keeps_each; intros ?
  | |- keeps (match ?x with _ => _ end) => destruct x
  | H : forall n, keeps (?m n) |- keeps (?m _) => apply H
  | H : keeps ?m |- keeps ?m => exact H
  end.

Lemma keeps_value : forall n, keeps (value_l E n).
Proof. intros n. unfold value_l. keep. Qed.
Lemma keeps_designator : forall k n, keeps (designator_l E k n).
Proof. intros k n. unfold designator_l. keep. Qed.
Lemma keeps_selector : forall n, keeps (selector_l E n).
Proof. intros n. unfold selector_l. keep. Qed.
Lemma keeps_defaults : forall n, keeps (defaults_l E n).
Proof. intros n. unfold defaults_l. keep. Qed.
Lemma keeps_condition_with : forall n kids, (forall p, In p kids -> keeps (snd p)) -> keeps (condition_with E n kids).
Proof.
  intros n kids H. unfold condition_with. apply keeps_bind; [keep | intros a]. apply keeps_bind; [keep | intros _].
  assert (H' : forall p, In p (filter (fun p : node * lm pval => match fst p with Elem _ _ _ _ => true | Comment _ => false end) kids) -> keeps (snd p)).
  { intros p I. apply filter_In in I. apply H, I. }
  destruct (filter _ kids) as [|[sub m] [|]]; try apply keeps_fail.
  apply keeps_bind; [keep | intros l]. destruct (String.eqb l "Apply"); [|apply keeps_fail].
  apply keeps_bind; [exact (H' (sub, m) (or_introl eq_refl)) | intros v]. keep.
Qed.
Lemma keeps_apply : forall n, keeps (apply_l E n).
Proof.
  assert (All : forall n, keeps (apply_l E n) /\ forall c, In c (el_kids n) -> keeps (apply_l E c)).
  { induction n as [t|tag attrs tx kids IH] using node_ind'; [split; [cbn [apply_l]; keep | intros c []]|].
    rewrite Forall_forall in IH. split; [|intros c I; exact (proj1 (IH c I))].
    cbn [apply_l]. apply keeps_bind; [keep | intros a].
    destruct (String.eqb (get_local_part tag) "Apply"); cbn [negb]; [|apply keeps_fail].
    destruct (dict_get "FunctionId" attrs); [|apply keeps_fail].
    apply keeps_bind; [keep | intros _]. apply keeps_bind; [|intros _; keep].
    assert (Sub : forall c, In c kids -> In c kids) by auto. revert Sub. generalize kids at 1 3 as ks.
    induction ks as [|k ks IHks]; intros Sub; [keep|].
    specialize (IHks (fun c I => Sub c (or_intror I))). pose proof (IH k (Sub k (or_introl eq_refl))) as [IHk IHs].
    destruct k as [t ats txt sub|t]; [|exact IHks].
    apply keeps_bind; [|intros v; apply keeps_bind; [keep | intros _; exact IHks]].
    repeat match goal with |- keeps (if ?b then _ else _) => destruct b end;
      first [exact IHk | apply keeps_value | apply keeps_designator | apply keeps_selector | apply keeps_fail | idtac].
    apply keeps_condition_with. intros p I. apply in_map_iff in I. destruct I as (c & <- & I). exact (IHs c I). }
  intros n. apply All.
Qed.
Lemma keeps_condition : forall n, keeps (condition_l E n).
Proof.
  intros n. apply keeps_condition_with. intros p I. apply in_map_iff in I. destruct I as (c & <- & I). apply keeps_apply.
Qed.
Lemma keeps_match : forall k n, keeps (match_l E k n).
Proof.
  intros k n. unfold match_l, match_child_l.
  pose proof keeps_value. pose proof (keeps_designator k). pose proof keeps_selector. keep.
Qed.
Lemma keeps_target_child : forall k n, keeps (target_child_l E k n).
Proof. intros k n. unfold target_child_l. pose proof (keeps_match k). keep. Qed.
Lemma keeps_container : forall k a n, keeps (container_l E k a n).
Proof. intros k a n. unfold container_l. pose proof (keeps_target_child k). keep. Qed.
Lemma keeps_target : forall n, keeps (target_l E n).
Proof.
  intros n. unfold target_l. apply keeps_bind; [keep | intros a]. keep; apply keeps_container.
Qed.
Lemma keeps_description : forall a n, keeps (description_l E a n).
Proof. intros a n. unfold description_l. keep. Qed.
Lemma keeps_rule : forall n, keeps (rule_l E n).
Proof.
  intros n. unfold rule_l. apply keeps_bind; [keep | intros a].
  pose proof keeps_target. pose proof keeps_condition. pose proof (keeps_description a). keep.
Qed.
Lemma keeps_attrs : forall name items, keeps (attrs_l name items).
Proof. intros name items. induction items as [|[] items IH]; cbn [attrs_l]; keep. Qed.
Lemma keeps_items : forall a name, keeps (items_l a name).
Proof.
  intros a name. unfold items_l. keep. intros s W. destruct (nth_error (ls_heap s) a0) as [[]|]; exact W.
Qed.
Lemma keeps_policy : forall n, keeps (policy_l E n).
Proof.
  intros n. unfold policy_l. apply keeps_bind; [keep | intros a].
  pose proof keeps_target. pose proof (keeps_description a). pose proof keeps_defaults. pose proof keeps_rule.
  pose proof (keeps_attrs "id"). pose proof (keeps_items a "rules").
  unfold policy_child_l. keep.
Qed.
Lemma keeps_add : forall v, keeps (add_policy_l v).
Proof.
  intros []; cbn [add_policy_l]; keep. intros s W. destruct (object_for _ _) eqn:O; [exact W|].
  destruct W as (W & N1 & N2). split; [exact W|]. split; [|exact N2]. apply NoDup_snoc; assumption.
Qed.
Lemma keeps_add_set : forall v, keeps (add_policy_set_l v).
Proof.
  intros []; cbn [add_policy_set_l]; keep. intros s W. destruct (object_for _ _) eqn:O; [exact W|].
  destruct W as (W & N1 & N2). split; [exact W|]. split; [exact N1|]. apply NoDup_snoc; assumption.
Qed.
Lemma keeps_policy_reg : forall n, keeps (policy_reg_l E n).
Proof. intros n. unfold policy_reg_l. pose proof keeps_policy. pose proof keeps_add. keep. Qed.

Variable fetch : string -> res node.
Variable fd : finder.
Lemma keeps_doc : forall limit n, keeps (doc_l E fetch fd limit n).
Proof.
  induction limit as [|limit IH]; intros n; cbn [doc_l]; [keep|].
  assert (Find : forall which ref, keeps (find_l fetch fd (doc_l E fetch fd limit) which ref)).
  { intros which ref. unfold find_l. apply keeps_bind.
    - destruct fd as [|base]; [keep|]. intros s W. destruct (object_for ref (which s)); [exact W|]. revert s W.
      fold (@keeps unit (from_reference_l fetch (doc_l E fetch (UrlFinder base) limit) base ref)).
      destruct ref; cbn [from_reference_l]; keep. intros st W; exact W.
    - intros _ s W. destruct (object_for ref (which s)); exact W. }
  assert (Set_ : forall m, keeps (set_reader_l E fetch fd (doc_l E fetch fd limit) m)).
  { induction m as [t|tag attrs tx kids IHm] using node_ind'; cbn [set_reader_l]; [keep|]. rewrite Forall_forall in IHm.
    apply keeps_bind; [keep | intros a].
    destruct (String.eqb (get_local_part tag) "PolicySet"); cbn [negb]; [|apply keeps_fail].
    do 5 (apply keeps_bind; [keep | intros ?]). apply keeps_bind; [|intros _; pose proof keeps_add_set; keep].
    assert (Sub : forall c, In c kids -> In c kids) by auto. revert Sub. generalize kids at 1 3 as ks.
    induction ks as [|k ks IHks]; intros Sub; [keep|].
    specialize (IHks (fun c I => Sub c (or_intror I))). pose proof (IHm k (Sub k (or_introl eq_refl))) as IHk.
    destruct k as [t ats txt sub|t]; [|exact IHks].
    apply keeps_bind; [|intros _; exact IHks].
    pose proof (keeps_description a). pose proof keeps_defaults. pose proof keeps_target. pose proof keeps_policy_reg.
    keep; apply Find. }
  pose proof keeps_policy_reg. keep.
Qed.
End Typed.

Lemma grown_fit : forall cm s, grown cm s -> fit cm s.
Proof.
  intros cm s G. induction G as [|s o G IH C|s E fetch fd limit n G IH Ec|s ops G IH|s G IH].
  - split; [split; [exact start_well_formed | exists []; reflexivity] | split; constructor].
  - destruct IH as ((W & M) & D). split; [|exact D].
    split; [exact (ostep_well_formed cm (ls_os s) o W C) | exact (made_step cm (ls_os s) o M)].
  - subst cm. apply keeps_doc; exact IH.
  - destruct IH as ((W & M) & D). split; [|exact D]. split; [exact W | apply made_more; exact M].
  - destruct IH as (W & D). split; [exact W | split; constructor].
Qed.
Lemma grown_well_formed : forall cm s, grown cm s -> well_formed (ls_heap s).
Proof. intros cm s G. apply grown_fit in G. apply G. Qed.

(** ** The name of what was read *)
Lemma bind_l_ok : forall A B (m : lm A) (k : A -> lm B) s v s', bind_l m k s = (Ok v, s') ->
  exists x s1, m s = (Ok x, s1) /\ k x s1 = (Ok v, s').
Proof. intros A B m k s v s' H. unfold bind_l in H. destruct (m s) as [[x|e] s1]; [eauto | discriminate]. Qed.

Lemma object_for_app : forall k d d', object_for k (d ++ d') = match object_for k d with Some v => Some v | None => object_for k d' end.
Proof. intros k d d'. induction d as [|[k' v] d IH]; cbn; [reflexivity|]. destruct (opt_eqb String.eqb k k'); [reflexivity | exact IH]. Qed.
Lemma opt_eqb_same : forall k : option string, opt_eqb String.eqb k k = true.
Proof. intros [k|]; cbn; [apply String.eqb_refl | reflexivity]. Qed.

Definition named (s : lstate) (v : pval) : Prop :=
  exists a w, v = PRef a /\
   ((get_attr (ls_heap s) a "policyId" = Ok w /\ object_for (key_of w) (ls_policies s) = Some v) \/
    (get_attr (ls_heap s) a "policySetId" = Ok w /\ object_for (key_of w) (ls_sets s) = Some v)).

Lemma add_policy_named : forall v s x s', add_policy_l v s = (Ok x, s') -> named s' v.
Proof.
  intros v s x s' H. destruct v as [| a | | | | |]; try discriminate H. cbn [add_policy_l] in H.
  apply bind_l_ok in H. destruct H as (w & s1 & G & H). unfold get_l in G. injection G as G <-.
  destruct (object_for (key_of w) (ls_policies s)) eqn:O; [discriminate|]. injection H as _ <-.
  exists a, w. split; [reflexivity|]. left. split; [exact G|]. cbn. rewrite object_for_app, O. cbn.
  rewrite opt_eqb_same. reflexivity.
Qed.
Lemma add_policy_set_named : forall v s x s', add_policy_set_l v s = (Ok x, s') -> named s' v.
Proof.
  intros v s x s' H. destruct v as [| a | | | | |]; try discriminate H. cbn [add_policy_set_l] in H.
  apply bind_l_ok in H. destruct H as (w & s1 & G & H). unfold get_l in G. injection G as G <-.
  destruct (object_for (key_of w) (ls_sets s)) eqn:O; [discriminate|]. injection H as _ <-.
  exists a, w. split; [reflexivity|]. right. split; [exact G|]. cbn. rewrite object_for_app, O. cbn.
  rewrite opt_eqb_same. reflexivity.
Qed.

(** the object returned is new and is what the finder holds under its name *)
Lemma doc_named : forall E fetch fd limit n s v s', same_map E s -> doc_l E fetch fd limit n s = (Ok v, s') ->
  named s' v /\ exists a, v = PRef a /\ length (ls_heap s) <= a.
Proof.
  intros E fetch fd [|limit] n s v s' SM H; cbn [doc_l] in H; [discriminate|].
  apply bind_l_ok in H. destruct H as (l & s1 & L & H). unfold lift_l in L. injection L as _ <-.
  destruct (String.eqb l "Policy").
  { unfold policy_reg_l in H. apply bind_l_ok in H. destruct H as (u & s1 & P & H).
    apply bind_l_ok in H. destruct H as (x & s2 & A & H). injection H as -> ->.
    split; [eapply add_policy_named; exact A|].
    pose proof (policy_ok E n s SM) as O. destruct O as [_ O]. rewrite P in O. cbn [fst snd] in O.
    destruct (read_policy E n) as [p|e]; [|discriminate]. destruct O as (v' & Ev & R). injection Ev as <-.
    assert (I : exists c a, instance (fresh (length (ls_heap s)) (ls_heap s1)) v c a) by (destruct R; eauto).
    destruct I as (c & a & -> & attrs & N). exists a. split; [reflexivity|].
    assert (ND : PInst c attrs <> hole) by discriminate. destruct (hide_inv _ _ _ _ N ND) as [Hl _].
    apply Nat.ltb_ge in Hl. exact Hl. }
  destruct (String.eqb l "PolicySet"); [|discriminate].
  destruct n as [tag attrs tx kids|t]; cbn [set_reader_l] in H; apply bind_l_ok in H; destruct H as (a & s1 & M & H); [|discriminate H].
  assert (a = length (ls_heap s)).
  { unfold make_l in M. destruct (do_l E (ONew KPolicySet) s) as [[y|e] s2]; [injection M as <- _; reflexivity | discriminate]. }
  subst a.
  destruct (negb (String.eqb (get_local_part tag) "PolicySet")); [discriminate H|].
  do 6 (apply bind_l_ok in H; destruct H as (? & ? & _ & H)).
  apply bind_l_ok in H. destruct H as (u9 & s9 & A & H). injection H as <- <-.
  split; [eapply add_policy_set_named; exact A | eauto].
Qed.

(** ** From outcomes to equations *)
Lemma finder_regs : forall (Linked : Prop) s st, finder_for s st -> (Linked -> members_held s) -> regs Linked (fun _ => false) s st.
Proof.
  intros Linked s st (A & B & C) D. assert (HS : hsub (ls_heap s) (hide (fun _ => false) (ls_heap s))).
  { intros a o N _. apply hide_some; [reflexivity | exact N]. }
  split; [eapply Forall2_holds; eassumption|]. split; [eapply Forall2_holds; eassumption|]. split; [exact C|].
  intros m k v I. eapply lists_mono; [apply more_refl | exact HS | exact (D m k v I)].
Qed.
Lemma regs_finder : forall (Linked : Prop) U s st, regs Linked U s st -> finder_for s st.
Proof.
  intros Linked U s st (A & B & C & _). pose proof (hide_hsub_all U (ls_heap s)) as HS.
  split; [eapply Forall2_holds; eassumption|]. split; [eapply Forall2_holds; eassumption | exact C].
Qed.
Lemma regs_members : forall U s st, regs True U s st -> members_held s.
Proof.
  intros U s st (_ & _ & _ & D) k v I. eapply lists_mono; [apply more_refl | apply hide_hsub_all | exact (D Logic.I k v I)].
Qed.
Lemma doc_later : forall E fetch fd limit n s st, same_map E s -> finder_for s st ->
  later E s (snd (doc_l E fetch fd limit n s)).
Proof.
  intros E fetch fd limit n s st SM F.
  apply (doc_ok E False fetch fd limit n (fun _ => false) st s SM); [intros x X; discriminate X | apply finder_regs; [exact F | intros []]].
Qed.
Lemma doc_loads : forall E fetch fd limit n s st, same_map E s -> finder_for s st ->
  match read_doc limit E fetch fd n st with
  | Ok (p, st') => exists v s', doc_l E fetch fd limit n s = (Ok v, s') /\ for_policy (ls_heap s') v p /\ finder_for s' st'
  | Raise e => exists s', doc_l E fetch fd limit n s = (Raise e, s')
  end.
Proof.
  intros E fetch fd limit n s st SM F.
  destruct (doc_ok E False fetch fd limit n (fun _ => false) st s SM) as [_ O]; [intros x X; discriminate X | apply finder_regs; [exact F | intros []]|].
  destruct (doc_l E fetch fd limit n s) as [r s']. cbn [fst snd] in O.
  destruct (read_doc limit E fetch fd n st) as [[p st']|e]; [|subst r; eauto].
  destruct O as (v & -> & P & _ & R). exists v, s'. split; [reflexivity|]. cbn [fst snd] in P, R.
  split; [eapply policy_mono; [apply hide_hsub_all | exact P] | eapply regs_finder; exact R].
Qed.
Lemma doc_fresh : forall E fetch fd limit n s F v s' p, same_map E s ->
  ls_policies s = [] -> ls_sets s = [] -> ls_fetched s = F ->
  doc_l E fetch fd limit n s = (Ok v, s') -> for_policy (ls_heap s') v p ->
  for_policy (fresh (length (ls_heap s)) (ls_heap s')) v p.
Proof.
  intros E fetch fd limit n s F v s' p SM P0 S0 F0 D P.
  destruct (doc_ok E False fetch fd limit n (fun a => Nat.ltb a (length (ls_heap s))) (mkFstate registry0 F) s SM) as [_ O].
  - intros x X. apply Nat.ltb_lt in X. exact X.
  - split; [|split; [|split]]; cbn; [rewrite P0; constructor | rewrite S0; constructor | exact F0 | intros []].
  - rewrite D in O. cbn [fst snd] in O. destruct (read_doc limit E fetch fd n _) as [[q st']|e]; [|discriminate].
    destruct O as (v' & Ev & Q & _). injection Ev as <-. cbn [fst] in Q.
    assert (q = p) by (eapply policy_unique; [eapply policy_mono; [apply hide_hsub_all | exact Q] | exact P]).
    subst q. exact Q.
Qed.

(** ** Members *)
Lemma doc_members : forall E fetch fd limit n s st v s', same_map E s -> finder_for s st -> members_held s ->
  doc_l E fetch fd limit n s = (Ok v, s') -> members_held s'.
Proof.
  intros E fetch fd limit n s st v s' SM F MH D.
  destruct (doc_ok E True fetch fd limit n (fun _ => false) st s SM) as [_ O];
    [intros x X; discriminate X | apply finder_regs; [exact F | intros _; exact MH]|].
  rewrite D in O. cbn [fst snd] in O. destruct (read_doc limit E fetch fd n st) as [[p st']|e]; [|discriminate].
  destruct O as (_ & _ & _ & _ & R). eapply regs_members; exact R.
Qed.

Lemma Forall2_nth : forall A B (R : A -> B -> Prop) xs ys, Forall2 R xs ys -> forall x, In x xs -> exists y, In y ys /\ R x y.
Proof. intros A B R xs ys F. induction F as [|x y xs ys Rxy F IH]; intros z []; [subst; eexists; split; [left; reflexivity | assumption]|]. destruct (IH z H) as (w & I & Rw). exists w. split; [right; exact I | exact Rw]. Qed.

(** In a finder, an object stands for one policy and is held under its name only. *)
Lemma held_holding : forall s K F v, finder_for s (mkFstate (holding K) F) -> held s v ->
  exists q, In q K /\ for_policy (ls_heap s) v q /\
    match q with
    | PPolicy m _ _ _ => In (pm_id m, v) (ls_policies s)
    | PPolicySet m _ _ _ => In (pm_id m, v) (ls_sets s)
    end.
Proof.
  intros s K F v (A & B & _) (k & [I|I]);
    [destruct (Forall2_nth _ _ _ _ _ A _ I) as ([k' q] & J & Kq & P) | destruct (Forall2_nth _ _ _ _ _ B _ I) as ([k' q] & J & Kq & P)];
    cbn in J, Kq, P; subst k'; apply in_map_iff in J; destruct J as (q' & [= Q1 Q2] & J); subst q' k;
    apply filter_In in J; destruct J as [J T]; exists q; (split; [exact J|]); (split; [exact P|]);
    destruct q; try discriminate T; exact I.
Qed.
Lemma NoDup_fst : forall A B (d : list (A * B)) k v w, NoDup (map fst d) -> In (k, v) d -> In (k, w) d -> v = w.
Proof.
  intros A B d k v w N. induction d as [|[k' x] d IH]; cbn in *; [intros []|]. inversion N as [|? ? N1 N2]; subst.
  intros [Q1|I] [Q2|J]; [congruence| | |exact (IH N2 I J)]; [injection Q1 as -> -> | injection Q2 as -> ->].
  - destruct N1. apply in_map_iff. exists (k, w). auto.
  - destruct N1. apply in_map_iff. exists (k, v). auto.
Qed.
Lemma one_object : forall s K F v w p q, NoDup (map fst (ls_policies s)) -> NoDup (map fst (ls_sets s)) ->
  finder_for s (mkFstate (holding K) F) -> held s v -> held s w ->
  for_policy (ls_heap s) v p -> for_policy (ls_heap s) w q -> name_of p = name_of q -> v = w.
Proof.
  intros s K F v w p q N1 N2 FF Hv Hw Pv Pw Q.
  destruct (held_holding _ _ _ _ FF Hv) as (p' & _ & Pv' & Iv). destruct (held_holding _ _ _ _ FF Hw) as (q' & _ & Pw' & Iw).
  assert (p' = p) by (eapply policy_unique; eassumption). assert (q' = q) by (eapply policy_unique; eassumption). subst.
  destruct p, q; cbn in Q; try discriminate Q; injection Q as Q; rewrite Q in Iv;
    [exact (NoDup_fst _ _ _ _ _ _ N1 Iv Iw) | exact (NoDup_fst _ _ _ _ _ _ N2 Iv Iw)].
Qed.
