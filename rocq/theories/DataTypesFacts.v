From Verif Require Import DataTypes SpecUtils SpecRead SpecFinderThreads SpecDataTypes ReadFacts ReadFacts3 UtilsFacts FuncMapFacts2.
From Verif Require Import EvalFacts.

Section Keep.
Context {A B : Type}.
Variable f : A -> option B.
Definition keep (m : list (string * A)) : list (string * B) :=
  flat_map (fun p => match f (snd p) with Some b => [(fst p, b)] | None => [] end) m.
Lemma keep_get : forall m k, (forall k' a, In (k', a) m -> f a <> None) ->
  dict_get k (keep m) = match dict_get k m with Some a => f a | None => None end.
Proof.
  intros m k. induction m as [|[k' a] m IH]; intros H; [reflexivity|]. cbn [keep flat_map fst snd].
  destruct (f a) as [b|] eqn:E; [|destruct (H k' a (or_introl eq_refl) E)]. cbn [app dict_get].
  destruct (String.eqb k k'); [symmetry; exact E|]. apply IH. intros k0 a0 Hi. apply (H k0 a0). right. exact Hi.
Qed.
End Keep.

Definition cls_of (c : candidate) : option avclass := match c with CAttrClass c => Some c | _ => None end.
Definition rd_of (r : reader_arg) : option dtreader := match r with RReader r => Some r | _ => None end.
Lemma env_keep : forall w, env_of w = mkRenv (keep cls_of (dt_classes w)) (keep rd_of (dt_readers w)) fm_new.
Proof.
  intros w. unfold env_of, keep. f_equal; apply flat_map_ext; intros [k a]; cbn [fst snd]; destruct a; reflexivity.
Qed.

Definition good (w : dtworld) : Prop :=
  (forall k c, In (k, c) (dt_classes w) -> cls_of c <> None) /\
  (forall k r, In (k, r) (dt_readers w) -> rd_of r <> None).

Lemma in_dict_set : forall V (k : string) (v : V) m k' v', In (k', v') (dict_set k v m) -> v' = v \/ In (k', v') m.
Proof.
  intros V k v m. induction m as [|[k0 v0] m IH]; intros k' v' H; cbn [dict_set] in H.
  - destruct H as [[= <- <-]|[]]. left. reflexivity.
  - destruct (String.eqb k k0).
    + destruct H as [[= <- <-]|H]; [left; reflexivity|right; right; exact H].
    + destruct H as [[= <- <-]|H]; [right; left; reflexivity|]. destruct (IH _ _ H) as [->|H']; [left; reflexivity|].
      right. right. exact H'.
Qed.

Definition class_of (w : dtworld) (dt : string) : option avclass :=
  match dict_get dt (dt_classes w) with Some c => cls_of c | None => None end.
Definition reader_of (w : dtworld) (dt : string) : option dtreader :=
  match dict_get dt (dt_readers w) with Some c => rd_of c | None => None end.

Lemma step_good : forall w o, good w -> good (snd (dt_step w o)) /\
  forall dt,
  class_of (snd (dt_step w o)) dt = class_after [o] dt (class_of w dt) /\
  reader_of (snd (dt_step w o)) dt = reader_after [o] dt (reader_of w dt).
Proof.
  intros w o [Hc Hr]. destruct o as [id c ov|id r]; cbn [dt_step].
  - rewrite add_class_spec.
    assert (Hno : good (mkDt (dt_classes w) (dt_readers w))) by (split; assumption).
    destruct id as [ |k| | | | | | ];
      try (destruct c; (split; [exact Hno|]); intros dt; split; reflexivity).
    destruct c as [cls|n|n]; try (split; [exact Hno|]; intros dt; split; reflexivity).
    cbn [snd]. split.
    + split; [|exact Hr]. cbn [dt_classes]. intros k' c' H.
      destruct (ov || negb (dict_mem k (dt_classes w)))%bool; [|exact (Hc _ _ H)].
      destruct (in_dict_set _ _ _ _ _ _ H) as [->|H']; [discriminate|exact (Hc _ _ H')].
    + intros dt. split; [|reflexivity]. unfold class_of at 1. cbn [dt_classes class_after].
      unfold class_of, dict_mem.
      destruct (dict_get k (dt_classes w)) as [old|] eqn:Eo.
      * cbn [negb]. rewrite orb_false_r. destruct ov.
        -- rewrite dict_get_set, (String.eqb_sym dt k). destruct (String.eqb_spec k dt) as [->|]; [|reflexivity].
           rewrite Eo. destruct (cls_of old); reflexivity.
        -- destruct (String.eqb_spec k dt) as [->|]; [|reflexivity]. rewrite Eo.
           pose proof Eo as Hi. apply dict_get_in in Hi. pose proof (Hc dt old Hi) as Hn. destruct (cls_of old); congruence.
      * cbn [negb]. rewrite orb_true_r, dict_get_set, (String.eqb_sym dt k).
        destruct (String.eqb_spec k dt) as [->|]; [|reflexivity]. rewrite Eo. reflexivity.
  - assert (Hno : good (mkDt (dt_classes w) (dt_readers w))) by (split; assumption).
    destruct id as [ |k| | | | | | ]; cbn [add_dtreader]; try (split; [exact Hno|]; intros dt; split; reflexivity).
    destruct r as [r|n|n]; try (split; [exact Hno|]; intros dt; split; reflexivity).
    cbn. split.
    + split; [exact Hc|]. cbn [dt_readers]. intros k' c' H.
      destruct (in_dict_set _ _ _ _ _ _ H) as [->|H']; [discriminate|exact (Hr _ _ H')].
    + intros dt. split; [reflexivity|]. unfold reader_of. cbn [dt_readers]. rewrite dict_get_set, (String.eqb_sym dt k).
      destruct (String.eqb k dt); reflexivity.
Qed.

Lemma class_after_cons : forall o os dt c, class_after (o :: os) dt c = class_after os dt (class_after [o] dt c).
Proof. intros [id c ov|id r] os dt cur; cbn [class_after]; [destruct id, c; reflexivity|reflexivity]. Qed.
Lemma reader_after_cons : forall o os dt c, reader_after (o :: os) dt c = reader_after os dt (reader_after [o] dt c).
Proof. intros [id c ov|id r] os dt cur; cbn [reader_after]; [reflexivity|destruct id, r; reflexivity]. Qed.

Lemma run_good : forall os w, good w -> good (dt_run os w) /\
  forall dt, class_of (dt_run os w) dt = class_after os dt (class_of w dt) /\
             reader_of (dt_run os w) dt = reader_after os dt (reader_of w dt).
Proof.
  intros os. induction os as [|o os IH]; intros w Hw; [split; [exact Hw|]; intros dt; split; reflexivity|].
  destruct (step_good w o Hw) as [Hg Hs]. destruct (IH _ Hg) as [Hg' Hs']. split; [exact Hg'|].
  intros dt. cbn [dt_run fold_left]. rewrite class_after_cons, reader_after_cons.
  destruct (Hs dt) as [E1 E2]. rewrite <- E1, <- E2. exact (Hs' dt).
Qed.

Lemma init_good : good dt_init.
Proof.
  split; intros k c H; unfold dt_init, class_map_init in H; cbn [dt_classes dt_readers] in H;
    apply in_map_iff in H; destruct H as (p & [= _ <-] & _); discriminate.
Qed.
Lemma init_class : forall dt, class_of dt_init dt = standard_class dt.
Proof.
  intros dt. unfold class_of, standard_class, dt_init, class_map_init. cbn [dt_classes].
  induction STD_CLASS_MAP as [|[k c] m IH]; [reflexivity|]. cbn [map fst snd dict_get].
  destruct (String.eqb dt k); [reflexivity|exact IH].
Qed.
Lemma init_reader : forall dt, reader_of dt_init dt = standard_reader dt.
Proof.
  intros dt. unfold reader_of, standard_reader, dt_init. cbn [dt_readers].
  assert (E : map (fun p : string * (string * ntype) => (fst (snd p), snd (snd p))) TYPE_TABLE = STANDARD_TYPES) by reflexivity.
  rewrite <- E. clear E. induction TYPE_TABLE as [|[k [u t]] m IH]; [reflexivity|].
  cbn [map fst snd dict_get]. destruct (String.eqb dt u); [reflexivity|exact IH].
Qed.

Lemma run_env : forall os dt,
  dict_get dt (re_cm (env_of (dt_run os dt_init))) = class_after os dt (standard_class dt) /\
  dict_get dt (re_readers (env_of (dt_run os dt_init))) = reader_after os dt (standard_reader dt).
Proof.
  intros os dt. destruct (run_good os dt_init init_good) as [[Hc Hr] H]. rewrite env_keep. cbn [re_cm re_readers].
  rewrite keep_get by exact Hc. rewrite keep_get by exact Hr. rewrite <- init_class, <- init_reader. exact (H dt).
Qed.

(** ** What reading depends on *)
Lemma inside_trans : forall a b c, inside a b -> inside b c -> inside a c.
Proof.
  intros a b c Hab Hbc. induction Hbc as [|n k Hk _ IH]; [exact Hab|]. exact (inside_kid a n k Hk IH).
Qed.
Section Agree.
Variables E E' : renv.
Hypothesis Hcm : re_cm E = re_cm E'.
Hypothesis Hfm : re_fmap E = re_fmap E'.

Definition agree (n : node) : Prop :=
  forall m dt, inside m n -> value_element m dt ->
  dict_get dt (re_readers E) = dict_get dt (re_readers E').

Lemma agree_kid : forall n k, agree n -> In k (elems n) -> agree k.
Proof. intros n k H Hk m dt Hi. apply H. exact (inside_kid m n k Hk Hi). Qed.

Lemma load_agree : forall id, load_fn E id = load_fn E' id.
Proof. intros id. unfold load_fn. rewrite Hcm, Hfm. reflexivity. Qed.

Lemma value_agree : forall n, agree n -> read_value E n = read_value E' n.
Proof.
  intros n H. unfold read_value. destruct (expect "AttributeValue" n) as [u|e] eqn:Ee; [|reflexivity]. cbn [bind].
  destruct (required n "DataType") as [dt|e] eqn:Er; [|reflexivity]. cbn [bind].
  rewrite Hcm, (H n dt (inside_self n)); [reflexivity|]. split.
  - apply expect_ok in Ee; [exact Ee|reflexivity].
  - apply required_ok in Er. exact Er.
Qed.

Lemma apply_agree_all : forall n, agree n ->
  read_apply E n = read_apply E' n /\ (forall k, In k (elems n) -> read_apply E k = read_apply E' k).
Proof.
  intros n. induction n as [t|tag attrs text kids IH] using node_ind'; intros H; [split; [reflexivity|intros k []]|].
  set (n := Elem tag attrs text kids) in *.
  assert (Hk : forall k, In k (elems n) ->
    read_apply E k = read_apply E' k /\ (forall k', In k' (elems k) -> read_apply E k' = read_apply E' k')).
  { intros k Hk. rewrite Forall_forall in IH. apply IH; [|exact (agree_kid n k H Hk)].
    apply filter_In in Hk. apply Hk. }
  split; [|intros k Hi; apply Hk, Hi].
  rewrite (read_apply_eq E n I), (read_apply_eq E' n I).
  destruct (negb _); [reflexivity|]. destruct (xml_attr "FunctionId" n) as [id|]; [|reflexivity].
  rewrite load_agree. destruct (load_fn E' id) as [f|e]; cbn [bind]; [|reflexivity].
  rewrite (mapM_ext_in _ _ (read_expr E) (read_expr E') (elems n)); [reflexivity|].
  intros k Hi. destruct (Hk k Hi) as [H1 H2]. unfold read_expr. rewrite H1.
  rewrite (value_agree k (agree_kid n k H Hi)).
  assert (Hc : read_condition E k = read_condition E' k).
  { destruct k as [t at_ x sub|t]; [|reflexivity]. cbn [read_condition]. f_equal. apply map_ext_in.
    intros c Hin. f_equal. destruct c as [ct ca cx cs|ct]; [|reflexivity]. apply H2. apply filter_In. split; [exact Hin|reflexivity]. }
  rewrite Hc. reflexivity.
Qed.
Lemma condition_agree : forall n, agree n -> read_condition E n = read_condition E' n.
Proof.
  intros n H. destruct n as [t at_ x sub|t]; [|reflexivity]. cbn [read_condition]. f_equal. apply map_ext_in.
  intros c Hin. f_equal. destruct c as [ct ca cx cs|ct]; [|reflexivity].
  apply (apply_agree_all (Elem t at_ x sub) H). apply filter_In. split; [exact Hin|reflexivity].
Qed.

Lemma match_agree : forall k n, agree n -> read_match E k n = read_match E' k n.
Proof.
  intros k n H. unfold read_match. rewrite elements_elems.
  assert (G : forall f m, foldM (match_child E k) (elems n) (mkMatch (Some m) (Some f) None None None) =
    foldM (match_child E' k) (elems n) (mkMatch (Some m) (Some f) None None None)).
  { intros f m. apply foldM_ext. intros acc0 x Hx. unfold match_child.
    rewrite (value_agree x (agree_kid n x H Hx)). reflexivity. }
  destruct k; try reflexivity;
    (destruct (expect _ n); cbn [bind]; [|reflexivity]); (destruct (required n "MatchId") as [id|]; cbn [bind]; [|reflexivity]); rewrite load_agree; (destruct (load_fn E' id); cbn [bind]; [|reflexivity]); apply G.
Qed.
Lemma child_agree : forall k n, agree n -> read_target_child E k n = read_target_child E' k n.
Proof.
  intros k n H. unfold read_target_child. rewrite elements_elems. destruct (expect _ n); cbn [bind]; [|reflexivity].
  apply foldM_ext. intros acc0 x Hx. rewrite (match_agree k x (agree_kid n x H Hx)). reflexivity.
Qed.
Lemma container_agree : forall k acc n, agree n -> read_container E k acc n = read_container E' k acc n.
Proof.
  intros k acc n H. unfold read_container. rewrite elements_elems.
  apply foldM_ext. intros acc0 x Hx. rewrite (child_agree k x (agree_kid n x H Hx)). reflexivity.
Qed.
Lemma target_agree : forall n, agree n -> read_target E n = read_target E' n.
Proof.
  intros n H. unfold read_target. rewrite elements_elems. destruct (expect _ n); cbn [bind]; [|reflexivity].
  apply foldM_ext. intros acc0 x Hx. rewrite !container_agree by exact (agree_kid n x H Hx). reflexivity.
Qed.
Lemma rule_agree : forall n, agree n -> read_rule E n = read_rule E' n.
Proof.
  intros n H. unfold read_rule. rewrite elements_elems. destruct (expect _ n); cbn [bind]; [|reflexivity].
  destruct (required n "RuleId"); cbn [bind]; [|reflexivity]. destruct (required n "Effect") as [ef|]; cbn [bind]; [|reflexivity].
  destruct (effect_of ef); cbn [bind]; [|reflexivity].
  apply foldM_ext. intros acc0 x Hx. rewrite condition_agree, target_agree by exact (agree_kid n x H Hx). reflexivity.
Qed.
Lemma policy_agree : forall n, agree n -> read_policy E n = read_policy E' n.
Proof.
  intros n H. unfold read_policy. rewrite elements_elems.
  rewrite (foldM_ext _ _ (policy_child E) (policy_child E') (elems n)); [reflexivity|].
  intros acc0 x Hx. unfold policy_child. rewrite target_agree, rule_agree by exact (agree_kid n x H Hx). reflexivity.
Qed.

(** Documents with references *)
Variable fetch : string -> res node.
Variable fd : finder.
Definition agree_docs (n : node) : Prop := forall d, reaches fetch fd n d -> agree d.

Section Nested.
Variables f g : node -> fstate -> res (policybase * fstate).
Hypothesis Hfg : forall d st, agree_docs d -> f d st = g d st.
Variable d : node.
Hypothesis Hd : agree_docs d.

Lemma reach_trans : forall a b c, reaches fetch fd a b -> reaches fetch fd b c -> reaches fetch fd a c.
Proof.
  intros a b c Hab Hbc. induction Hbc as [|base d1 m r url d' _ IH Hi Hw Hfd Hx Hu Hf]; [exact Hab|].
  exact (reach_ref fetch fd a base d1 m r url d' IH Hi Hw Hfd Hx Hu Hf).
Qed.

Lemma find_agree : forall m st, inside m d -> wanted m <> None ->
  find_policy fetch fd f (el_text m) st = find_policy fetch fd g (el_text m) st /\
  find_policy_set fetch fd f (el_text m) st = find_policy_set fetch fd g (el_text m) st.
Proof.
  intros m st Hi Hw.
  assert (G : forall base, fd = UrlFinder base -> find_from_reference fetch f base (el_text m) st =
                             find_from_reference fetch g base (el_text m) st).
  { intros base Efd. unfold find_from_reference. destruct (el_text m) as [r|] eqn:Er; [|reflexivity].
    destruct (make_url base r) as [url|] eqn:Eu; [|reflexivity]. cbn [bind].
    destruct (fetch url) as [d'|] eqn:Ef; [|reflexivity]. cbn [bind]. rewrite Hfg; [reflexivity|].
    intros d2 H2. apply Hd. apply (reach_trans d d' d2); [|exact H2].
    apply (reach_ref fetch fd d base d m r url d' (reach_self _ _ _) Hi Hw Efd); [|exact Eu|exact Ef].
    destruct m as [t a x k|t]; [exact Er|]. destruct Hw. reflexivity. }
  unfold find_policy, find_policy_set. destruct fd as [|base] eqn:Efd; [split; reflexivity|].
  rewrite (G base eq_refl). split; reflexivity.
Qed.

Lemma set_agree : forall n, inside n d -> forall st, read_set E fetch fd f n st = read_set E' fetch fd g n st.
Proof.
  intros n. induction n as [t|tag attrs text kids IH] using node_ind'; intros Hi st; [reflexivity|].
  set (n := Elem tag attrs text kids) in *.
  rewrite (read_set_eq E fetch fd f n st I), (read_set_eq E' fetch fd g n st I).
  destruct (negb _); [reflexivity|].
  destruct (required n "PolicySetId"); cbn [bind]; [|reflexivity].
  destruct (required n "PolicyCombiningAlgId") as [ai|]; cbn [bind]; [|reflexivity].
  destruct (policy_alg_of ai); cbn [bind]; [|reflexivity].
  rewrite (foldM_ext _ _ (set_step E fetch fd f) (set_step E' fetch fd g) (elems n)); [reflexivity|].
  intros [sa st0] k Hk. unfold set_step.
  assert (Hik : inside k d).
  { exact (inside_trans k n d (inside_kid k n k Hk (inside_self k)) Hi). }
  assert (Hak : agree k).
  { intros m dt Hm. apply (Hd d (reach_self _ _ _)). exact (inside_trans m k d Hm Hik). }
  rewrite (target_agree k Hak).
  assert (Hreg : read_policy_reg E k st0 = read_policy_reg E' k st0).
  { unfold read_policy_reg. rewrite (policy_agree k Hak). reflexivity. }
  rewrite Hreg.
  assert (Hset : read_set E fetch fd f k st0 = read_set E' fetch fd g k st0).
  { rewrite Forall_forall in IH. apply IH; [|exact Hik]. apply filter_In in Hk. apply Hk. }
  rewrite Hset.
  assert (He : is_elem k) by exact (elems_is n k Hk).
  destruct (String.eqb (ln k) "PolicyIdReference") eqn:E1.
  { rewrite (proj1 (find_agree k st0 Hik ltac:(rewrite wanted_ln by exact He; rewrite E1; discriminate))).
    reflexivity. }
  destruct (String.eqb (ln k) "PolicySetIdReference") eqn:E2; [|reflexivity].
  rewrite (proj2 (find_agree k st0 Hik ltac:(rewrite wanted_ln by exact He; rewrite E1, E2; discriminate))).
  reflexivity.
Qed.
End Nested.

Lemma doc_agree : forall limit d st, agree_docs d ->
  read_doc limit E fetch fd d st = read_doc limit E' fetch fd d st.
Proof.
  intros limit. induction limit as [|limit IH]; intros d st Hd; [reflexivity|]. cbn [read_doc].
  destruct (local_name d) as [l|]; cbn [bind]; [|reflexivity]. destruct (String.eqb l "Policy").
  - unfold read_policy_reg. rewrite (policy_agree d (Hd d (reach_self _ _ _))). reflexivity.
  - destruct (String.eqb l "PolicySet"); [|reflexivity].
    exact (set_agree _ _ IH d Hd d (inside_self d) st).
Qed.
End Agree.
