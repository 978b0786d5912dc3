(** Reading leaves exactly what [left_by] says. *)
From Verif Require Import Readers Sources SpecText SpecSetters SpecRead SpecLeft.
From Verif Require Import EvalFacts StringFacts SettersFacts TextFacts ReadFacts ReadFacts2 ReadFacts3 ReadFacts4
  SourcesFacts InterruptsFacts RefusalsFacts RefusalsFacts2 RefusalsFacts4 LeftFacts.
Local Open Scope string_scope.
Local Open Scope list_scope.

Section Left.
Variable E : renv.
Hypothesis HE : default_readers E.
Variable fetch : string -> res node.
Variable fd : finder.
Notation reads := (reads E fetch fd).
Notation reads_members := (reads_members E fetch fd).
Notation reads_member := (reads_member E fetch fd).
Notation left_by := (left_by E fetch fd).
Notation left_at := (left_at E fetch fd).
Notation at_ K F := (mkFstate (holding K) F).
Ltac case_name n s := destruct (String.eqb_spec (ln n) s) as [?Hn|?Hn].
Ltac named := apply called_is; [reflexivity|assumption|assumption].

Definition lefts (f : node -> SM policybase) : Prop := forall d K F e st',
  f d (at_ K F) = (Raise e, st') -> e = ERecursionError \/ exists K1 F1, st' = at_ K1 F1 /\ left_by d K K1.

Lemma members_snoc : forall ks k K K0 U ps K1 V p, reads_members ks K K0 U ps -> reads_member k K0 K1 V p ->
  exists W, reads_members (ks ++ [k]) K K1 W (ps ++ [p]).
Proof.
  induction ks as [|x ks IH]; intros k K K0 U ps K1 V p H Hk.
  - inversion H; subst. eexists. eapply reads_more; [exact Hk|constructor].
  - apply members_one in H. destruct H as (L & U1 & U2 & q & ps' & H1 & H2 & ->).
    destruct (IH k L K0 U2 ps' K1 V p H2 Hk) as (W & HW). eexists. eapply reads_more; eassumption.
Qed.

Lemma policy_out : forall n K F r st', called "Policy" n = true -> read_policy_s E n (at_ K F) = (r, st') ->
  match r with
  | Ok p => reads n K (K ++ [p]) [] p /\ st' = at_ (K ++ [p]) F
  | Raise e => st' = at_ K F /\ left_by n K K
  end.
Proof.
  intros n K F r st' Hc H. pose proof (agree_policy E n (at_ K F)) as A.
  destruct (read_policy_reg E n (at_ K F)) as [[p st1]|e] eqn:R; rewrite H in A.
  - injection A as -> ->. apply policy_reg_iff in R; [|exact HE]. destruct R as (Hd & Hf & ->).
    split; [apply reads_policy; assumption|reflexivity].
  - cbn [fst] in A. subst r. split.
    + unfold read_policy_s, sbind, slift, register_s in H. destruct (read_policy E n) as [p|e1]; [|congruence].
      destruct (add_policy (fs_reg (at_ K F)) p); congruence.
    + apply left_nothing.
      * intros [Hs _]. exact (policy_set_differ n Hc Hs).
      * intros K' U p Hr. destruct (reads_kind E fetch fd _ _ _ _ _ Hr) as [Hs|(_ & Hd & Hf & _ & _)]; [exact (policy_set_differ n Hc Hs)|].
        assert (X : read_policy_reg E n (at_ K F) = Ok (p, at_ (K ++ [p]) F)) by (apply policy_reg_iff; auto). congruence.
Qed.

Section Nested.
Variable nested_s : node -> SM policybase.
Variable nested : node -> fstate -> res (policybase * fstate).
Hypothesis Ha : forall n, agree (nested_s n) (nested n).
Hypothesis Hs : sound E fetch fd nested.
Hypothesis Hl : lefts nested_s.

Lemma nested_ok : forall d K F p st', nested_s d (at_ K F) = (Ok p, st') ->
  exists K' U, reads d K K' U p /\ st' = at_ K' (F ++ U).
Proof.
  intros d K F p st' H. specialize (Ha d (at_ K F)). destruct (nested d (at_ K F)) as [[q st1]|e] eqn:R; rewrite H in Ha.
  - injection Ha as -> ->. exact (Hs _ _ _ _ _ R).
  - discriminate Ha.
Qed.

Lemma find_out : forall k x map_of K F r st', wanted k = Some x ->
  (forall L, key_get (xml_text k) (map_of (holding L)) = lookup x L) ->
  find_s fetch fd nested_s map_of (xml_text k) (at_ K F) = (r, st') ->
  match r with
  | Ok p => exists K1 U, reads_member k K K1 U p /\ st' = at_ K1 (F ++ U)
  | Raise e => e = ERecursionError \/ exists K1 F1, st' = at_ K1 F1 /\ left_at k K K1
  end.
Proof.
  intros k x map_of K F r st' Hw Hm H. unfold find_s in H.
  assert (fd = LocalFinder \/ exists base, fd = UrlFinder base) as [Hfd|[base Hfd]]
    by (destruct fd as [|base]; [left; reflexivity|right; exists base; reflexivity]); rewrite Hfd in H.
  - cbn [fs_reg] in H. rewrite Hm in H. destruct (lookup x K) as [p|] eqn:El; injection H as <- <-.
    + apply lookup_some in El. destruct El as [Hi Hn]. exists K, []. rewrite app_nil_r. split; [|reflexivity].
      apply reads_known; [congruence|exact Hi].
    + right. exists K, F. split; [reflexivity|]. eapply at_nowhere; [exact Hw|apply lookup_none, El|]. congruence.
  - unfold sbind at 1 in H. cbn [fs_reg] in H. rewrite Hm in H. destruct (lookup x K) as [p|] eqn:El.
    { cbn [fs_reg] in H. rewrite Hm, El in H. injection H as <- <-.
      apply lookup_some in El. destruct El as [Hi Hn]. exists K, []. rewrite app_nil_r. split; [|reflexivity].
      apply reads_known; [congruence|exact Hi]. }
    apply lookup_none in El. unfold find_from_reference_s in H. destruct (xml_text k) as [ref|] eqn:Ht.
    2:{ injection H as <- <-. right. exists K, F. split; [reflexivity|]. eapply at_nowhere; [exact Hw|exact El|]. congruence. }
    unfold sbind, slift in H. destruct (make_url base ref) as [url|e] eqn:Hu.
    2:{ injection H as <- <-. right. exists K, F. split; [reflexivity|]. eapply at_nowhere; [exact Hw|exact El|].
        intros b r u d Q0 Q1 Q2. rewrite Hfd in Q0. injection Q0 as <-. congruence. }
    cbn [fs_reg fs_fetched] in H. destruct (fetch url) as [d|e] eqn:Hd.
    2:{ injection H as <- <-. right. eexists K, _. split; [reflexivity|]. eapply at_nowhere; [exact Hw|exact El|].
        intros b r u d Q0 Q1 Q2. rewrite Hfd in Q0. injection Q0 as <-. congruence. }
    destruct (nested_s d (at_ K (F ++ [url]))) as [[q|e] st1] eqn:Hq.
    + apply nested_ok in Hq. destruct Hq as (K1 & U & Hr & ->). cbn [fs_reg] in H. rewrite Hm in H.
      destruct (lookup x K1) as [p|] eqn:E1; injection H as <- <-.
      * apply lookup_some in E1. destruct E1 as [Hi Hn]. subst x. exists K1, (url :: U). split; [|rewrite <- app_assoc; reflexivity].
        eapply reads_fetched; eassumption.
      * right. eexists K1, _. split; [reflexivity|]. apply lookup_none in E1. eapply at_missing; eassumption.
    + injection H as <- <-. apply Hl in Hq. destruct Hq as [->|(K1 & F1 & -> & Hq)]; [left; reflexivity|right].
      exists K1, F1. split; [reflexivity|]. eapply at_document; eassumption.
Qed.
Lemma set_ok : forall n K F p st', called "PolicySet" n = true ->
  read_set_s E fetch fd nested_s n (at_ K F) = (Ok p, st') -> exists K' U, reads n K K' U p /\ st' = at_ K' (F ++ U).
Proof.
  intros n K F p st' Hc H. pose proof (agree_set E fetch fd nested_s nested Ha n (at_ K F)) as A.
  destruct (read_set E fetch fd nested n (at_ K F)) as [[q st1]|e] eqn:R; rewrite H in A.
  - injection A as -> ->. exact (set_sound E HE fetch fd nested Hs n (called_elem _ _ Hc) _ _ _ _ R).
  - discriminate A.
Qed.

(** One child of a policy set element *)
Definition step_s (k : node) (a : sacc) : SM sacc :=
  let l := ln k in
  if String.eqb l "Description" then
    slift (Ok (mkSacc (description_of k (sc_description a)) (sc_target a) (sc_policies a)))
  else if String.eqb l "PolicySetDefaults" then slift (let* _ := read_defaults k in Raise EAttributeError)
  else if String.eqb l "Target" then
    slift (let* t := read_target E k in Ok (mkSacc (sc_description a) (Some t) (sc_policies a)))
  else if String.eqb l "CombinerParameters" then slift (Raise ENotImplementedError)
  else if String.eqb l "PolicyCombinerParameters" then slift (Raise ENotImplementedError)
  else if String.eqb l "PolicySetCombinerParameters" then slift (Raise ENotImplementedError)
  else if String.eqb l "VariableDefinition" then slift (Raise EImportError)
  else if String.eqb l "Policy" then let! p := read_policy_s E k in slift (Ok (sacc_add a p))
  else if String.eqb l "PolicyIdReference" then
    let! p := find_s fetch fd nested_s rg_policies (el_text k) in slift (Ok (sacc_add a p))
  else if String.eqb l "PolicySet" then let! p := read_set_s E fetch fd nested_s k in slift (Ok (sacc_add a p))
  else if String.eqb l "PolicySetIdReference" then
    let! p := find_s fetch fd nested_s rg_sets (el_text k) in slift (Ok (sacc_add a p))
  else if String.eqb l "Obligations" then slift (Raise ENotImplementedError)
  else slift (Raise EXMLParseError).
Fixpoint steps_s (ks : list node) (a : sacc) : SM sacc :=
  match ks with
  | [] => slift (Ok a)
  | Comment _ :: rest => steps_s rest a
  | k :: rest => let! a' := step_s k a in steps_s rest a'
  end.
Definition end_s (n : node) (id algId : string) alg (a : sacc) : SM policybase :=
  let p := PPolicySet (mkMeta (Some id) (Some (version_of n)) (Some algId) (sc_description a) None)
             (sc_target a) (Some alg) (sc_policies a) in
  let! _ := register_s add_policy_set p in slift (Ok p).

Lemma bind_ext : forall A B (m m' : SM A) (f g : A -> SM B) st, (forall s, m s = m' s) ->
  (forall a s, f a s = g a s) -> sbind m f st = sbind m' g st.
Proof. intros A B m m' f g st H1 H2. unfold sbind. rewrite H1. destruct (m' st) as [[a|e] s]; [apply H2|reflexivity]. Qed.
Lemma set_unfold : forall tag attrs text kids st, let n := Elem tag attrs text kids in
  read_set_s E fetch fd nested_s n st =
  (if negb (String.eqb (get_local_part tag) "PolicySet") then slift (Raise EXMLParseError)
  else let! id := slift (required n "PolicySetId") in
       let! algId := slift (required n "PolicyCombiningAlgId") in
       let! alg := slift (policy_alg_of algId) in
       let! a := steps_s kids (mkSacc None None []) in end_s n id algId alg a) st.
Proof.
  intros tag attrs text kids st n. unfold n at 1. cbn [read_set_s]. fold n.
  destruct (negb (String.eqb (get_local_part tag) "PolicySet")); [reflexivity|].
  do 3 (apply bind_ext; [reflexivity|intros ? ?]). apply bind_ext; [|reflexivity]. intros s9. generalize (mkSacc None None []). revert s9.
  clear. induction kids as [|k ks IH]; intros s a1; [reflexivity|]. destruct k as [t a' x kk|t]; [|apply IH].
  cbn [steps_s]. apply bind_ext; [reflexivity|]. intros a2 s2. apply IH.
Qed.

Lemma bind_out : forall A B (m : SM A) (f : A -> SM B) st r st', sbind m f st = (r, st') ->
  (exists a st1, m st = (Ok a, st1) /\ f a st1 = (r, st')) \/ (exists e, m st = (Raise e, st') /\ r = Raise e).
Proof.
  intros A B m f st r st' H. unfold sbind in H. destruct (m st) as [[a|e] st1]; [left; eauto|right].
  injection H as <- <-. eauto.
Qed.
Lemma stands_ln : forall k, is_elem k -> In (ln k) ["Policy"; "PolicySet"; "PolicyIdReference"; "PolicySetIdReference"] ->
  stands k = true.
Proof.
  intros k He H. rewrite stands_member, member_at by exact He. destruct H as [<-|[<-|[<-|[<-|[]]]]]; reflexivity.
Qed.
Lemma other_ln : forall k K, is_elem k -> ~ In (ln k) ["Policy"; "PolicySet"; "PolicyIdReference"; "PolicySetIdReference"; "Description"; "Target"] ->
  left_at k K K.
Proof.
  intros k K He H. apply at_other.
  - rewrite stands_member, member_at by exact He. cbn [In] in H.
    repeat match goal with |- context [String.eqb ?a ?b] => destruct (String.eqb_spec a b); [exfalso; apply H; auto 8|] end. reflexivity.
  - intros [Hd|[Ht _]].
    + apply (ln_is "Description" k eq_refl) in Hd. apply H. rewrite Hd. cbn. auto 8.
    + apply (ln_is "Target" k eq_refl) in Ht. apply H. rewrite Ht. cbn. auto 8.
Qed.

Lemma step_out : forall k a K F r st', is_elem k ->
  (called "PolicySet" k = true -> forall L G e st1, read_set_s E fetch fd nested_s k (at_ L G) = (Raise e, st1) ->
     e = ERecursionError \/ exists K1 F1, st1 = at_ K1 F1 /\ left_by k L K1) ->
  step_s k a (at_ K F) = (r, st') ->
  match r with
  | Ok _ => exists K1 F1, st' = at_ K1 F1 /\
      (stands k = true /\ (exists U p, reads_member k K K1 U p) \/ stands k = false /\ in_order E k /\ K1 = K)
  | Raise e => e = ERecursionError \/ exists K1 F1, st' = at_ K1 F1 /\ left_at k K K1
  end.
Proof.
  intros k a K F r st' He IH H.
  assert (Same : forall e, r = Raise e -> st' = at_ K F ->
    ~ In (ln k) ["Policy"; "PolicySet"; "PolicyIdReference"; "PolicySetIdReference"; "Description"; "Target"] ->
    match r with
    | Ok _ => exists K1 F1, st' = at_ K1 F1 /\
        (stands k = true /\ (exists U p, reads_member k K K1 U p) \/ stands k = false /\ in_order E k /\ K1 = K)
    | Raise e => e = ERecursionError \/ exists K1 F1, st' = at_ K1 F1 /\ left_at k K K1
    end).
  { intros e -> -> N. right. exists K, F. split; [reflexivity|apply other_ln; assumption]. }
  assert (Other : forall e, slift (@Raise sacc e) (at_ K F) = (r, st') ->
    ~ In (ln k) ["Policy"; "PolicySet"; "PolicyIdReference"; "PolicySetIdReference"; "Description"; "Target"] ->
    match r with
    | Ok _ => exists K1 F1, st' = at_ K1 F1 /\
        (stands k = true /\ (exists U p, reads_member k K K1 U p) \/ stands k = false /\ in_order E k /\ K1 = K)
    | Raise e => e = ERecursionError \/ exists K1 F1, st' = at_ K1 F1 /\ left_at k K K1
    end).
  { intros e Q N. injection Q as Q1 Q2. apply (Same e); [symmetry; exact Q1|symmetry; exact Q2|exact N]. }
  assert (NS : forall s, ln k = s -> s = "Description" \/ s = "Target" -> stands k = false).
  { intros s Hsn [-> | ->]; rewrite stands_member, member_at, Hsn by exact He; reflexivity. }
  unfold step_s in H. cbv zeta in H.
  case_name k "Description".
  { injection H as <- <-. exists K, F. split; [reflexivity|right]. split; [exact (NS _ Hn (or_introl eq_refl))|].
    split; [left; named|reflexivity]. }
  case_name k "PolicySetDefaults".
  { apply (Same (match r with Raise e => e | Ok _ => ERecursionError end));
      [unfold slift in H; destruct (read_defaults k); cbn [bind] in H; injection H as <- _; reflexivity
      |unfold slift in H; congruence|cbn [In]; rewrite Hn0; intuition discriminate]. }
  case_name k "Target".
  { unfold slift in H. destruct (read_target E k) as [t|e] eqn:Et; cbn [bind] in H; injection H as <- <-.
    - exists K, F. split; [reflexivity|right]. split; [exact (NS _ Hn1 (or_intror eq_refl))|]. split; [|reflexivity].
      right. split; [named|]. exists t. apply read_target_iff; [exact HE|exact Et].
    - right. exists K, F. split; [reflexivity|]. apply at_other; [exact (NS _ Hn1 (or_intror eq_refl))|].
      intros [Hd|[_ (t & Ht)]]; [apply (ln_is "Description" k eq_refl) in Hd; congruence|].
      apply read_target_iff in Ht; [congruence|exact HE]. }
  case_name k "CombinerParameters"; [apply (Other _ H); cbn [In]; rewrite Hn2; intuition discriminate|].
  case_name k "PolicyCombinerParameters"; [apply (Other _ H); cbn [In]; rewrite Hn3; intuition discriminate|].
  case_name k "PolicySetCombinerParameters"; [apply (Other _ H); cbn [In]; rewrite Hn4; intuition discriminate|].
  case_name k "VariableDefinition"; [apply (Other _ H); cbn [In]; rewrite Hn5; intuition discriminate|].
  case_name k "Policy".
  { assert (S : stands k = true) by (apply stands_ln; [exact He|rewrite Hn6; cbn; auto]).
    assert (W : wanted k = None) by (rewrite wanted_ln, Hn6 by exact He; reflexivity).
    apply bind_out in H. destruct H as [(p & st1 & H & H2)|(e & H & ->)]; apply policy_out in H; try named.
    - injection H2 as <- <-. destruct H as [Hr ->]. eexists _, _. split; [reflexivity|left]. split; [exact S|].
      eexists _, _. apply reads_inline; eassumption.
    - destruct H as [-> H]. right. exists K, F. split; [reflexivity|]. apply at_written; assumption. }
  case_name k "PolicyIdReference".
  { assert (S : stands k = true) by (apply stands_ln; [exact He|rewrite Hn7; cbn; auto]).
    assert (W : wanted k = Some (PolicyName (xml_text k))) by (rewrite wanted_ln, Hn7 by exact He; reflexivity).
    rewrite text_get in H by exact He.
    apply bind_out in H. destruct H as [(p & st1 & H & H2)|(e & H & ->)];
      apply (find_out k _ rg_policies K F _ _ W (fun L => eq_refl)) in H.
    - injection H2 as <- <-. destruct H as (K1 & U & Hr & ->). eexists _, _. split; [reflexivity|left]. eauto.
    - exact H. }
  case_name k "PolicySet".
  { assert (S : stands k = true) by (apply stands_ln; [exact He|rewrite Hn8; cbn; auto]).
    assert (W : wanted k = None) by (rewrite wanted_ln, Hn8 by exact He; reflexivity).
    assert (C : called "PolicySet" k = true) by named.
    apply bind_out in H. destruct H as [(p & st1 & H & H2)|(e & H & ->)].
    - injection H2 as <- <-. apply (set_ok _ _ _ _ _ C) in H. destruct H as (K1 & U & Hr & ->).
      eexists _, _. split; [reflexivity|left]. split; [exact S|]. eexists _, _. apply reads_inline; eassumption.
    - destruct (IH C _ _ _ _ H) as [->|(K1 & F1 & -> & Hk)]; [left; reflexivity|right].
      exists K1, F1. split; [reflexivity|]. apply at_written; assumption. }
  case_name k "PolicySetIdReference".
  { assert (S : stands k = true) by (apply stands_ln; [exact He|rewrite Hn9; cbn; auto]).
    assert (W : wanted k = Some (SetName (xml_text k))) by (rewrite wanted_ln, Hn9 by exact He; reflexivity).
    rewrite text_get in H by exact He.
    apply bind_out in H. destruct H as [(p & st1 & H & H2)|(e & H & ->)];
      apply (find_out k _ rg_sets K F _ _ W (fun L => eq_refl)) in H.
    - injection H2 as <- <-. destruct H as (K1 & U & Hr & ->). eexists _, _. split; [reflexivity|left]. eauto.
    - exact H. }
  case_name k "Obligations"; [apply (Other _ H); cbn [In]; rewrite Hn10; intuition discriminate|].
  apply (Other _ H). cbn [In]. intuition congruence.
Qed.

Lemma steps_out : forall n K ks before K0 F0 U ps a r st', set_begun n ->
  (forall k, In k (elems n) -> called "PolicySet" k = true -> forall L G e st1, read_set_s E fetch fd nested_s k (at_ L G) = (Raise e, st1) ->
     e = ERecursionError \/ exists K1 F1, st1 = at_ K1 F1 /\ left_by k L K1) ->
  elems n = before ++ filter (fun k => match k with Elem _ _ _ _ => true | Comment _ => false end) ks ->
  (forall x, In x before -> stands x = true \/ in_order E x) ->
  reads_members (filter stands before) K K0 U ps ->
  steps_s ks a (at_ K0 F0) = (r, st') ->
  match r with
  | Ok _ => (forall x, In x (elems n) -> stands x = true \/ in_order E x) /\
      exists K1 F1 V qs, st' = at_ K1 F1 /\ reads_members (members n) K K1 V qs
  | Raise e => e = ERecursionError \/ exists K1 F1, st' = at_ K1 F1 /\ left_by n K K1
  end.
Proof.
  intros n K. induction ks as [|k ks IHk]; intros before K0 F0 U ps a r st' B IH Hel Ho Hr H.
  - injection H as <- <-. cbn [filter] in Hel. rewrite app_nil_r in Hel. split; [rewrite Hel; exact Ho|].
    exists K0, F0, U, ps. split; [reflexivity|]. change (members n) with (filter stands (elems n)). rewrite Hel. exact Hr.
  - destruct k as [t at' x kk|t]; [|exact (IHk _ _ _ _ _ _ _ _ B IH Hel Ho Hr H)].
    cbn [filter] in Hel. cbn [steps_s] in H. set (k := Elem t at' x kk) in *.
    assert (He : is_elem k) by exact I.
    assert (Hk : In k (elems n)) by (rewrite Hel; apply in_or_app; right; left; reflexivity). clearbody k.
    apply bind_out in H. destruct H as [(a' & st1 & H & H2)|(e & H & ->)];
      apply (step_out k a K0 F0 _ _ He (IH k Hk)) in H.
    + destruct H as (K1 & F1 & -> & H).
      assert (Hel' : elems n = (before ++ [k]) ++ filter (fun k => match k with Elem _ _ _ _ => true | Comment _ => false end) ks)
        by (rewrite <- app_assoc; exact Hel).
      destruct H as [(S & V & p & Hm)|(S & O & ->)].
      * destruct (members_snoc _ _ _ _ _ _ _ _ _ Hr Hm) as (W & HW).
        apply (IHk (before ++ [k]) K1 F1 W (ps ++ [p]) a' r st' B IH Hel'); [| |exact H2].
        -- intros y Hy. apply in_app_or in Hy. destruct Hy as [Hy|[<-|[]]]; [exact (Ho y Hy)|left; exact S].
        -- rewrite filter_app. cbn [filter]. rewrite S. exact HW.
      * apply (IHk (before ++ [k]) K0 F1 U ps a' r st' B IH Hel'); [| |exact H2].
        -- intros y Hy. apply in_app_or in Hy. destruct Hy as [Hy|[<-|[]]]; [exact (Ho y Hy)|right; exact O].
        -- rewrite filter_app. cbn [filter]. rewrite S, app_nil_r. exact Hr.
    + destruct H as [->|(K1 & F1 & -> & H)]; [left; reflexivity|right]. exists K1, F1. split; [reflexivity|].
      eapply left_child; eassumption.
Qed.

Lemma set_left : forall n, called "PolicySet" n = true -> forall K F e st',
  read_set_s E fetch fd nested_s n (at_ K F) = (Raise e, st') ->
  e = ERecursionError \/ exists K1 F1, st' = at_ K1 F1 /\ left_by n K K1.
Proof.
  induction n as [t|tag at' tx kids IH] using node_ind'; intros Hc; [discriminate Hc|]. intros K F e st' H.
  pose proof (set_unfold tag at' tx kids (at_ K F)) as Q. cbv zeta in Q. rewrite Q in H. clear Q.
  assert (Hel : elems (Elem tag at' tx kids) = [] ++ filter (fun k => match k with Elem _ _ _ _ => true | Comment _ => false end) kids) by reflexivity.
  assert (IH' : forall k, In k (elems (Elem tag at' tx kids)) -> called "PolicySet" k = true -> forall L G e st1, read_set_s E fetch fd nested_s k (at_ L G) = (Raise e, st1) ->
     e = ERecursionError \/ exists K1 F1, st1 = at_ K1 F1 /\ left_by k L K1).
  { intros k Hk. rewrite Forall_forall in IH. apply IH. apply filter_In in Hk. apply Hk. }
  clear IH. pose proof (ln_is "PolicySet" _ eq_refl Hc) as Hln. cbn [ln] in Hln. rewrite Hln in H.
  change (negb (String.eqb "PolicySet" "PolicySet")) with false in H. cbv iota in H.
  set (n := Elem tag at' tx kids) in *. clearbody n.
  assert (Bad : ~ set_begun n -> left_by n K K).
  { intros NB. apply left_nothing; [exact NB|]. intros K' U p Hr. exact (NB (begun_reads E fetch fd _ _ _ _ _ Hc Hr)). }
  apply bind_out in H. destruct H as [(id & st1 & H1 & H)|(e1 & H1 & _)].
  2:{ injection H1 as Hq <-. right. exists K, F. split; [reflexivity|]. apply Bad. intros [_ (i & ai & al & Q & _)].
      apply required_ok in Q. congruence. }
  injection H1 as Hid <-. apply required_ok in Hid.
  apply bind_out in H. destruct H as [(ai & st1 & H1 & H)|(e1 & H1 & _)].
  2:{ injection H1 as Hq <-. right. exists K, F. split; [reflexivity|]. apply Bad. intros [_ (i & ai & al & _ & Q & _)].
      apply required_ok in Q. congruence. }
  injection H1 as Hai <-. apply required_ok in Hai.
  apply bind_out in H. destruct H as [(alg & st1 & H1 & H)|(e1 & H1 & _)].
  2:{ injection H1 as Hq <-. right. exists K, F. split; [reflexivity|]. apply Bad. intros [_ (i & aj & al & _ & Q & Q2)].
      apply policy_alg_of_iff in Q2. congruence. }
  injection H1 as Hal <-. apply policy_alg_of_iff in Hal.
  assert (B : set_begun n) by (split; [exact Hc|eauto 8]).
  apply bind_out in H. destruct H as [(a & st1 & H1 & H)|(e1 & H1 & [= <-])];
    apply (steps_out n K kids [] K F [] [] _ _ _ B IH' Hel (fun x X => match X with end) (reads_none _ _ _ K)) in H1; [|exact H1].
  destruct H1 as (Ho & K1 & F1 & V & qs & -> & Hr). right. exists K1, F1.
  unfold end_s in H. cbv zeta in H. unfold sbind, register_s, slift in H. cbn [fs_reg fs_fetched] in H.
  match type of H with context [add_policy_set (holding K1) ?p] => set (p9 := p) in *; destruct (add_policy_set (holding K1) p9) as [g|e2] eqn:Eg end; [discriminate H|].
  injection H as <- <-. split; [reflexivity|]. eapply left_taken; [exact B|exact Hid|exact Ho|exact Hr|].
  destruct (lookup (SetName (Some id)) K1) as [q|] eqn:El.
  - apply lookup_some in El. destruct El as [Hi Hn]. rewrite <- Hn. apply in_map, Hi.
  - exfalso. apply lookup_none in El. assert (add_policy_set (holding K1) p9 = Ok (holding (K1 ++ [p9]))) as Hx; [|congruence].
    apply add_set_holding; [exact I|]. split; [exact El|reflexivity].
Qed.
End Nested.

Lemma doc_lefts : forall limit, lefts (read_doc_s limit E fetch fd).
Proof.
  induction limit as [|limit IH]; intros d K F e st' H; cbn [read_doc_s] in H.
  { injection H as <- <-. left. reflexivity. }
  apply bind_out in H. destruct H as [(l & st1 & H1 & H)|(e1 & H1 & _)].
  2:{ injection H1 as Hq <-. right. exists K, F. split; [reflexivity|]. apply left_nothing.
      - intros [Hc _]. pose proof (called_elem _ _ Hc) as He. rewrite local_ln in Hq by exact He. discriminate Hq.
      - intros K' U p Hr. destruct (reads_kind E fetch fd _ _ _ _ _ Hr) as [Hc|(Hc & _)];
          pose proof (called_elem _ _ Hc) as He; rewrite local_ln in Hq by exact He; discriminate Hq. }
  injection H1 as Hl <-.
  assert (He : is_elem d) by (destruct d; [exact I|discriminate Hl]). rewrite local_ln in Hl by exact He. injection Hl as <-.
  case_name d "Policy".
  - apply policy_out in H; [|named]. destruct H as [-> H]. right. exists K, F. auto.
  - case_name d "PolicySet".
    + apply (set_left _ _ (agree_doc E fetch fd limit) (doc_sound E HE fetch fd limit) IH d) in H; [exact H|named].
    + injection H as <- <-. right. exists K, F. split; [reflexivity|]. apply left_nothing.
      * intros [Hc _]. apply (ln_is "PolicySet" d eq_refl) in Hc. contradiction.
      * intros K' U p Hr. destruct (reads_kind E fetch fd _ _ _ _ _ Hr) as [Hc|(Hc & _)];
          [apply (ln_is "PolicySet" d eq_refl) in Hc|apply (ln_is "Policy" d eq_refl) in Hc]; contradiction.
Qed.
End Left.
