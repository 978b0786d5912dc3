(** Lemmas for C99: documents with policy sets. *)
From Verif Require Import Readers SpecText SpecSetters SpecRead SpecRefusals.
From Verif Require Import EvalFacts StringFacts SettersFacts TextFacts ReadFacts ReadFacts2 ReadFacts3 ReadFacts4.
From Verif Require Import RefusalsFacts RefusalsFacts2 RefusalsFacts3.
From Coq Require Import Lia.
Open Scope string_scope.

Lemma wanted_text : forall k x, is_elem k -> wanted k = Some x -> ref_of x = xml_text k.
Proof.
  intros k x He Hw. rewrite wanted_ln in Hw by exact He.
  destruct (String.eqb (ln k) "PolicyIdReference"); [injection Hw as <-; reflexivity|].
  destruct (String.eqb (ln k) "PolicySetIdReference"); [injection Hw as <-; reflexivity|discriminate Hw].
Qed.

Lemma policy_alg_raise : forall id e, policy_alg_of id = Raise e -> e = ETypeError /\ policy_algorithm id = None.
Proof.
  intros id e H. assert (policy_algorithm id = None) as Hn.
  { destruct (policy_algorithm id) as [a|] eqn:Ha; [|reflexivity]. apply policy_alg_of_iff in Ha. congruence. }
  split; [|exact Hn]. revert H. unfold policy_alg_of, policyset_alg_step, policyset_alg_from_id.
  cbn [pa_factory policyset_alg_new].
  destruct (dict_get id POLICY_ALG_MAP) as [[b| |]|]; cbn; congruence.
Qed.

Section Docs.
Variable E : renv.
Hypothesis HE : default_readers E.
Variable fetch : string -> res node.
Variable fd : finder.

Ltac inl := repeat (first [left; reflexivity|right]).
Ltac not_in := let H := fresh in intros H; cbn [In app understood not_implemented no_class map fst] in H;
  repeat (destruct H as [H|H]; [congruence|]); exact H.
Ltac case_name n s := destruct (String.eqb_spec (ln n) s) as [?Hn|?Hn].
Ltac named := apply called_is; [reflexivity|assumption|assumption].

Lemma member_find : forall nested k x st, is_elem k -> wanted k = Some x ->
  member_step E fetch fd nested k st = find_name fetch fd nested x st.
Proof.
  intros nested k x st He Hw. rewrite wanted_ln in Hw by exact He. unfold member_step. rewrite text_get by exact He.
  destruct (String.eqb_spec (ln k) "PolicyIdReference") as [Hn|Hn].
  { injection Hw as <-. rewrite Hn. reflexivity. }
  destruct (String.eqb_spec (ln k) "PolicySetIdReference") as [Hn'|Hn']; [|discriminate Hw].
  injection Hw as <-. rewrite Hn'. reflexivity.
Qed.

(** What reading a member gives. *)
Lemma member_sound : forall nested, sound E fetch fd nested -> forall k K F p st', is_elem k -> is_member k = true ->
  member_step E fetch fd nested k (mkFstate (holding K) F) = Ok (p, st') ->
  exists K1 U1, reads_member E fetch fd k K K1 U1 p /\ st' = mkFstate (holding K1) (F ++ U1).
Proof.
  intros nested Hs k K F p st' Hek Hmem Hm.
  destruct (wanted k) as [x|] eqn:Ew; [exact (member_ref_sound E fetch fd nested k K F p st' x Hs Hek Ew Hm)|].
  rewrite wanted_ln in Ew by exact Hek. rewrite member_at in Hmem by exact Hek.
  unfold member_step in Hm.
  destruct (String.eqb_spec (ln k) "Policy") as [Hn|Hn].
  - apply (policy_reg_iff E HE) in Hm. destruct Hm as (Hd & Hf & ->). exists (K ++ [p])%list, [].
    rewrite app_nil_r. split; [|reflexivity]. apply reads_inline.
    + rewrite wanted_ln by exact Hek. rewrite Hn. reflexivity.
    + apply reads_policy; assumption.
  - destruct (String.eqb (ln k) "PolicyIdReference"); [discriminate Ew|].
    destruct (String.eqb_spec (ln k) "PolicySet") as [Hn2|Hn2].
    + apply (set_sound E HE fetch fd nested Hs k Hek) in Hm. destruct Hm as (K1 & U1 & Hr1 & ->).
      exists K1, U1. split; [|reflexivity]. apply reads_inline; [|exact Hr1].
      rewrite wanted_ln by exact Hek. rewrite Hn2. reflexivity.
    + destruct (String.eqb (ln k) "PolicySetIdReference"); [discriminate Ew|]. discriminate Hmem.
Qed.

Lemma run_sound : forall nested, sound E fetch fd nested ->
  forall ks, (forall k, In k ks -> is_elem k /\ is_member k = true) -> forall K F ps st',
  run E fetch fd nested ks (mkFstate (holding K) F) = Ok (ps, st') ->
  exists K' U, reads_members E fetch fd ks K K' U ps /\ st' = mkFstate (holding K') (F ++ U).
Proof.
  intros nested Hs. induction ks as [|k ks IHk]; intros Hks K F ps st' H; cbn [run] in H.
  - injection H as <- <-. exists K, []. split; [constructor|]. rewrite app_nil_r. reflexivity.
  - apply bind_ok in H. destruct H as ([p st1] & Hm & H). apply bind_ok in H.
    destruct H as ([ps' st2] & Hr & H). injection H as <- <-.
    destruct (Hks k (or_introl eq_refl)) as [Hk Hmem].
    destruct (member_sound nested Hs k K F p st1 Hk Hmem Hm) as (K1 & U1 & Hmm & ->).
    apply IHk in Hr; [|intros k' Hk'; apply Hks; right; exact Hk'].
    destruct Hr as (K2 & U2 & Hr & ->). exists K2, (U1 ++ U2)%list. split; [|rewrite app_assoc; reflexivity].
    eapply reads_more; eassumption.
Qed.

(** ** A refused document *)
Definition blames (nested : node -> fstate -> res (policybase * fstate)) : Prop :=
  forall d K F e, nested d (mkFstate (holding K) F) = Raise e -> e = ERecursionError \/ refuses E fetch fd d K e.

Lemma policy_reg_blame : forall n K F e, called "Policy" n = true ->
  read_policy_reg E n (mkFstate (holding K) F) = Raise e -> refuses E fetch fd n K e.
Proof.
  intros n K F e Hc H. unfold read_policy_reg in H. apply bind_raise in H. destruct H as [H|(p & Hp & H)].
  - apply refuses_policy; [exact Hc|]. apply (policy_blame E HE); assumption.
  - apply bind_raise in H. destruct H as [H|(g & _ & H)]; [|discriminate H]. cbn [fs_reg] in H.
    apply (read_policy_iff E HE) in Hp.
    destruct (lookup (name_of p) K) as [q|] eqn:El.
    + assert (e = EXMLParseError) as ->.
      { destruct p as [m t a rs|m t a ps]; [|destruct Hp as (_ & _ & i & ai & al & de & xp & tt & rs & Hx & _); discriminate Hx].
        cbn [add_policy] in H. destruct (key_mem (pm_id m) (rg_policies (holding K))); congruence. }
      apply lookup_some in El. destruct El as [Hi Hn].
      apply (refuses_taken E fetch fd n K p Hp). rewrite <- Hn. apply in_map, Hi.
    + exfalso. apply lookup_none in El.
      assert (add_policy (holding K) p = Ok (holding (K ++ [p]))) as Ha; [|congruence].
      apply add_policy_holding; [|split; [exact El|reflexivity]].
      destruct Hp as (_ & _ & i & ai & al & de & xp & tt & rs & -> & _). exact I.
Qed.

Lemma reference_blame : forall nested k x K F e, sound E fetch fd nested -> blames nested -> is_elem k ->
  wanted k = Some x -> member_step E fetch fd nested k (mkFstate (holding K) F) = Raise e ->
  e = ERecursionError \/ member_refused E fetch fd k K e.
Proof.
  intros nested k x K F e Hs Hb He Hw H. rewrite (member_find nested k x _ He Hw), find_name_eq in H.
  pose proof (wanted_text k x He Hw) as Hx.
  assert (fd = LocalFinder \/ exists base, fd = UrlFinder base) as [Hfd|[base Hfd]]
    by (destruct fd as [|base]; [left; reflexivity|right; exists base; reflexivity]); rewrite Hfd in H.
  - right. destruct (lookup x K) as [q|] eqn:El; [discriminate H|]. injection H as <-.
    apply (refused_unknown E fetch fd k x K); [exact Hfd|exact Hw|apply lookup_none, El].
  - destruct (lookup x K) as [q|] eqn:El.
    { exfalso. cbn [bind fs_reg] in H.
      replace (match x with PolicyName r => key_get r (rg_policies (holding K))
             | SetName r => key_get r (rg_sets (holding K)) end) with (lookup x K) in H by (destruct x; reflexivity).
      rewrite El in H. discriminate H. }
    apply lookup_none in El. apply bind_raise in H. rewrite Hx in H.
    destruct H as [H|(st1 & H1 & H)].
    + unfold find_from_reference in H. destruct (xml_text k) as [r|] eqn:Ht.
      2:{ injection H as <-. right. apply (refused_no_text E fetch fd base k x K); assumption. }
      apply bind_raise in H. destruct H as [H|(url & Hu & H)].
      { right. apply (refused_url E fetch fd base k x r K e); assumption. }
      cbn [fs_reg fs_fetched] in H. apply bind_raise in H. destruct H as [H|(d & Hd & H)].
      { right. apply (refused_fetch E fetch fd base k x r url K e); assumption. }
      apply bind_raise in H. destruct H as [H|([q st2] & _ & H)]; [|discriminate H].
      apply Hb in H. destruct H as [H|H]; [left; exact H|right].
      apply (refused_document E fetch fd base k x r url d K e); assumption.
    + right. unfold find_from_reference in H1. destruct (xml_text k) as [r|] eqn:Ht; [|discriminate H1].
      apply bind_ok in H1. destruct H1 as (url & Hu & H1). cbn [fs_reg fs_fetched] in H1.
      apply bind_ok in H1. destruct H1 as (d & Hd & H1).
      apply bind_ok in H1. destruct H1 as ([q st2] & Hq & H1). injection H1 as ->.
      apply Hs in Hq. destruct Hq as (K' & U & Hr & ->). cbn [fs_reg] in H.
      replace (match x with PolicyName r => key_get r (rg_policies (holding K'))
             | SetName r => key_get r (rg_sets (holding K')) end) with (lookup x K') in H by (destruct x; reflexivity).
      destruct (lookup x K') as [p'|] eqn:El'; [discriminate H|]. injection H as <-.
      apply (refused_not_there E fetch fd base k x r url d K K' U q); try assumption. apply lookup_none, El'.
Qed.

Lemma filter_split : forall A (f : A -> bool) pre x post, f x = true ->
  filter f (pre ++ x :: post) = (filter f pre ++ x :: filter f post)%list.
Proof. intros A f pre x post H. rewrite filter_app. cbn [filter]. rewrite H. reflexivity. Qed.

Definition SET_CONTENT := mkContent ["Description"; "PolicySetDefaults"; "Target"; "Policy"; "PolicySet";
                             "PolicyIdReference"; "PolicySetIdReference"]
       ["CombinerParameters"; "PolicyCombinerParameters"; "PolicySetCombinerParameters"; "Obligations"]
       ["VariableDefinition"].

Lemma defaults_other : forall n e, is_elem n -> ln n = "PolicySetDefaults" ->
  (let* _ := read_defaults n in Raise EAttributeError) = @Raise (sacc * fstate) e -> e = EXMLParseError.
Proof.
  intros n e He Hn H. apply bind_raise in H. destruct H as [H|(v & H & _)].
  - unfold read_defaults, expect in H. rewrite local_ln, Hn in H by exact He. cbn in H. congruence.
  - apply read_defaults_iff in H. destruct H as [H _]. apply (ln_is "PolicyDefaults" n eq_refl) in H. congruence.
Qed.

Lemma set_blame : forall nested, sound E fetch fd nested -> blames nested -> forall n, called "PolicySet" n = true ->
  forall K F e, read_set E fetch fd nested n (mkFstate (holding K) F) = Raise e ->
  e = ERecursionError \/ refuses E fetch fd n K e.
Proof.
  intros nested Hs Hb. induction n as [t|tag at_ tx kids IH] using node_ind'; intros Hc; [discriminate Hc|].
  set (n := Elem tag at_ tx kids) in *.
  assert (forall k, In k (elems n) -> called "PolicySet" k = true -> forall K F e,
    read_set E fetch fd nested k (mkFstate (holding K) F) = Raise e ->
    e = ERecursionError \/ refuses E fetch fd k K e) as IH'.
  { intros k Hk. rewrite Forall_forall in IH. apply IH. apply filter_In in Hk. apply Hk. }
  clearbody n. clear IH. intros K F e H. rewrite read_set_eq in H by exact (called_elem _ _ Hc).
  rewrite (ln_is "PolicySet" n eq_refl Hc) in H. cbn [negb String.eqb Ascii.eqb Bool.eqb] in H.
  apply bind_raise in H. destruct H as [H|(id & Hid & H)].
  { apply required_raise in H. destruct H as [H ->]. right.
    apply refuses_set; [exact Hc|]. apply (lacks_attribute E n "PolicySet" "PolicySetId"); [inl|exact Hc|exact H]. }
  apply required_ok in Hid. apply bind_raise in H. destruct H as [H|(ai & Hai & H)].
  { apply required_raise in H. destruct H as [H ->]. right.
    apply refuses_set; [exact Hc|]. apply (lacks_attribute E n "PolicySet" "PolicyCombiningAlgId"); [inl|exact Hc|exact H]. }
  apply required_ok in Hai. apply bind_raise in H. destruct H as [H|(alg & Ha & H)].
  { apply policy_alg_raise in H. destruct H as [-> H]. right.
    apply refuses_set; [exact Hc|]. apply (bad_policy_algorithm E n ai); assumption. }
  assert (In ("PolicySet", SET_CONTENT) contents) as Hin by inl.
  apply bind_raise in H. destruct H as [H|([a st1] & Hfold & H)].
  2:{ cbv zeta in H. apply bind_raise in H. destruct H as [H|(g & _ & H)]; [|discriminate H].
      apply set_fold in Hfold; [|exact HE|exact (elems_is n)]. destruct Hfold as (_ & _ & _ & Hrun).
      rewrite <- members_eq in Hrun. apply (run_sound nested Hs) in Hrun.
      2:{ intros k Hk. apply filter_In in Hk. destruct Hk as [Hk1 Hk2]. split; [exact (elems_is n k Hk1)|exact Hk2]. }
      destruct Hrun as (K1 & U & Hr & ->). cbn [fs_reg] in H.
      destruct (lookup (SetName (Some id)) K1) as [q|] eqn:El.
      - right. apply lookup_some in El. destruct El as [Hi Hn].
        assert (e = EXMLParseError) as ->
          by (cbn [add_policy_set] in H; match type of H with (if ?c then _ else _) = _ => destruct c end; congruence).
        apply (refuses_set_taken E fetch fd n id K K1 U (sc_policies a)); try assumption.
        rewrite <- Hn. apply in_map, Hi.
      - exfalso. apply lookup_none in El.
        match type of H with add_policy_set _ ?p = _ =>
          assert (add_policy_set (holding K1) p = Ok (holding (K1 ++ [p]))) as Hx; [|congruence] end.
        apply add_set_holding; [exact I|]. split; [exact El|reflexivity]. }
  apply foldM_raise in H. destruct H as (pre & c & post & [a st1] & Hel & Hpre & H).
  assert (In c (elems n)) as Hcn by (rewrite Hel; apply in_or_app; right; left; reflexivity).
  assert (is_elem c) as He by exact (elems_is n c Hcn).
  assert (forall x, In x pre -> is_elem x) as Hpe
    by (intros x Hx; apply (elems_is n); rewrite Hel; apply in_or_app; left; exact Hx).
  apply set_fold in Hpre; [|exact HE|exact Hpe]. destruct Hpre as (_ & _ & _ & Hrun).
  apply (run_sound nested Hs) in Hrun.
  2:{ intros k Hk. apply filter_In in Hk. destruct Hk as [Hk1 Hk2]. split; [exact (Hpe k Hk1)|exact Hk2]. }
  destruct Hrun as (K1 & U & Hr & ->).
  assert (is_member c = true -> member_refused E fetch fd c K1 e -> refuses E fetch fd n K e) as Hmem.
  { intros Hm Hx.
    eapply (refuses_for_member E fetch fd n (filter is_member pre) c (filter is_member post) K K1); [exact Hc| |exact Hr|exact Hx].
    rewrite members_eq, Hel. apply filter_split, Hm. }
  assert (forall s, ln c = s -> In s ["Policy"; "PolicySet"; "PolicyIdReference"; "PolicySetIdReference"] ->
    is_member c = true) as Hmn.
  { intros s Hs1 Hs2. rewrite member_at, Hs1 by exact He. destruct Hs2 as [<-|[<-|[<-|[<-|[]]]]]; reflexivity. }
  assert (forall s, ln c = s -> In s ["CombinerParameters"; "PolicyCombinerParameters"; "PolicySetCombinerParameters"; "Obligations"] ->
            @Raise (sacc * fstate) ENotImplementedError = Raise e -> refuses E fetch fd n K e) as Hni.
  { intros s Hx Hs' H'. injection H' as <-. apply refuses_set; [exact Hc|].
    apply (unimplemented_child E n _ _ c Hin); [exact Hc|exact Hcn|].
    apply one_of_ln; [exact He|reflexivity|rewrite Hx; exact Hs']. }
  unfold set_step in H. cbv zeta in H.
  case_name c "Description"; [discriminate H|].
  case_name c "PolicySetDefaults".
  { apply defaults_other in H; [subst e|exact He|assumption]. right. apply refuses_set; [exact Hc|].
    apply (set_defaults E n c); [exact Hc|exact Hcn|named]. }
  case_name c "Target".
  { apply bind_raise in H. destruct H as [H|(v & _ & H)]; [|discriminate H]. right.
    apply (refuses_target E fetch fd n c); [exact Hc|apply in_called_of; auto|].
    apply (target_blame E HE); [named|exact H]. }
  case_name c "CombinerParameters"; [right; apply (Hni "CombinerParameters"); [assumption|inl|exact H]|].
  case_name c "PolicyCombinerParameters"; [right; apply (Hni "PolicyCombinerParameters"); [assumption|inl|exact H]|].
  case_name c "PolicySetCombinerParameters"; [right; apply (Hni "PolicySetCombinerParameters"); [assumption|inl|exact H]|].
  case_name c "VariableDefinition".
  { injection H as <-. right. apply refuses_set; [exact Hc|]. apply (classless_child E n _ _ c Hin); [exact Hc|exact Hcn|].
    apply one_of_ln; [exact He|reflexivity|]. cbn [no_class SET_CONTENT In]. left. congruence. }
  case_name c "Policy".
  { apply bind_raise in H. destruct H as [H|([p st'] & _ & H)]; [|discriminate H]. right.
    apply Hmem; [apply (Hmn "Policy"); [assumption|inl]|]. apply refused_inline.
    - rewrite wanted_ln, Hn6 by exact He. reflexivity.
    - apply (policy_reg_blame c K1 (F ++ U)); [named|exact H]. }
  case_name c "PolicyIdReference".
  { apply bind_raise in H. destruct H as [H|([p st'] & _ & H)]; [|discriminate H].
    assert (wanted c = Some (PolicyName (xml_text c))) as Hw by (rewrite wanted_ln, Hn7 by exact He; reflexivity).
    assert (member_step E fetch fd nested c (mkFstate (holding K1) (F ++ U)) = Raise e) as H'.
    { rewrite (member_find nested c _ _ He Hw). cbn [find_name]. rewrite <- text_get by exact He. exact H. }
    apply (reference_blame nested c _ K1 (F ++ U) e Hs Hb He Hw) in H'. destruct H' as [H'|H']; [left; exact H'|right].
    apply Hmem; [apply (Hmn "PolicyIdReference"); [assumption|inl]|exact H']. }
  case_name c "PolicySet".
  { apply bind_raise in H. destruct H as [H|([p st'] & _ & H)]; [|discriminate H].
    apply (IH' c Hcn) in H; [|named]. destruct H as [H|H]; [left; exact H|right].
    apply Hmem; [apply (Hmn "PolicySet"); [assumption|inl]|]. apply refused_inline; [|exact H].
    rewrite wanted_ln, Hn8 by exact He. reflexivity. }
  case_name c "PolicySetIdReference".
  { apply bind_raise in H. destruct H as [H|([p st'] & _ & H)]; [|discriminate H].
    assert (wanted c = Some (SetName (xml_text c))) as Hw by (rewrite wanted_ln, Hn9 by exact He; reflexivity).
    assert (member_step E fetch fd nested c (mkFstate (holding K1) (F ++ U)) = Raise e) as H'.
    { rewrite (member_find nested c _ _ He Hw). cbn [find_name]. rewrite <- text_get by exact He. exact H. }
    apply (reference_blame nested c _ K1 (F ++ U) e Hs Hb He Hw) in H'. destruct H' as [H'|H']; [left; exact H'|right].
    apply Hmem; [apply (Hmn "PolicySetIdReference"); [assumption|inl]|exact H']. }
  case_name c "Obligations"; [right; apply (Hni "Obligations"); [assumption|inl|exact H]|].
  injection H as <-. right. apply refuses_set; [exact Hc|]. apply (stray_child E n _ _ c Hin); [exact Hc|exact Hcn|].
  apply (stray _ n); [exact Hcn|reflexivity|]. unfold SET_CONTENT. not_in.
Qed.

Lemma doc_blame : forall limit, blames (read_doc limit E fetch fd).
Proof.
  induction limit as [|limit IH]; intros d K F e H; cbn [read_doc] in H.
  { injection H as <-. left. reflexivity. }
  destruct d as [tag a t kids|t].
  2:{ injection H as <-. right. apply refuses_comment. }
  assert (is_elem (Elem tag a t kids)) as He by exact I.
  assert (called_one_of ["Policy"; "PolicySet"] (Elem tag a t kids) <-> In (ln (Elem tag a t kids)) ["Policy"; "PolicySet"]) as Hone
    by (apply one_of_ln; [exact He|reflexivity]).
  pose proof (refuses_root E fetch fd tag a t kids K) as Hroot.
  set (n := Elem tag a t kids) in *. clearbody n. rewrite local_ln in H by exact He. cbn [bind] in H.
  destruct (String.eqb_spec (ln n) "Policy") as [N1|N1].
  - right. apply (policy_reg_blame n K F); [named|exact H].
  - destruct (String.eqb_spec (ln n) "PolicySet") as [N2|N2].
    + apply (set_blame _ (doc_sound E HE fetch fd limit) IH n) with (F := F); [named|exact H].
    + right. injection H as <-. apply Hroot. rewrite Hone. cbn [In]. intros [Hx|[Hx|[]]]; congruence.
Qed.

(** ** Nothing that is refused is read *)
Scheme refuses_ind' := Minimality for refuses Sort Prop
  with member_refused_ind' := Minimality for member_refused Sort Prop.
Combined Scheme refuses_mutind from refuses_ind', member_refused_ind'.

Lemma set_mistake : forall nested n e st p st', called "PolicySet" n = true -> mistake E n e ->
  read_set E fetch fd nested n st = Ok (p, st') -> False.
Proof.
  intros nested n e st p st' Hc Hm H. pose proof (ln_is "PolicySet" n eq_refl Hc) as Hl.
  rewrite read_set_eq in H by exact (called_elem _ _ Hc). rewrite Hl in H. cbn [negb String.eqb Ascii.eqb Bool.eqb] in H.
  apply bind_ok in H. destruct H as (id & Hid & H). apply required_ok in Hid.
  apply bind_ok in H. destruct H as (ai & Hai & H). apply required_ok in Hai.
  apply bind_ok in H. destruct H as (alg & Ha & H). apply policy_alg_of_iff in Ha.
  apply bind_ok in H. destruct H as ([a st1] & Hfold & _).
  apply set_fold in Hfold; [|exact HE|exact (elems_is n)]. destruct Hfold as (Hnames & _).
  assert (forall c, In c (elems n) -> is_elem c /\ In (ln c) SET_NAMES) as Hkids
    by (apply elems_named; [exact Hnames|reflexivity]).
  clear Hc. unfold SET_NAMES in Hkids.
  destruct Hm as [tag9 at9 Hi Hc Hatt|tag9 at9 id9 e9 Hi Hc Hatt Hnf|s9 Hc Hatt Hs1 Hs2|id9 Hc Hatt Hs1|id9 Hc Hatt Hs1
    |dt9 Hc Hatt Hs1|dt9 Hc Hatt Hs1|Hc Hs1|dt9 cl9 Hc Hatt Hs1 Hs2
    |tag9 ct9 c9 Hi Hc Hin Hs1|tag9 ct9 c9 Hi Hc Hin Hs1|tag9 ct9 c9 Hi Hc Hin Hs1
    |tag9 d9 c9 Hi Hc Hin Hs1|tag9 d9 Hi Hc Hs1 Hs2|Hc Hs1|c9 Hc Hin Hs1
    |l1 k1 l2 k2 l3 id9 Hc Hel Hq1 Hq2 Hatt Ha2|Hc Hs1 Hs2|tg9 ats9 tx9 t9 Hc Hs1|c9 Hc Hin Hs1];
  try (exfalso; match goal with Hc : called ?s n = true |- _ =>
    apply (ln_is s n eq_refl) in Hc; rewrite Hl in Hc; discriminate Hc end);
  repeat match goal with
  | Hi : In (?tag, ?a) ?L, Hc : called ?tag n = true |- _ =>
      apply (table_ln _ L tag a n) in Hi; [|exact Hc|reflexivity]; clear Hc; rewrite Hl in Hi;
      cbv [needed function_names contents matches] in Hi; cbn [In] in Hi;
      repeat (destruct Hi as [Hi|Hi]; [first [discriminate Hi|injection Hi as Hi]|]); try contradiction
  end.
  - subst; congruence.
  - subst; congruence.
  - congruence.
  - subst. apply Hs1. destruct (Hkids c9 Hin). eapply named_in; [eassumption|assumption|reflexivity|reflexivity].
  - subst. destruct (Hkids c9 Hin) as [He9 Hn9]. revert Hs1. eapply named_out; [exact Hn9|exact He9|reflexivity|reflexivity].
  - subst. destruct (Hkids c9 Hin) as [He9 Hn9]. revert Hs1. eapply named_out; [exact Hn9|exact He9|reflexivity|reflexivity].
  - destruct (Hkids c9 Hin) as [He9 Hn9]. eapply (named_not _ "PolicySetDefaults" c9); [exact Hn9|reflexivity|reflexivity|exact Hs1].
Qed.

Lemma run_app : forall nested l1 l2 st, run E fetch fd nested (l1 ++ l2) st =
  let* (ps, st1) := run E fetch fd nested l1 st in
  let* (qs, st2) := run E fetch fd nested l2 st1 in
  Ok ((ps ++ qs)%list, st2).
Proof.
  intros nested l1 l2. induction l1 as [|x l1 IH]; intros st.
  - cbn [app run bind]. destruct (run E fetch fd nested l2 st) as [[qs st2]|e]; reflexivity.
  - cbn [app run]. destruct (member_step E fetch fd nested x st) as [[p st1]|e]; [cbn [bind]|reflexivity].
    rewrite IH. destruct (run E fetch fd nested l1 st1) as [[ps st2]|e]; [cbn [bind]|reflexivity].
    destruct (run E fetch fd nested l2 st2) as [[qs st3]|e]; reflexivity.
Qed.

Lemma read_doc_set : forall l n st, called "PolicySet" n = true ->
  read_doc (S l) E fetch fd n st = read_set E fetch fd (read_doc l E fetch fd) n st.
Proof.
  intros l n st Hc. cbn [read_doc]. rewrite local_ln by exact (called_elem _ _ Hc). cbn [bind].
  rewrite (ln_is "PolicySet" n eq_refl Hc). reflexivity.
Qed.
Lemma read_doc_policy : forall l n st, called "Policy" n = true ->
  read_doc (S l) E fetch fd n st = read_policy_reg E n st.
Proof.
  intros l n st Hc. cbn [read_doc]. rewrite local_ln by exact (called_elem _ _ Hc). cbn [bind].
  rewrite (ln_is "Policy" n eq_refl Hc). reflexivity.
Qed.

(** A policy set that is read has read all its members. *)
Lemma set_ran : forall nested n st p st', called "PolicySet" n = true ->
  read_set E fetch fd nested n st = Ok (p, st') ->
  exists id a st1, xml_attr "PolicySetId" n = Some id /\
    run E fetch fd nested (members n) st = Ok (sc_policies a, st1) /\
    (exists o, last_one (target_doc E) (elems_called "Target" n) o) /\
    exists g m t al, p = PPolicySet m t al (sc_policies a) /\ pm_id m = Some id /\ add_policy_set (fs_reg st1) p = Ok g.
Proof.
  intros nested n st p st' Hc H.
  rewrite read_set_eq in H by exact (called_elem _ _ Hc). rewrite (ln_is "PolicySet" n eq_refl Hc) in H.
  cbn [negb String.eqb Ascii.eqb Bool.eqb] in H.
  apply bind_ok in H. destruct H as (id & Hid & H). apply required_ok in Hid.
  apply bind_ok in H. destruct H as (ai & Hai & H).
  apply bind_ok in H. destruct H as (alg & Ha & H).
  apply bind_ok in H. destruct H as ([a st1] & Hfold & H). cbv zeta in H.
  apply bind_ok in H. destruct H as (g & Hg & H).
  assert (p = PPolicySet (mkMeta (Some id) (Some (version_of n)) (Some ai) (sc_description a) None)
                (sc_target a) (Some alg) (sc_policies a)) as -> by congruence.
  apply set_fold in Hfold; [|exact HE|exact (elems_is n)]. destruct Hfold as (_ & _ & Ht & Hrun).
  exists id, a, st1. split; [exact Hid|]. split; [rewrite members_eq; exact Hrun|]. split; [exists (sc_target a); exact Ht|].
  exists g. eexists _, _, _. split; [reflexivity|]. split; [reflexivity|exact Hg].
Qed.

Definition never_read (n : node) (K : list policybase) : Prop :=
  exists L, forall l, L <= l -> forall F p st', read_doc l E fetch fd n (mkFstate (holding K) F) = Ok (p, st') -> False.
Definition never_member (k : node) (K : list policybase) : Prop :=
  exists L, forall l, L <= l -> forall F p st',
    member_step E fetch fd (read_doc l E fetch fd) k (mkFstate (holding K) F) = Ok (p, st') -> False.

Lemma wanted_elem : forall k x, wanted k = Some x -> is_elem k.
Proof. intros [tag a t kids|t] x H; [exact I|discriminate H]. Qed.

Lemma refused_mut :
  (forall n K e, refuses E fetch fd n K e -> NoDup (map name_of K) -> never_read n K) /\
  (forall k K e, member_refused E fetch fd k K e -> NoDup (map name_of K) -> is_member k = true -> never_member k K).
Proof.
  apply refuses_mutind.
  - intros text K Hnd. exists 0. intros [|l] _ F p st' H; discriminate H.
  - intros tag attrs text kids K Hroot Hnd. exists 0. intros [|l] _ F p st' H; [discriminate H|].
    assert (is_elem (Elem tag attrs text kids)) as He by exact I.
    set (n := Elem tag attrs text kids) in *. clearbody n. cbn [read_doc] in H.
    rewrite local_ln in H by exact He. cbn [bind] in H. apply Hroot. apply one_of_ln; [exact He|reflexivity|].
    destruct (String.eqb_spec (ln n) "Policy") as [N1|N1]; [left; congruence|].
    destruct (String.eqb_spec (ln n) "PolicySet") as [N2|N2]; [right; left; congruence|discriminate H].
  - intros n K e Hc (m & Hp & Hm) Hnd. exists 0. intros [|l] _ F p st' H; [discriminate H|].
    rewrite read_doc_policy in H by exact Hc. apply (policy_reg_iff E HE) in H. destruct H as (Hd & _).
    exact (policy_clean E n p Hd m e Hp Hm).
  - intros n K p Hd Hin Hnd. exists 0. intros [|l] _ F p' st' H; [discriminate H|].
    rewrite read_doc_policy in H by exact (proj1 Hd). apply (policy_reg_iff E HE) in H. destruct H as (Hd' & Hn & _).
    apply (read_policy_iff E HE) in Hd, Hd'. assert (p' = p) by congruence. subst. contradiction.
  - intros n K e Hc Hm Hnd. exists 0. intros [|l] _ F p st' H; [discriminate H|].
    rewrite read_doc_set in H by exact Hc. exact (set_mistake _ n e _ p st' Hc Hm H).
  - intros n k K e Hc Hk (m & Hp & Hm) Hnd. exists 0. intros [|l] _ F p st' H; [discriminate H|].
    rewrite read_doc_set in H by exact Hc. apply set_ran in H; [|exact Hc].
    destruct H as (id & a & st1 & _ & _ & (o & Ht & _) & _). destruct (Ht k Hk) as [t Htd].
    exact (target_clean E k t Htd m e Hp Hm).
  - intros n pre k post K K1 urls ps e Hc Hmem Hpre _ IH Hnd.
    destruct (proj1 (proj2 (complete_mut E HE fetch fd)) _ _ _ _ _ Hpre Hnd) as (Hnd1 & L1 & HL1).
    destruct (IH Hnd1) as (L2 & HL2).
    { assert (In k (members n)) as Hk by (rewrite Hmem; apply in_or_app; right; left; reflexivity).
      apply filter_In in Hk. apply Hk. }
    exists (S (L1 + L2)). intros [|l] Hl F p st' H; [discriminate H|].
    rewrite read_doc_set in H by exact Hc. apply set_ran in H; [|exact Hc].
    destruct H as (id & a & st1 & _ & Hrun & _). rewrite Hmem, run_app in Hrun.
    rewrite HL1 in Hrun by lia. cbn [bind] in Hrun. apply bind_ok in Hrun. destruct Hrun as ([qs st2] & Hrun & _).
    cbn [run] in Hrun. apply bind_ok in Hrun. destruct Hrun as ([q st3] & Hk & _).
    apply HL2 in Hk; [exact Hk|lia].
  - intros n id K K' urls ps Hc Hmem Hid Hin Hnd.
    destruct (proj1 (proj2 (complete_mut E HE fetch fd)) _ _ _ _ _ Hmem Hnd) as (Hnd1 & L1 & HL1).
    exists (S L1). intros [|l] Hl F p st' H; [discriminate H|].
    rewrite read_doc_set in H by exact Hc. apply set_ran in H; [|exact Hc].
    destruct H as (id' & a & st1 & Hid' & Hrun & _ & g & m & t & al & -> & Hmid & Hadd).
    rewrite HL1 in Hrun by lia. assert (st1 = mkFstate (holding K') (F ++ urls)) as -> by congruence.
    cbn [fs_reg] in Hadd. apply add_set_holding in Hadd; [|exact I]. destruct Hadd as [Hadd _]. apply Hadd.
    cbn [name_of]. rewrite Hmid. assert (id' = id) by congruence. subst. exact Hin.
  - intros k K e Hw _ IH Hnd Hmem. destruct (IH Hnd) as (L & HL).
    exists L. intros l Hl F p st' H. apply (HL (S l)) with (F := F) (p := p) (st' := st'); [lia|].
    destruct k as [tag a t kids|t]; [|discriminate Hmem].
    assert (is_elem (Elem tag a t kids)) as He by exact I.
    set (k := Elem tag a t kids) in *. clearbody k.
    rewrite wanted_ln in Hw by exact He. unfold member_step in H. rewrite member_at in Hmem by exact He.
    cbn [read_doc]. rewrite local_ln by exact He. cbn [bind].
    destruct (String.eqb_spec (ln k) "Policy") as [N1|N1]; [exact H|].
    destruct (String.eqb_spec (ln k) "PolicyIdReference"); [discriminate Hw|].
    destruct (String.eqb_spec (ln k) "PolicySet") as [N2|N2]; [exact H|].
    destruct (String.eqb_spec (ln k) "PolicySetIdReference"); [discriminate Hw|discriminate H].
  - intros k x K Hfd Hw Hn Hnd _. exists 0. intros l _ F p st' H.
    rewrite (member_find _ k x _ (wanted_elem k x Hw) Hw), find_name_eq, Hfd in H.
    apply lookup_none in Hn. rewrite Hn in H. discriminate H.
  - intros base k x K Hfd Hw Hn Ht Hnd _. exists 0. intros l _ F p st' H.
    rewrite (member_find _ k x _ (wanted_elem k x Hw) Hw), find_name_eq, Hfd in H.
    apply lookup_none in Hn. rewrite Hn, (wanted_text k x (wanted_elem k x Hw) Hw), Ht in H. discriminate H.
  - intros base k x r K e Hfd Hw Hn Ht Hu Hnd _. exists 0. intros l _ F p st' H.
    rewrite (member_find _ k x _ (wanted_elem k x Hw) Hw), find_name_eq, Hfd in H.
    apply lookup_none in Hn. rewrite Hn, (wanted_text k x (wanted_elem k x Hw) Hw), Ht in H.
    cbn [find_from_reference] in H. rewrite Hu in H. discriminate H.
  - intros base k x r url K e Hfd Hw Hn Ht Hu Hf Hnd _. exists 0. intros l _ F p st' H.
    rewrite (member_find _ k x _ (wanted_elem k x Hw) Hw), find_name_eq, Hfd in H.
    apply lookup_none in Hn. rewrite Hn, (wanted_text k x (wanted_elem k x Hw) Hw), Ht in H.
    cbn [find_from_reference] in H. rewrite Hu in H. cbn [bind] in H. rewrite Hf in H. discriminate H.
  - intros base k x r url d K e Hfd Hw Hn Ht Hu Hf _ IH Hnd _. destruct (IH Hnd) as (L & HL).
    exists L. intros l Hl F p st' H.
    rewrite (member_find _ k x _ (wanted_elem k x Hw) Hw), find_name_eq, Hfd in H.
    apply lookup_none in Hn. rewrite Hn, (wanted_text k x (wanted_elem k x Hw) Hw), Ht in H.
    apply bind_ok in H. destruct H as (st1 & H & _).
    cbn [find_from_reference] in H. rewrite Hu in H. cbn [bind] in H. rewrite Hf in H. cbn [bind fs_reg fs_fetched] in H.
    apply bind_ok in H. destruct H as ([q st2] & H & _). rewrite <- Hfd in H. exact (HL l Hl _ q st2 H).
  - intros base k x r url d K K' urls q Hfd Hw Hn Ht Hu Hf Hr Hn' Hnd _.
    destruct (proj1 (complete_mut E HE fetch fd) _ _ _ _ _ Hr Hnd) as (Hnd1 & L & HL).
    exists L. intros l Hl F p st' H.
    rewrite (member_find _ k x _ (wanted_elem k x Hw) Hw), find_name_eq in H.
    destruct fd as [|b]; [discriminate Hfd|]. injection Hfd as ->.
    apply lookup_none in Hn. rewrite Hn, (wanted_text k x (wanted_elem k x Hw) Hw), Ht in H.
    apply bind_ok in H. destruct H as (st1 & H1 & H).
    cbn [find_from_reference] in H1. rewrite Hu in H1. cbn [bind] in H1. rewrite Hf in H1. cbn [bind fs_reg fs_fetched] in H1.
    rewrite HL in H1 by exact Hl. cbn [bind] in H1. injection H1 as <-. cbn [fs_reg] in H.
    replace (match x with PolicyName r => key_get r (rg_policies (holding K'))
             | SetName r => key_get r (rg_sets (holding K')) end) with (lookup x K') in H by (destruct x; reflexivity).
    apply lookup_none in Hn'. rewrite Hn' in H. discriminate H.
Qed.

Lemma refused_never : forall n K e, refuses E fetch fd n K e -> NoDup (map name_of K) ->
  forall limit F, exists e', read_doc limit E fetch fd n (mkFstate (holding K) F) = Raise e'.
Proof.
  intros n K e H Hnd limit F. destruct (proj1 refused_mut n K e H Hnd) as (L & HL).
  destruct (read_doc limit E fetch fd n (mkFstate (holding K) F)) as [[p st']|e'] eqn:Hr; [exfalso|exists e'; reflexivity].
  apply (HL (limit + L)%nat) with (F := F) (p := p) (st' := st'); [lia|].
  rewrite <- Hr. apply agrees_doc; [lia|]. unfold settled. rewrite Hr. discriminate.
Qed.
End Docs.
