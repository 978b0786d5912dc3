(** Lemmas for C45 and C47: policy sets and finders. *)
From Verif Require Import Readers SpecText SpecSetters SpecRead.
From Verif Require Import EvalFacts StringFacts SettersFacts TextFacts ReadFacts ReadFacts2.

(** ** The finder's registry *)
Lemma holding_app : forall K p,
  holding (K ++ [p]) =
  match p with
  | PPolicy _ _ _ _ => mkRegistry (rg_policies (holding K) ++ [(id_of p, p)]) (rg_sets (holding K))
  | PPolicySet _ _ _ _ => mkRegistry (rg_policies (holding K)) (rg_sets (holding K) ++ [(id_of p, p)])
  end.
Proof.
  intros K p. unfold holding. rewrite !filter_app, !map_app. destruct p; cbn [filter map rg_policies rg_sets];
    rewrite app_nil_r; reflexivity.
Qed.

Definition lookup (x : name) (K : list policybase) : option policybase :=
  match x with
  | PolicyName id => key_get id (rg_policies (holding K))
  | SetName id => key_get id (rg_sets (holding K))
  end.

Lemma lookup_nil : forall x, lookup x [] = None.
Proof. intros [id|id]; reflexivity. Qed.

Lemma name_eq_dec : forall x y : name, {x = y} + {x <> y}.
Proof. decide equality; decide equality; apply String.string_dec. Qed.

Lemma lookup_snoc : forall x K p, lookup x (K ++ [p]) =
  match lookup x K with Some q => Some q | None => if name_eq_dec x (name_of p) then Some p else None end.
Proof.
  intros x K p. unfold lookup. rewrite holding_app.
  destruct x as [id|id], p as [m t a rs|m t a ps]; cbn [rg_policies rg_sets name_of id_of];
    rewrite ?key_get_app; cbn [key_get].
  - destruct (key_get id (rg_policies (holding K))); [reflexivity|].
    destruct (opt_eqb String.eqb id (pm_id m)) eqn:Eo.
    + apply okey_eq in Eo. subst id. destruct (name_eq_dec _ _); congruence.
    + destruct (name_eq_dec _ _) as [H|H]; [|reflexivity]. injection H as ->.
      replace (opt_eqb String.eqb (pm_id m) (pm_id m)) with true in Eo; [discriminate|symmetry; apply okey_eq; reflexivity].
  - destruct (key_get id (rg_policies (holding K))); [reflexivity|]. destruct (name_eq_dec _ _); congruence.
  - destruct (key_get id (rg_sets (holding K))); [reflexivity|]. destruct (name_eq_dec _ _); congruence.
  - destruct (key_get id (rg_sets (holding K))); [reflexivity|].
    destruct (opt_eqb String.eqb id (pm_id m)) eqn:Eo.
    + apply okey_eq in Eo. subst id. destruct (name_eq_dec _ _); congruence.
    + destruct (name_eq_dec _ _) as [H|H]; [|reflexivity]. injection H as ->.
      replace (opt_eqb String.eqb (pm_id m) (pm_id m)) with true in Eo; [discriminate|symmetry; apply okey_eq; reflexivity].
Qed.

Lemma lookup_some : forall K x p, lookup x K = Some p -> In p K /\ name_of p = x.
Proof.
  induction K as [|q K IH] using rev_ind; intros x p; [rewrite lookup_nil; discriminate|].
  rewrite lookup_snoc. destruct (lookup x K) as [r|] eqn:El.
  - intros [= ->]. destruct (IH x p El) as [H1 H2]. split; [apply in_or_app; left; exact H1|exact H2].
  - destruct (name_eq_dec x (name_of q)) as [->|]; [|discriminate]. intros [= ->].
    split; [apply in_or_app; right; left; reflexivity|reflexivity].
Qed.

Lemma lookup_none : forall K x, lookup x K = None <-> ~ In x (map name_of K).
Proof.
  induction K as [|q K IH] using rev_ind; intros x; [rewrite lookup_nil; cbn; tauto|].
  rewrite lookup_snoc, map_app, in_app_iff. cbn [map In]. specialize (IH x).
  destruct (lookup x K) as [r|].
  - split; [discriminate|]. intros H. destruct IH as [_ IH].
    assert (Some r = None) as H' by (apply IH; tauto). discriminate H'.
  - destruct (name_eq_dec x (name_of q)) as [->|Hne].
    + split; [discriminate|]. intros H. destruct H. right. left. reflexivity.
    + split; [|reflexivity]. intros _ [H|[H|[]]]; [apply IH in H; [destruct H|reflexivity]|congruence].
Qed.

Lemma lookup_in : forall K p, NoDup (map name_of K) -> In p K -> lookup (name_of p) K = Some p.
Proof.
  intros K p Hnd Hp. destruct (lookup (name_of p) K) as [q|] eqn:El.
  - apply lookup_some in El. destruct El as [Hq Hn]. f_equal.
    revert Hnd Hp Hq Hn. clear. induction K as [|x K IH]; intros Hnd Hp Hq Hn; [destruct Hp|].
    cbn [map] in Hnd. inversion Hnd as [|? ? Hni Hnd']; subst.
    destruct Hp as [->|Hp], Hq as [->|Hq].
    + reflexivity.
    + destruct Hni. rewrite <- Hn. apply in_map, Hq.
    + destruct Hni. rewrite Hn. apply in_map, Hp.
    + apply IH; assumption.
  - apply lookup_none in El. destruct El. apply in_map, Hp.
Qed.

Definition is_policy (p : policybase) : Prop := match p with PPolicy _ _ _ _ => True | _ => False end.
Definition is_set (p : policybase) : Prop := match p with PPolicySet _ _ _ _ => True | _ => False end.

Lemma add_policy_holding : forall K p g, is_policy p ->
  (add_policy (holding K) p = Ok g <-> ~ In (name_of p) (map name_of K) /\ g = holding (K ++ [p])).
Proof.
  intros K [m t a rs|m t a ps] g Hp; [|destruct Hp]. rewrite <- lookup_none, holding_app.
  cbn [add_policy lookup name_of id_of]. unfold key_mem.
  destruct (key_get (pm_id m) (rg_policies (holding K))); split.
  - discriminate.
  - intros [H _]. discriminate H.
  - intros [= <-]. split; reflexivity.
  - intros [_ ->]. reflexivity.
Qed.

Lemma add_set_holding : forall K p g, is_set p ->
  (add_policy_set (holding K) p = Ok g <-> ~ In (name_of p) (map name_of K) /\ g = holding (K ++ [p])).
Proof.
  intros K [m t a rs|m t a ps] g Hp; [destruct Hp|]. rewrite <- lookup_none, holding_app.
  cbn [add_policy_set lookup name_of id_of]. unfold key_mem.
  destruct (key_get (pm_id m) (rg_sets (holding K))); split.
  - discriminate.
  - intros [H _]. discriminate H.
  - intros [= <-]. split; reflexivity.
  - intros [_ ->]. reflexivity.
Qed.

(** ** One policy set element *)
Section Set_.
Variable E : renv.
Hypothesis HE : default_readers E.
Variable fetch : string -> res node.
Variable fd : finder.

Section Nested.
Variable nested : node -> fstate -> res (policybase * fstate).

Definition member_step (k : node) (st : fstate) : res (policybase * fstate) :=
  let l := ln k in
  if String.eqb l "Policy" then read_policy_reg E k st
  else if String.eqb l "PolicyIdReference" then find_policy fetch fd nested (el_text k) st
  else if String.eqb l "PolicySet" then read_set E fetch fd nested k st
  else if String.eqb l "PolicySetIdReference" then find_policy_set fetch fd nested (el_text k) st
  else Raise EXMLParseError.

Definition set_step (s : sacc * fstate) (k : node) : res (sacc * fstate) :=
  let '(a, st) := s in
  let l := ln k in
  if String.eqb l "Description" then
    Ok (mkSacc (description_of k (sc_description a)) (sc_target a) (sc_policies a), st)
  else if String.eqb l "PolicySetDefaults" then
    let* _ := read_defaults k in Raise EAttributeError
  else if String.eqb l "Target" then
    let* t := read_target E k in
    Ok (mkSacc (sc_description a) (Some t) (sc_policies a), st)
  else if String.eqb l "CombinerParameters" then Raise ENotImplementedError
  else if String.eqb l "PolicyCombinerParameters" then Raise ENotImplementedError
  else if String.eqb l "PolicySetCombinerParameters" then Raise ENotImplementedError
  else if String.eqb l "VariableDefinition" then Raise EImportError
  else if String.eqb l "Policy" then
    let* (p, st') := read_policy_reg E k st in Ok (sacc_add a p, st')
  else if String.eqb l "PolicyIdReference" then
    let* (p, st') := find_policy fetch fd nested (el_text k) st in Ok (sacc_add a p, st')
  else if String.eqb l "PolicySet" then
    let* (p, st') := read_set E fetch fd nested k st in Ok (sacc_add a p, st')
  else if String.eqb l "PolicySetIdReference" then
    let* (p, st') := find_policy_set fetch fd nested (el_text k) st in Ok (sacc_add a p, st')
  else if String.eqb l "Obligations" then Raise ENotImplementedError
  else Raise EXMLParseError.

Lemma read_set_eq : forall n st, is_elem n ->
  read_set E fetch fd nested n st =
  if negb (String.eqb (ln n) "PolicySet") then Raise EXMLParseError
  else
    let* id := required n "PolicySetId" in
    let* algId := required n "PolicyCombiningAlgId" in
    let* alg := policy_alg_of algId in
    let* (a, st1) := foldM set_step (elems n) (mkSacc None None [], st) in
    let p := PPolicySet (mkMeta (Some id) (Some (version_of n)) (Some algId)
                           (sc_description a) None)
               (sc_target a) (Some alg) (sc_policies a) in
    let* g := add_policy_set (fs_reg st1) p in
    Ok (p, mkFstate g (fs_fetched st1)).
Proof.
  intros [tag attrs text kids|t] st H; [|destruct H]. cbn [ln read_set elems]. clear H.
  destruct (negb (String.eqb (get_local_part tag) "PolicySet")); [reflexivity|].
  destruct (required _ "PolicySetId") as [id|e]; [|reflexivity]. cbn [bind].
  destruct (required _ "PolicyCombiningAlgId") as [ai|e]; [|reflexivity]. cbn [bind].
  destruct (policy_alg_of ai) as [alg|e]; [|reflexivity]. cbn [bind].
  match goal with |- bind (?go kids _ st) _ = _ => set (g := go) end.
  assert (forall ks a st, g ks a st = foldM set_step (elements ks) (a, st)) as Hg.
  { clear. induction ks as [|k ks IH]; intros a st; [reflexivity|].
    destruct k as [t at_ x sub|t].
    - cbn [elements filter foldM]. fold (elements ks).
      transitivity (let* (a', st') := set_step (a, st) (Elem t at_ x sub) in g ks a' st').
      { reflexivity. }
      destruct (set_step (a, st) (Elem t at_ x sub)) as [[a' st']|e]; [apply IH|reflexivity].
    - cbn [elements filter]. fold (elements ks). rewrite <- IH. reflexivity. }
  rewrite Hg. reflexivity.
Qed.

(** The members alone. *)
Fixpoint run (ks : list node) (st : fstate) : res (list policybase * fstate) :=
  match ks with
  | [] => Ok ([], st)
  | k :: r =>
      let* (p, st1) := member_step k st in
      let* (ps, st2) := run r st1 in
      Ok (p :: ps, st2)
  end.

Lemma run_snoc : forall ks k st, run (ks ++ [k]) st =
  let* (ps, st1) := run ks st in
  let* (p, st2) := member_step k st1 in
  Ok (ps ++ [p], st2).
Proof.
  induction ks as [|x ks IH]; intros k st.
  - cbn [app run bind]. destruct (member_step k st) as [[p st1]|e]; reflexivity.
  - cbn [app run]. destruct (member_step x st) as [[p st1]|e]; [|reflexivity]. cbn [bind].
    rewrite IH. destruct (run ks st1) as [[ps st2]|e]; [|reflexivity]. cbn [bind].
    destruct (member_step k st2) as [[q st3]|e]; reflexivity.
Qed.

Definition is_member (k : node) : bool :=
  called "Policy" k || called "PolicySet" k || called "PolicyIdReference" k || called "PolicySetIdReference" k.

Definition SET_NAMES := ["Description"; "Target"; "Policy"; "PolicySet"; "PolicyIdReference"; "PolicySetIdReference"].

Lemma member_at : forall x, is_elem x -> is_member x =
  (String.eqb (ln x) "Policy" || String.eqb (ln x) "PolicySet" ||
   String.eqb (ln x) "PolicyIdReference" || String.eqb (ln x) "PolicySetIdReference").
Proof. intros x He. unfold is_member. rewrite !called_ln by (reflexivity || exact He). reflexivity. Qed.

Ltac case_name n s := destruct (String.eqb_spec (ln n) s) as [?Hn|?Hn].

Lemma set_fold : forall l st a st', (forall c, In c l -> is_elem c) ->
  (foldM set_step l (mkSacc None None [], st) = Ok (a, st') <->
   (forall c, In c l -> called_one_of SET_NAMES c) /\
   sc_description a = descr l /\
   last_one (target_doc E) (filter (called "Target") l) (sc_target a) /\
   run (filter is_member l) st = Ok (sc_policies a, st')).
Proof.
  induction l as [|x l IH] using rev_ind; intros st a st' Hel.
  { cbn [foldM filter run]. rewrite last_one_nil. split.
    - intros [= <- <-]. split; [intros c []|]. split; [reflexivity|]. split; reflexivity.
    - destruct a; cbn. intros (_ & -> & -> & [= <- <-]). reflexivity. }
  apply elem_snoc in Hel. destruct Hel as [Hel He].
  rewrite foldM_snoc, bind_ok, one_of_snoc. rewrite (one_of_ln _ x He) by reflexivity.
  rewrite descr_snoc by exact He. rewrite !filter_snoc, member_at by exact He.
  rewrite (called_ln "Target" x eq_refl He).
  split.
  - intros ([a0 st0] & H0 & H). apply IH in H0; [|exact Hel]. destruct H0 as (H1 & H2 & H3 & H4).
    assert (forall st2 p, member_step x st0 = Ok (p, st2) -> (sacc_add a0 p, st2) = (a, st') ->
      run (filter is_member l ++ [x]) st = Ok (sc_policies a, st')) as Hrun.
    { intros st2 p Hm [= <- <-]. rewrite run_snoc, H4. cbn [bind]. rewrite Hm. reflexivity. }
    unfold set_step in H. unfold member_step in Hrun.
    case_name x "Description".
    { injection H as <- <-. cbn [sc_description sc_target sc_policies]. rewrite Hn, H2.
      cbn [String.eqb Ascii.eqb Bool.eqb orb].
      split; [split; [exact H1|left; reflexivity]|]. split; [reflexivity|]. split; assumption. }
    case_name x "PolicySetDefaults"; [destruct (read_defaults x); discriminate H|].
    case_name x "Target".
    { apply bind_ok in H. destruct H as (t & Ht & H). injection H as <- <-.
      apply read_target_iff in Ht; [|exact HE].
      cbn [sc_description sc_target sc_policies]. rewrite Hn1. cbn [String.eqb Ascii.eqb Bool.eqb orb].
      split; [split; [exact H1|right; left; reflexivity]|]. split; [assumption|]. split; [|assumption].
      apply last_one_snoc. split; [exists (sc_target a0); exact H3|]. exists t. split; [reflexivity|exact Ht]. }
    case_name x "CombinerParameters"; [discriminate H|].
    case_name x "PolicyCombinerParameters"; [discriminate H|].
    case_name x "PolicySetCombinerParameters"; [discriminate H|].
    case_name x "VariableDefinition"; [discriminate H|].
    case_name x "Policy".
    { apply bind_ok in H. destruct H as ([p st2] & Hp & H). injection H as <- <-.
      rewrite Hn6. cbn [String.eqb Ascii.eqb Bool.eqb orb].
      split; [split; [exact H1|cbn; tauto]|]. split; [exact H2|]. split; [exact H3|].
      eapply Hrun; [exact Hp|reflexivity]. }
    case_name x "PolicyIdReference".
    { apply bind_ok in H. destruct H as ([p st2] & Hp & H). injection H as <- <-.
      rewrite Hn7. cbn [String.eqb Ascii.eqb Bool.eqb orb].
      split; [split; [exact H1|cbn; tauto]|]. split; [exact H2|]. split; [exact H3|].
      eapply Hrun; [exact Hp|reflexivity]. }
    case_name x "PolicySet".
    { apply bind_ok in H. destruct H as ([p st2] & Hp & H). injection H as <- <-.
      rewrite Hn8. cbn [String.eqb Ascii.eqb Bool.eqb orb].
      split; [split; [exact H1|cbn; tauto]|]. split; [exact H2|]. split; [exact H3|].
      eapply Hrun; [exact Hp|reflexivity]. }
    case_name x "PolicySetIdReference".
    { apply bind_ok in H. destruct H as ([p st2] & Hp & H). injection H as <- <-.
      rewrite Hn9. cbn [String.eqb Ascii.eqb Bool.eqb orb].
      split; [split; [exact H1|cbn; tauto]|]. split; [exact H2|]. split; [exact H3|].
      eapply Hrun; [exact Hp|reflexivity]. }
    case_name x "Obligations"; discriminate H.
  - destruct a as [ad at_ ap]. cbn [sc_description sc_target sc_policies].
    intros ((H1 & Hx) & H2 & H3 & H4).
    assert (forall Q : Prop, (forall ps st1 p, run (filter is_member l) st = Ok (ps, st1) ->
              member_step x st1 = Ok (p, st') -> ap = ps ++ [p] -> Q) ->
            run (filter is_member l ++ [x]) st = Ok (ap, st') -> Q) as Hrun.
    { intros Q HQ Hr. rewrite run_snoc in Hr. apply bind_ok in Hr. destruct Hr as ([ps st1] & Hr & Hm).
      apply bind_ok in Hm. destruct Hm as ([p st2] & Hm & Heq). injection Heq as <- <-.
      exact (HQ ps st1 p Hr Hm eq_refl). }
    unfold member_step in Hrun.
    destruct Hx as [Hx|[Hx|[Hx|[Hx|[Hx|[Hx|[]]]]]]]; symmetry in Hx; unfold set_step; rewrite Hx in *;
      cbn [String.eqb Ascii.eqb Bool.eqb orb] in *.
    + exists (mkSacc (descr l) at_ ap, st'). split.
      { apply IH; [exact Hel|]. cbn. split; [exact H1|]. split; [reflexivity|]. split; assumption. }
      cbn. rewrite H2. reflexivity.
    + apply last_one_snoc in H3. destruct H3 as [(o' & H3) (t & -> & Ht)].
      exists (mkSacc ad o' ap, st'). split.
      { apply IH; [exact Hel|]. cbn. split; [exact H1|]. split; [assumption|]. split; assumption. }
      apply bind_ok. exists t. split; [apply read_target_iff; assumption|reflexivity].
    + revert H4. apply Hrun. intros ps st1 p Hr Hm ->.
      exists (mkSacc ad at_ ps, st1). split; [apply IH; [exact Hel|]; cbn; repeat (split; [assumption|]); assumption|].
      rewrite Hm. reflexivity.
    + revert H4. apply Hrun. intros ps st1 p Hr Hm ->.
      exists (mkSacc ad at_ ps, st1). split; [apply IH; [exact Hel|]; cbn; repeat (split; [assumption|]); assumption|].
      rewrite Hm. reflexivity.
    + revert H4. apply Hrun. intros ps st1 p Hr Hm ->.
      exists (mkSacc ad at_ ps, st1). split; [apply IH; [exact Hel|]; cbn; repeat (split; [assumption|]); assumption|].
      rewrite Hm. reflexivity.
    + revert H4. apply Hrun. intros ps st1 p Hr Hm ->.
      exists (mkSacc ad at_ ps, st1). split; [apply IH; [exact Hel|]; cbn; repeat (split; [assumption|]); assumption|].
      rewrite Hm. reflexivity.
Qed.
End Nested.

(** ** What reading does *)
Notation reads := (reads E fetch fd).
Notation reads_members := (reads_members E fetch fd).
Notation reads_member := (reads_member E fetch fd).

Definition sound (f : node -> fstate -> res (policybase * fstate)) : Prop :=
  forall d K F p st', f d (mkFstate (holding K) F) = Ok (p, st') ->
  exists K' U, reads d K K' U p /\ st' = mkFstate (holding K') (F ++ U).

Lemma policy_reg_iff : forall n K F p st',
  read_policy_reg E n (mkFstate (holding K) F) = Ok (p, st') <->
  policy_doc E n p /\ ~ In (name_of p) (map name_of K) /\ st' = mkFstate (holding (K ++ [p])) F.
Proof.
  intros n K F p st'. unfold read_policy_reg. cbn [fs_reg fs_fetched]. split.
  - intros H. apply bind_ok in H. destruct H as (q & Hq & H). apply bind_ok in H.
    destruct H as (g & Hg & H). injection H as -> <-. apply read_policy_iff in Hq; [|exact HE].
    apply add_policy_holding in Hg.
    2:{ destruct Hq as (_ & _ & id & ai & al & de & xp & t & rs & -> & _). exact I. }
    destruct Hg as [Hf ->]. split; [exact Hq|]. split; [exact Hf|reflexivity].
  - intros (Hq & Hf & ->). apply bind_ok. exists p. split; [apply read_policy_iff; assumption|].
    apply bind_ok. exists (holding (K ++ [p])). split; [|reflexivity]. apply add_policy_holding.
    { destruct Hq as (_ & _ & id & ai & al & de & xp & t & rs & -> & _). exact I. }
    split; [exact Hf|reflexivity].
Qed.

Definition find_name (nested : node -> fstate -> res (policybase * fstate)) (x : name) : fstate -> res (policybase * fstate) :=
  match x with
  | PolicyName ref => find_policy fetch fd nested ref
  | SetName ref => find_policy_set fetch fd nested ref
  end.
Definition ref_of (x : name) : option string := match x with PolicyName r => r | SetName r => r end.

Lemma find_name_eq : forall nested x K F,
  find_name nested x (mkFstate (holding K) F) =
  match fd with
  | LocalFinder =>
      match lookup x K with
      | Some p => Ok (p, mkFstate (holding K) F)
      | None => Raise EXMLParseError
      end
  | UrlFinder base =>
      let* st1 := match lookup x K with
                  | Some _ => Ok (mkFstate (holding K) F)
                  | None => find_from_reference fetch nested base (ref_of x) (mkFstate (holding K) F)
                  end in
      match (match x with PolicyName r => key_get r (rg_policies (fs_reg st1))
             | SetName r => key_get r (rg_sets (fs_reg st1)) end) with
      | Some p => Ok (p, st1)
      | None => Raise EXMLParseError
      end
  end.
Proof. intros nested [r|r] K F; reflexivity. Qed.

Lemma find_name_sound : forall nested x K F p st', sound nested ->
  find_name nested x (mkFstate (holding K) F) = Ok (p, st') ->
  (lookup x K = Some p /\ st' = mkFstate (holding K) F) \/
  exists base r url d K' U q, fd = UrlFinder base /\ ref_of x = Some r /\ lookup x K = None /\
    make_url base r = Ok url /\ fetch url = Ok d /\ reads d K K' U q /\ lookup x K' = Some p /\
    st' = mkFstate (holding K') (F ++ url :: U).
Proof.
  intros nested x K F p st' Hs H. rewrite find_name_eq in H.
  assert (fd = LocalFinder \/ exists base, fd = UrlFinder base) as [Hfd|[base Hfd]]
    by (destruct fd as [|base]; [left; reflexivity|right; exists base; reflexivity]); rewrite Hfd in H.
  - left. destruct (lookup x K) as [q|]; [|discriminate H]. injection H as -> <-. split; reflexivity.
  - apply bind_ok in H. destruct H as (st1 & H1 & H). destruct (lookup x K) as [q|] eqn:El.
    + injection H1 as <-. cbn [fs_reg] in H.
      replace (match x with PolicyName r => key_get r (rg_policies (holding K))
             | SetName r => key_get r (rg_sets (holding K)) end) with (lookup x K) in H by (destruct x; reflexivity).
      rewrite El in H. injection H as -> <-. left. split; reflexivity.
    + right. unfold find_from_reference in H1. destruct (ref_of x) as [r|] eqn:Er; [|discriminate H1].
      apply bind_ok in H1. destruct H1 as (url & Hu & H1). cbn [fs_reg fs_fetched] in H1.
      apply bind_ok in H1. destruct H1 as (d & Hd & H1).
      apply bind_ok in H1. destruct H1 as ([q st2] & Hq & H1). injection H1 as ->.
      apply Hs in Hq. destruct Hq as (K' & U & Hr & ->). cbn [fs_reg] in H.
      replace (match x with PolicyName r => key_get r (rg_policies (holding K'))
             | SetName r => key_get r (rg_sets (holding K')) end) with (lookup x K') in H by (destruct x; reflexivity).
      destruct (lookup x K') as [p'|] eqn:El'; [|discriminate H]. injection H as -> <-.
      exists base, r, url, d, K', U, q.
      repeat (split; [assumption || reflexivity|]). rewrite <- app_assoc. reflexivity.
Qed.

Lemma wanted_ln : forall k, is_elem k -> wanted k =
  if String.eqb (ln k) "PolicyIdReference" then Some (PolicyName (xml_text k))
  else if String.eqb (ln k) "PolicySetIdReference" then Some (SetName (xml_text k)) else None.
Proof. intros k He. unfold wanted. rewrite !called_ln by (reflexivity || exact He). reflexivity. Qed.

Lemma policy_alg_of_iff : forall id a, policy_alg_of id = Ok a <-> policy_algorithm id = Some a.
Proof.
  intros id a. unfold policy_alg_of, policyset_alg_step, policyset_alg_from_id. cbn [pa_factory policyset_alg_new].
  rewrite <- policy_map_get. destruct (dict_get id POLICY_ALG_MAP) as [[b| |]|]; cbn; split; congruence.
Qed.

(** A reference member, both ways. *)
Lemma member_ref_sound : forall nested k K F p st' x, sound nested -> is_elem k ->
  wanted k = Some x -> member_step nested k (mkFstate (holding K) F) = Ok (p, st') ->
  exists K' U, reads_member k K K' U p /\ st' = mkFstate (holding K') (F ++ U).
Proof.
  intros nested k K F p st' x Hs He Hw H.
  assert (member_step nested k (mkFstate (holding K) F) = find_name nested x (mkFstate (holding K) F)) as Hm.
  { rewrite wanted_ln in Hw by exact He. unfold member_step. rewrite text_get by exact He.
    destruct (String.eqb_spec (ln k) "PolicyIdReference") as [Hn|Hn].
    { injection Hw as <-. rewrite Hn. reflexivity. }
    destruct (String.eqb_spec (ln k) "PolicySetIdReference") as [Hn'|Hn']; [|discriminate Hw].
    injection Hw as <-. rewrite Hn'. reflexivity. }
  assert (ref_of x = xml_text k) as Hx.
  { rewrite wanted_ln in Hw by exact He.
    destruct (String.eqb (ln k) "PolicyIdReference"); [injection Hw as <-; reflexivity|].
    destruct (String.eqb (ln k) "PolicySetIdReference"); [injection Hw as <-; reflexivity|discriminate Hw]. }
  rewrite Hm in H. apply find_name_sound in H; [|exact Hs].
  destruct H as [[Hl ->]|(base & r & url & d & K' & U & q & Hfd & Hr & Hl & Hu & Hd & Hq & Hl' & ->)].
  - apply lookup_some in Hl. destruct Hl as [Hi Hnm]. exists K, []. rewrite app_nil_r. split; [|reflexivity].
    apply reads_known; [|exact Hi]. rewrite Hw, Hnm. reflexivity.
  - apply lookup_some in Hl'. destruct Hl' as [Hi Hnm]. exists K', (url :: U). split; [|reflexivity].
    apply (reads_fetched E fetch fd base k r url d K K' U q p); try assumption.
    + rewrite <- Hx. exact Hr.
    + rewrite Hw, Hnm. reflexivity.
    + rewrite Hnm. apply lookup_none, Hl.
Qed.

Lemma members_eq : forall n, members n = filter is_member (elems n).
Proof. reflexivity. Qed.

Lemma set_sound : forall nested, sound nested -> forall n, is_elem n -> forall K F p st',
  read_set E fetch fd nested n (mkFstate (holding K) F) = Ok (p, st') ->
  exists K' U, reads n K K' U p /\ st' = mkFstate (holding K') (F ++ U).
Proof.
  intros nested Hs. induction n as [t|tag at_ tx kids IH] using node_ind'; intros He; [destruct He|].
  set (n := Elem tag at_ tx kids) in *.
  assert (forall k, In k (elems n) -> forall K F p st',
    read_set E fetch fd nested k (mkFstate (holding K) F) = Ok (p, st') ->
    exists K' U, reads k K K' U p /\ st' = mkFstate (holding K') (F ++ U)) as IH'.
  { intros k Hk. rewrite Forall_forall in IH. apply IH; [|exact (elems_is n k Hk)].
    apply filter_In in Hk. apply Hk. }
  clearbody n. clear IH.
  assert (forall ks, (forall k, In k ks -> In k (elems n) /\ is_member k = true) -> forall K F ps st',
    run nested ks (mkFstate (holding K) F) = Ok (ps, st') ->
    exists K' U, reads_members ks K K' U ps /\ st' = mkFstate (holding K') (F ++ U)) as Hrun.
  { induction ks as [|k ks IHk]; intros Hks K F ps st' H; cbn [run] in H.
    - injection H as <- <-. exists K, []. split; [constructor|]. rewrite app_nil_r. reflexivity.
    - apply bind_ok in H. destruct H as ([p st1] & Hm & H). apply bind_ok in H.
      destruct H as ([ps' st2] & Hr & H). injection H as <- <-.
      destruct (Hks k (or_introl eq_refl)) as [Hk Hmem]. pose proof (elems_is n k Hk) as Hek.
      assert (exists K1 U1, reads_member k K K1 U1 p /\ st1 = mkFstate (holding K1) (F ++ U1)) as Hmm.
      { destruct (wanted k) as [x|] eqn:Ew; [exact (member_ref_sound nested k K F p st1 x Hs Hek Ew Hm)|].
        rewrite wanted_ln in Ew by exact Hek. rewrite member_at in Hmem by exact Hek.
        unfold member_step in Hm.
        destruct (String.eqb_spec (ln k) "Policy") as [Hn|Hn].
        - apply policy_reg_iff in Hm. destruct Hm as (Hd & Hf & ->). exists (K ++ [p]), [].
          rewrite app_nil_r. split; [|reflexivity]. apply reads_inline.
          + rewrite wanted_ln by exact Hek. rewrite Hn. reflexivity.
          + apply reads_policy; assumption.
        - destruct (String.eqb (ln k) "PolicyIdReference"); [discriminate Ew|].
          destruct (String.eqb_spec (ln k) "PolicySet") as [Hn2|Hn2].
          + apply IH' in Hm; [|exact Hk]. destruct Hm as (K1 & U1 & Hr1 & ->).
            exists K1, U1. split; [|reflexivity]. apply reads_inline; [|exact Hr1].
            rewrite wanted_ln by exact Hek. rewrite Hn2. reflexivity.
          + destruct (String.eqb (ln k) "PolicySetIdReference"); [discriminate Ew|]. discriminate Hmem. }
      destruct Hmm as (K1 & U1 & Hmm & ->).
      apply IHk in Hr; [|intros k' Hk'; apply Hks; right; exact Hk'].
      destruct Hr as (K2 & U2 & Hr & ->). exists K2, (U1 ++ U2). split; [|rewrite app_assoc; reflexivity].
      eapply reads_more; eassumption. }
  intros K F p st' H. rewrite read_set_eq in H by exact He.
  destruct (String.eqb (ln n) "PolicySet") eqn:En; cbn [negb] in H; [|discriminate H].
  apply bind_ok in H. destruct H as (id & Hid & H). apply required_ok in Hid.
  apply bind_ok in H. destruct H as (ai & Hai & H). apply required_ok in Hai.
  apply bind_ok in H. destruct H as (alg & Ha & H). apply policy_alg_of_iff in Ha.
  apply bind_ok in H. destruct H as ([a st1] & Hfold & H). cbv zeta in H.
  apply bind_ok in H. destruct H as (g & Hg & H). injection H as <- <-.
  apply set_fold in Hfold; [|exact (elems_is n)]. destruct Hfold as (H1 & H2 & H3 & H4).
  rewrite <- members_eq in H4. apply Hrun in H4.
  2:{ intros k Hk. apply filter_In in Hk. exact Hk. }
  destruct H4 as (K1 & U & Hr & ->). cbn [fs_reg fs_fetched] in *.
  apply add_set_holding in Hg; [|exact I]. destruct Hg as [Hf ->].
  eexists _, U. split; [|reflexivity]. rewrite version_eq in *.
  eapply reads_set with (id := id) (algId := ai) (alg := alg); try eassumption; try reflexivity.
  - rewrite called_ln by (reflexivity || exact He). exact En.
  - rewrite description_iff. exact H2.
Qed.

Lemma doc_sound : forall limit, sound (read_doc limit E fetch fd).
Proof.
  induction limit as [|limit IH]; intros d K F p st' H; cbn [read_doc] in H; [discriminate H|].
  destruct d as [tag a t kids|t]; [|discriminate H]. set (n := Elem tag a t kids) in *.
  assert (is_elem n) as He by exact I. clearbody n. rewrite local_ln in H by exact He. cbn [bind] in H.
  destruct (String.eqb (ln n) "Policy") eqn:E1.
  - apply policy_reg_iff in H. destruct H as (Hd & Hf & ->). exists (K ++ [p]), [].
    rewrite app_nil_r. split; [|reflexivity]. apply reads_policy; assumption.
  - destruct (String.eqb (ln n) "PolicySet"); [|discriminate H].
    exact (set_sound _ IH n He K F p st' H).
Qed.
End Set_.

Scheme reads_ind' := Minimality for reads Sort Prop
  with members_ind' := Minimality for reads_members Sort Prop
  with member_ind' := Minimality for reads_member Sort Prop.
Combined Scheme reads_mutind from reads_ind', members_ind', member_ind'.

(** ** Everything that can be read is *)
Section Complete.
Variable E : renv.
Hypothesis HE : default_readers E.
Variable fetch : string -> res node.
Variable fd : finder.

Lemma policy_doc_ln : forall n p, policy_doc E n p -> is_elem n /\ ln n = "Policy".
Proof.
  intros n p (Hc & _). pose proof (called_elem _ _ Hc) as He. split; [exact He|].
  rewrite called_ln in Hc by (reflexivity || exact He). apply String.eqb_eq, Hc.
Qed.

Lemma reads_ln : forall n K K' U p, reads E fetch fd n K K' U p ->
  is_elem n /\ (ln n = "Policy" \/ ln n = "PolicySet").
Proof.
  intros n K K' U p H. destruct H as [n K p Hd _|n K K' urls id ai alg de t ps p Hc].
  - destruct (policy_doc_ln n p Hd) as [He Hn]. split; [exact He|left; exact Hn].
  - pose proof (called_elem _ _ Hc) as He. split; [exact He|]. right.
    rewrite called_ln in Hc by (reflexivity || exact He). apply String.eqb_eq, Hc.
Qed.

Lemma complete_mut :
  (forall n K K' U p, reads E fetch fd n K K' U p -> NoDup (map name_of K) ->
     NoDup (map name_of K') /\ exists L, forall l, L <= l -> forall F,
       read_doc l E fetch fd n (mkFstate (holding K) F) = Ok (p, mkFstate (holding K') (F ++ U))) /\
  (forall ks K K' U ps, reads_members E fetch fd ks K K' U ps -> NoDup (map name_of K) ->
     NoDup (map name_of K') /\ exists L, forall l, L <= l -> forall F,
       run E fetch fd (read_doc l E fetch fd) ks (mkFstate (holding K) F) = Ok (ps, mkFstate (holding K') (F ++ U))) /\
  (forall k K K' U p, reads_member E fetch fd k K K' U p -> NoDup (map name_of K) ->
     NoDup (map name_of K') /\ exists L, forall l, L <= l -> forall F,
       member_step E fetch fd (read_doc l E fetch fd) k (mkFstate (holding K) F) = Ok (p, mkFstate (holding K') (F ++ U))).
Proof.
  apply reads_mutind.
  - (* a policy *)
    intros n K p Hd Hf Hnd. split; [rewrite map_app; apply NoDup_snoc; split; assumption|].
    exists 1. intros [|l] Hl F; [inversion Hl|]. destruct (policy_doc_ln n p Hd) as [He Hn].
    cbn [read_doc]. rewrite local_ln by exact He. cbn [bind]. rewrite Hn. cbn [String.eqb Ascii.eqb Bool.eqb].
    apply policy_reg_iff; [exact HE|]. rewrite app_nil_r. split; [exact Hd|]. split; [exact Hf|reflexivity].
  - (* a policy set *)
    intros n K K' U id ai alg de t ps p Hc Hal Hid Hai Ha Hde Ht _ IH -> Hf Hnd.
    destruct (IH Hnd) as (Hnd' & L & HL). clear IH.
    split; [rewrite map_app; apply NoDup_snoc; split; assumption|].
    exists (S L). intros [|l] Hl F; [inversion Hl|]. apply le_S_n in Hl.
    pose proof (called_elem _ _ Hc) as He. rewrite called_ln in Hc by (reflexivity || exact He).
    cbn [read_doc]. rewrite local_ln by exact He. cbn [bind].
    pose proof Hc as Hc'. apply String.eqb_eq in Hc'. rewrite Hc'. cbn [String.eqb Ascii.eqb Bool.eqb].
    rewrite read_set_eq by exact He. rewrite Hc. cbn [negb].
    apply bind_ok. exists id. split; [apply required_ok, Hid|].
    apply bind_ok. exists ai. split; [apply required_ok, Hai|].
    apply bind_ok. exists alg. split; [apply policy_alg_of_iff, Ha|].
    apply bind_ok. exists (mkSacc de t ps, mkFstate (holding K') (F ++ U)). split.
    + apply set_fold; [exact HE|exact (elems_is n)|]. cbn [sc_description sc_target sc_policies].
      split; [exact Hal|]. split; [apply description_iff, Hde|]. split; [exact Ht|].
      apply HL, Hl.
    + cbn [sc_description sc_target sc_policies fs_reg fs_fetched]. rewrite version_eq.
      apply bind_ok. eexists. split; [apply add_set_holding; [exact I|]; split; [exact Hf|reflexivity]|reflexivity].
  - (* no members *)
    intros K Hnd. split; [exact Hnd|]. exists 0. intros l _ F. cbn [run]. rewrite app_nil_r. reflexivity.
  - (* members *)
    intros k ks K K1 K2 U1 U2 p ps _ IH1 _ IH2 Hnd.
    destruct (IH1 Hnd) as (Hnd1 & L1 & HL1). destruct (IH2 Hnd1) as (Hnd2 & L2 & HL2).
    split; [exact Hnd2|]. exists (max L1 L2). intros l Hl F. cbn [run].
    rewrite HL1 by (apply Nat.le_trans with (2 := Hl), Nat.le_max_l). cbn [bind].
    rewrite HL2 by (apply Nat.le_trans with (2 := Hl), Nat.le_max_r). cbn [bind].
    rewrite app_assoc. reflexivity.
  - (* an inline member *)
    intros k K K' U p Hw Hr IH Hnd. destruct (IH Hnd) as (Hnd' & L & HL). split; [exact Hnd'|].
    exists L. intros l Hl F. rewrite <- (HL (S l)) by (apply Nat.le_trans with (1 := Hl), Nat.le_succ_diag_r).
    destruct (reads_ln _ _ _ _ _ Hr) as [He Hn]. cbn [read_doc]. rewrite local_ln by exact He. cbn [bind].
    unfold member_step. destruct Hn as [-> | ->]; reflexivity.
  - (* a known reference *)
    intros k K p Hw Hi Hnd. split; [exact Hnd|]. exists 0. intros l _ F. rewrite app_nil_r.
    pose proof (lookup_in K p Hnd Hi) as Hl.
    assert (is_elem k) as He by (destruct k; [exact I|discriminate Hw]).
    rewrite wanted_ln in Hw by exact He. unfold member_step. rewrite text_get by exact He.
    destruct (String.eqb_spec (ln k) "PolicyIdReference") as [Hn|Hn].
    { injection Hw as Hw. rewrite Hn. cbn [String.eqb Ascii.eqb Bool.eqb]. rewrite <- Hw in Hl.
      match goal with |- find_policy fetch fd ?n ?r ?s = _ =>
        change (find_name fetch fd n (PolicyName r) s = Ok (p, mkFstate (holding K) F)) end. rewrite find_name_eq. rewrite Hl. cbn [lookup] in Hl.
      destruct fd; [reflexivity|]. cbn [bind fs_reg]. rewrite Hl. reflexivity. }
    destruct (String.eqb_spec (ln k) "PolicySetIdReference") as [Hn'|Hn']; [|discriminate Hw].
    injection Hw as Hw. rewrite Hn'. cbn [String.eqb Ascii.eqb Bool.eqb]. rewrite <- Hw in Hl.
    match goal with |- find_policy_set fetch fd ?n ?r ?s = _ =>
      change (find_name fetch fd n (SetName r) s = Ok (p, mkFstate (holding K) F)) end. rewrite find_name_eq. rewrite Hl. cbn [lookup] in Hl.
    destruct fd; [reflexivity|]. cbn [bind fs_reg]. rewrite Hl. reflexivity.
  - (* a fetched reference *)
    intros base k r url d K K' U q p Hfd Ht Hw Hnf Hu Hd _ IH Hi Hnd.
    destruct (IH Hnd) as (Hnd' & L & HL). split; [exact Hnd'|]. exists L. intros l Hl F.
    pose proof (lookup_in K' p Hnd' Hi) as Hlk. apply lookup_none in Hnf.
    assert (is_elem k) as He by (destruct k; [exact I|discriminate Hw]).
    rewrite wanted_ln in Hw by exact He. unfold member_step. rewrite text_get by exact He.
    destruct (String.eqb_spec (ln k) "PolicyIdReference") as [Hn|Hn].
    { injection Hw as Hw. rewrite Hn. cbn [String.eqb Ascii.eqb Bool.eqb]. rewrite <- Hw in Hlk, Hnf.
      match goal with |- find_policy fetch fd ?n ?r ?s = _ =>
        change (find_name fetch fd n (PolicyName r) s = Ok (p, mkFstate (holding K') (F ++ url :: U))) end. rewrite find_name_eq. rewrite Hnf.
      rewrite Hfd at 1. unfold find_from_reference. cbn [ref_of]. rewrite Ht, Hu. cbn [bind fs_reg fs_fetched].
      rewrite Hd. cbn [bind]. rewrite HL by exact Hl. cbn [bind fs_reg]. cbn [lookup] in Hlk. rewrite Ht in Hlk.
      rewrite Hlk. rewrite <- app_assoc. reflexivity. }
    destruct (String.eqb_spec (ln k) "PolicySetIdReference") as [Hn'|Hn']; [|discriminate Hw].
    injection Hw as Hw. rewrite Hn'. cbn [String.eqb Ascii.eqb Bool.eqb]. rewrite <- Hw in Hlk, Hnf.
    match goal with |- find_policy_set fetch fd ?n ?r ?s = _ =>
      change (find_name fetch fd n (SetName r) s = Ok (p, mkFstate (holding K') (F ++ url :: U))) end. rewrite find_name_eq. rewrite Hnf.
    rewrite Hfd at 1. unfold find_from_reference. cbn [ref_of]. rewrite Ht, Hu. cbn [bind fs_reg fs_fetched].
    rewrite Hd. cbn [bind]. rewrite HL by exact Hl. cbn [bind fs_reg]. cbn [lookup] in Hlk. rewrite Ht in Hlk.
    rewrite Hlk. rewrite <- app_assoc. reflexivity.
Qed.
End Complete.
