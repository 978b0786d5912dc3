(** C99: the mistake that is reached first is the one reported. *)
From Verif Require Import Readers SpecText SpecSetters SpecRead SpecRefusals.
From Verif Require Import EvalFacts StringFacts SettersFacts TextFacts ReadFacts ReadFacts2 ReadFacts3 ReadFacts4
  RefusalsFacts RefusalsFacts2 RefusalsFacts4 RefusalsFacts6 PropertiesRead PropertiesRefusals.
Local Open Scope string_scope.
Local Open Scope list_scope.

(** Whatever children follow, a policy that is refused is refused with the same
    exception. *)
Theorem C99_first_policy : forall E tag attrs text kids more e,
  read_policy E (Elem tag attrs text kids) = Raise e ->
  read_policy E (Elem tag attrs text (kids ++ more)) = Raise e.
Proof.
  intros E tag attrs text kids more e H. unfold read_policy in *. rewrite elements_elems in *.
  cbn [elems] in *. rewrite filter_app, foldM_app.
  change (expect "Policy" (Elem tag attrs text (kids ++ more))) with (expect "Policy" (Elem tag attrs text kids)).
  change (required (Elem tag attrs text (kids ++ more))) with (required (Elem tag attrs text kids)).
  destruct (expect "Policy" (Elem tag attrs text kids)) as [u|e1]; cbn [bind] in *; [|exact H].
  destruct (required (Elem tag attrs text kids) "PolicyId") as [id|e1]; cbn [bind] in *; [|exact H].
  destruct (required (Elem tag attrs text kids) "RuleCombiningAlgId") as [ai|e1]; cbn [bind] in *; [|exact H].
  destruct (rule_alg_of ai) as [alg|e1]; cbn [bind] in *; [|exact H].
  match type of H with (bind ?f _) = _ => destruct f as [a|e1] end; cbn [bind] in *; [discriminate H|exact H].
Qed.
(** If the children before it are in order, it is that of the first rule or target
    that is refused. *)
Theorem C99_first_child : forall E tag attrs text before k after p e,
  read_policy E (Elem tag attrs text before) = Ok p ->
  called "Rule" k = true /\ read_rule E k = Raise e \/ called "Target" k = true /\ read_target E k = Raise e ->
  read_policy E (Elem tag attrs text (before ++ k :: after)) = Raise e.
Proof.
  intros E tag attrs text before k after p e H Hk.
  change (k :: after) with ([k] ++ after). rewrite app_assoc. apply C99_first_policy.
  unfold read_policy in *. rewrite elements_elems in *.
  cbn [elems] in *. rewrite filter_app, foldM_app.
  change (expect "Policy" (Elem tag attrs text (before ++ [k]))) with (expect "Policy" (Elem tag attrs text before)).
  change (required (Elem tag attrs text (before ++ [k]))) with (required (Elem tag attrs text before)).
  destruct (expect "Policy" (Elem tag attrs text before)) as [u|e1]; cbn [bind] in *; [|discriminate H].
  destruct (required (Elem tag attrs text before) "PolicyId") as [id|e1]; cbn [bind] in *; [|discriminate H].
  destruct (required (Elem tag attrs text before) "RuleCombiningAlgId") as [ai|e1]; cbn [bind] in *; [|discriminate H].
  destruct (rule_alg_of ai) as [alg|e1]; cbn [bind] in *; [|discriminate H].
  match type of H with (bind ?f _) = _ => destruct f as [a|e1] end; cbn [bind] in *; [|discriminate H].
  assert (He : is_elem k) by (destruct Hk as [[Hc _]|[Hc _]]; exact (called_elem _ _ Hc)).
  assert (Q : filter (fun k0 => match k0 with Elem _ _ _ _ => true | Comment _ => false end) [k] = [k])
    by (destruct k; [reflexivity|destruct He]).
  rewrite Q. cbn [foldM]. unfold policy_child. rewrite local_ln by exact He.
  destruct Hk as [[Hc Hk]|[Hc Hk]].
  - rewrite (ln_is "Rule" k eq_refl Hc). cbn. rewrite Hk. reflexivity.
  - rewrite (ln_is "Target" k eq_refl Hc). cbn. rewrite Hk. reflexivity.
Qed.

(** The same of policy sets, except that a name that is taken is noticed at the end. *)
Theorem C99_first_set : forall E fetch fd limit K F tag attrs text kids e, default_readers E ->
  read_doc limit E fetch fd (Elem tag attrs text kids) (mkFstate (holding K) F) = Raise e ->
  (forall more, read_doc limit E fetch fd (Elem tag attrs text (kids ++ more)) (mkFstate (holding K) F) = Raise e) \/
  (exists p, policy_doc E (Elem tag attrs text kids) p /\ In (name_of p) (map name_of K)) \/
  (exists id K' urls ps, xml_attr "PolicySetId" (Elem tag attrs text kids) = Some id /\
     reads_members E fetch fd (members (Elem tag attrs text kids)) K K' urls ps /\
     In (SetName (Some id)) (map name_of K')).
Proof.
  intros E fetch fd [|limit] K F tag attrs text kids e HE H; [left; intros more; exact H|].
  cbn [read_doc] in H |- *.
  set (n := Elem tag attrs text kids) in *.
  assert (He : is_elem n) by exact I. 
  assert (Hl : forall more, ln (Elem tag attrs text (kids ++ more)) = ln n) by reflexivity.
  assert (Hr : forall more, required (Elem tag attrs text (kids ++ more)) = required n) by reflexivity.
  assert (Hx : forall more, exists l, elems (Elem tag attrs text (kids ++ more)) = elems n ++ l)
    by (intros more; cbn [elems]; rewrite filter_app; eauto).
  assert (Hp : forall more e, read_policy E n = Raise e -> read_policy E (Elem tag attrs text (kids ++ more)) = Raise e)
    by (intros more e1; apply C99_first_policy).
  rewrite local_ln in H by exact He. cbn [bind] in H.
  destruct (String.eqb (ln n) "Policy") eqn:E1.
  - unfold read_policy_reg in H. destruct (read_policy E n) as [p|e1] eqn:R; cbn [bind fs_reg fs_fetched] in H.
    + right. left. exists p. apply read_policy_iff in R; [|exact HE]. split; [exact R|].
      destruct (in_dec name_eq_dec (name_of p) (map name_of K)) as [Hi|Hi]; [exact Hi|exfalso].
      assert (X : add_policy (holding K) p = Ok (holding (K ++ [p]))).
      { apply add_policy_holding; [|auto]. destruct R as (_ & _ & id & ai & al & de & xp & t & rs & -> & _). exact I. }
      rewrite X in H. discriminate H.
    + left. intros more. rewrite local_ln by exact I. cbn [bind]. rewrite Hl, E1. unfold read_policy_reg.
      injection H as <-. rewrite (Hp more e1 eq_refl). reflexivity.
  - destruct (String.eqb (ln n) "PolicySet") eqn:E2.
    2:{ left. intros more. rewrite local_ln by exact I. cbn [bind]. rewrite Hl, E1, E2. exact H. }
    rewrite read_set_eq in H by exact He. rewrite E2 in H. cbn [negb] in H.
    assert (Go : forall more, read_doc (S limit) E fetch fd (Elem tag attrs text (kids ++ more)) (mkFstate (holding K) F) =
      let* id := required n "PolicySetId" in let* algId := required n "PolicyCombiningAlgId" in
      let* alg := policy_alg_of algId in
      let* (a, st1) := foldM (set_step E fetch fd (read_doc limit E fetch fd)) (elems (Elem tag attrs text (kids ++ more))) (mkSacc None None [], mkFstate (holding K) F) in
      let p := PPolicySet (mkMeta (Some id) (Some (version_of n)) (Some algId) (sc_description a) None) (sc_target a) (Some alg) (sc_policies a) in
      let* g := add_policy_set (fs_reg st1) p in Ok (p, mkFstate g (fs_fetched st1))).
    { intros more. cbn [read_doc]. rewrite local_ln by exact I. cbn [bind]. rewrite Hl, E1, E2.
      rewrite read_set_eq by exact I. rewrite Hl, E2. cbn [negb]. rewrite Hr. reflexivity. }
    cbn [read_doc] in Go.
    destruct (required n "PolicySetId") as [id|e1] eqn:Hid; cbn [bind] in H; [|left; intros more; rewrite Go; exact H].
    destruct (required n "PolicyCombiningAlgId") as [ai|e1]; cbn [bind] in H; [|left; intros more; rewrite Go; exact H].
    destruct (policy_alg_of ai) as [alg|e1] eqn:Ha; cbn [bind] in H; [|left; intros more; rewrite Go; cbn [bind]; rewrite Ha; exact H].
    match type of H with bind ?f _ = _ => destruct f as [[a st1]|e1] eqn:Hf end; cbn [bind] in H.
    2:{ left. intros more. rewrite Go. cbn [bind]. rewrite Ha. cbn [bind]. destruct (Hx more) as (l & ->). rewrite foldM_app, Hf. exact H. }
    right. right. apply set_fold in Hf; [|exact HE|exact (elems_is n)]. destruct Hf as (_ & _ & _ & Hrun).
    rewrite <- members_eq in Hrun. apply (run_sound E HE fetch fd _ (doc_sound E HE fetch fd limit)) in Hrun.
    2:{ intros k Hk. apply filter_In in Hk. destruct Hk as [Hk1 Hk2]. split; [exact (elems_is n k Hk1)|exact Hk2]. }
    destruct Hrun as (K1 & U & Hrd & ->). cbn [fs_reg] in H. exists id, K1, U, (sc_policies a).
    split; [apply required_ok, Hid|]. split; [exact Hrd|].
    destruct (in_dec name_eq_dec (SetName (Some id)) (map name_of K1)) as [Hi|Hi]; [exact Hi|exfalso].
    match type of H with context [add_policy_set _ ?p] =>
      assert (X : add_policy_set (holding K1) p = Ok (holding (K1 ++ [p]))) by (apply add_set_holding; [exact I|]; split; [exact Hi|reflexivity]);
      rewrite X in H; discriminate H end.
Qed.

(** If a policy set with the children before it is read, and leaves [K'] and itself in
    the finder, then with a target, policy or policy set that is refused after them it
    is refused as that child is, read with a finder of [K']. *)
Theorem C99_first_member : forall E fetch fd limit K F tag attrs text before k after p K' F' e, default_readers E ->
  called "PolicySet" (Elem tag attrs text before) = true ->
  read_doc (S limit) E fetch fd (Elem tag attrs text before) (mkFstate (holding K) F) =
    Ok (p, mkFstate (holding (K' ++ [p])) F') ->
  called "Target" k = true /\ read_target E k = Raise e \/
  (called "Policy" k = true \/ called "PolicySet" k = true) /\
    read_doc (S limit) E fetch fd k (mkFstate (holding K') F') = Raise e ->
  read_doc (S limit) E fetch fd (Elem tag attrs text (before ++ k :: after)) (mkFstate (holding K) F) = Raise e.
Proof.
  intros E fetch fd limit K F tag attrs text before k after p K' F' e HE Hc H Hk.
  assert (Hek : is_elem k) by (destruct Hk as [[Hx _]|[[Hx|Hx] _]]; exact (called_elem _ _ Hx)).
  apply (first_step E fetch fd limit K F tag attrs text before k after p K' F' e HE Hc H Hek).
  intros a. unfold set_step. cbn [read_doc] in Hk. rewrite local_ln in Hk by exact Hek. cbn [bind] in Hk.
  destruct Hk as [[Hk1 Hk]|[[Hk1|Hk1] Hk]].
  - rewrite (ln_is "Target" k eq_refl Hk1). cbn [String.eqb Ascii.eqb Bool.eqb]. rewrite Hk. reflexivity.
  - rewrite (ln_is "Policy" k eq_refl Hk1) in *. cbn [String.eqb Ascii.eqb Bool.eqb] in *. rewrite Hk. reflexivity.
  - rewrite (ln_is "PolicySet" k eq_refl Hk1) in *. cbn [String.eqb Ascii.eqb Bool.eqb] in *. rewrite Hk. reflexivity.
Qed.

(** It is refused likewise at the first reference that names nothing the finder holds, if
    the finder does not fetch. *)
Theorem C99_first_reference : forall E fetch limit K F tag attrs text before k after p K' F', default_readers E ->
  called "PolicySet" (Elem tag attrs text before) = true ->
  read_doc (S limit) E fetch LocalFinder (Elem tag attrs text before) (mkFstate (holding K) F) =
    Ok (p, mkFstate (holding (K' ++ [p])) F') ->
  called "PolicyIdReference" k = true /\ ~ In (PolicyName (el_text k)) (map name_of K') \/
  called "PolicySetIdReference" k = true /\ ~ In (SetName (el_text k)) (map name_of K') ->
  read_doc (S limit) E fetch LocalFinder (Elem tag attrs text (before ++ k :: after)) (mkFstate (holding K) F) =
    Raise EXMLParseError.
Proof.
  intros E fetch limit K F tag attrs text before k after p K' F' HE Hc H Hk.
  apply (first_step E fetch LocalFinder limit K F tag attrs text before k after p K' F' EXMLParseError HE Hc H).
  - destruct Hk as [[Hx _]|[Hx _]]; exact (called_elem _ _ Hx).
  - intros a. unfold set_step. destruct Hk as [[Hk1 Hk]|[Hk1 Hk]]; apply lookup_none in Hk; cbn [lookup] in Hk.
    + rewrite (ln_is "PolicyIdReference" k eq_refl Hk1). cbn [String.eqb Ascii.eqb Bool.eqb find_policy fs_reg].
      rewrite Hk. reflexivity.
    + rewrite (ln_is "PolicySetIdReference" k eq_refl Hk1). cbn [String.eqb Ascii.eqb Bool.eqb find_policy_set fs_reg].
      rewrite Hk. reflexivity.
Qed.

(** A policy with obligations before a rule with a wrong effect is refused for the
    obligations, whatever follows; in the other order for the rule: two mistakes of
    different kinds. *)
Definition d_stray : list node := [xe "Obligations" [] None []].
Definition d_no_effect : node := xe "Rule" [("RuleId", "r"); ("Effect", "Maybe")] None [].
Definition d_first (kids : list node) : node :=
  xe "Policy" [("PolicyId", "p"); ("RuleCombiningAlgId", "urn:oasis:names:tc:xacml:1.0:rule-combining-algorithm:deny-overrides")] None kids.
Example C99_first_case : (exists p, read_policy std_renv (d_first []) = Ok p) /\
  (forall more, read_policy std_renv (d_first (d_stray ++ more)) = Raise ENotImplementedError) /\
  (forall more, read_policy std_renv (d_first (d_no_effect :: more)) = Raise EAttributeError).
Proof.
  split; [eexists; vm_compute; reflexivity|]. split; intros more.
  - apply C99_first_policy. vm_compute. reflexivity.
  - apply (C99_first_policy _ _ _ _ [d_no_effect] more). vm_compute. reflexivity.
Qed.
(** The rule of a wrong effect is reached after nothing else, so the policy is refused
    as the rule is; a policy set with obligations is refused for them, whatever follows. *)
Example C99_first_child_case : forall after, read_policy std_renv (d_first ([] ++ d_no_effect :: after)) = Raise EAttributeError.
Proof.
  intros after. destruct C99_first_case as [(p & H) _].
  apply (C99_first_child std_renv _ _ _ [] d_no_effect after p EAttributeError H).
  left. split; vm_compute; reflexivity.
Qed.
Definition d_first_set : node :=
  xe "PolicySet" [("PolicySetId", "s"); ("PolicyCombiningAlgId", "urn:oasis:names:tc:xacml:1.0:policy-combining-algorithm:deny-overrides")] None d_stray.
Example C99_first_set_case : forall limit fetch fd K F,
  read_doc (S limit) std_renv fetch fd d_first_set (mkFstate (holding K) F) = Raise ENotImplementedError.
Proof. intros limit fetch fd K F. reflexivity. Qed.
(** A set of a policy and of one whose rule has a wrong effect. *)
Definition d_bad : node :=
  xe "Policy" [("PolicyId", "q"); ("RuleCombiningAlgId", "urn:oasis:names:tc:xacml:1.0:rule-combining-algorithm:deny-overrides")] None [d_no_effect].
Definition d_two (kids : list node) : node :=
  xe "PolicySet" [("PolicySetId", "s"); ("PolicyCombiningAlgId", "urn:oasis:names:tc:xacml:1.0:policy-combining-algorithm:deny-overrides")] None kids.
Example C99_first_member_case : forall fetch after,
  read_doc 2 std_renv fetch LocalFinder (d_two ([d_first []] ++ d_bad :: after)) (mkFstate (holding []) []) = Raise EAttributeError.
Proof.
  intros fetch after.
  assert (H : exists q p, read_doc 2 std_renv fetch LocalFinder (d_two [d_first []]) (mkFstate (holding []) []) =
                          Ok (p, mkFstate (holding ([q] ++ [p])) [])).
  { eexists (PPolicy (mkMeta _ _ _ _ _) _ _ _), (PPolicySet (mkMeta _ _ _ _ _) _ _ _). vm_compute. reflexivity. }
  destruct H as (q & p & H).
  refine (C99_first_member std_renv fetch LocalFinder 1 [] [] _ _ _ [d_first []] d_bad after p [q] [] _ C43_std_readers _ H _);
    [reflexivity|].
  right. split; [left; vm_compute; reflexivity|vm_compute; reflexivity].
Qed.
(** The exception in [C99_first_set] is needed: that the name of a set is taken is found
    out last, so a later mistake of another kind is reported instead. *)
Theorem C99_taken_refuted : exists fetch K tag attrs text kids more e e',
  read_doc 1 std_renv fetch LocalFinder (Elem tag attrs text kids) (mkFstate (holding K) []) = Raise e /\
  read_doc 1 std_renv fetch LocalFinder (Elem tag attrs text (kids ++ more)) (mkFstate (holding K) []) = Raise e' /\
  e <> e'.
Proof.
  assert (X : exists tag attrs text, forall kids, d_two kids = Elem tag attrs text kids) by (do 3 eexists; reflexivity).
  destruct X as (tag & attrs & text & X).
  set (q := PPolicySet (mkMeta (Some "s") None None None None) None None []).
  exists (fun _ => Raise EXMLParseError), [q], tag, attrs, text, [], d_stray, EXMLParseError, ENotImplementedError.
  rewrite <- !X. split; [vm_compute; reflexivity|]. split; [vm_compute; reflexivity|discriminate].
Qed.
Example C99_first_reference_case : forall fetch after,
  read_doc 2 std_renv fetch LocalFinder (d_two ([d_first []] ++ xe "PolicyIdReference" [] (Some "q") [] :: after)) (mkFstate (holding []) []) =
    Raise EXMLParseError.
Proof.
  intros fetch after.
  assert (H : exists q p, name_of q = PolicyName (Some "p") /\
    read_doc 2 std_renv fetch LocalFinder (d_two [d_first []]) (mkFstate (holding []) []) = Ok (p, mkFstate (holding ([q] ++ [p])) [])).
  { eexists (PPolicy (mkMeta _ _ _ _ _) _ _ _), (PPolicySet (mkMeta _ _ _ _ _) _ _ _). split; [|vm_compute; reflexivity]. reflexivity. }
  destruct H as (q & p & Q & H).
  refine (C99_first_reference std_renv fetch 1 [] [] _ _ _ [d_first []] _ after p [q] [] C43_std_readers _ H _); [reflexivity|].
  left. split; [vm_compute; reflexivity|]. cbn [map In]. rewrite Q. cbn. intros [X|[]]. discriminate X.
Qed.

Print Assumptions C99_first_policy.
Print Assumptions C99_first_child.
Print Assumptions C99_first_set.
Print Assumptions C99_first_member.
Print Assumptions C99_taken_refuted.
Print Assumptions C99_first_reference.
