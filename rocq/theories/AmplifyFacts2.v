(** Lemmas for C93: documents whose references double the work at each level. *)
From Coq Require Import Lia.
From Verif Require Import Readers EvalState SpecEval SpecState SpecAmplify.
From Verif Require Import EvalFacts ReadFacts ReadFacts2 ReadFacts3 ReadFacts4 StateFacts QueryFacts AmplifyFacts.

Definition leaf_doc : node :=
  Elem "Policy" [("PolicyId", "p"); ("RuleCombiningAlgId", "urn:oasis:names:tc:xacml:1.0:rule-combining-algorithm:first-applicable")] None
    [Elem "Target" [] None [Elem "Subjects" [] None [Elem "Subject" [] None
      [Elem "SubjectMatch" [("MatchId", "urn:oasis:names:tc:xacml:1.0:function:string-equal")] None
        [Elem "AttributeValue" [("DataType", "http://www.w3.org/2001/XMLSchema#string")] (Some "staff") [];
         Elem "SubjectAttributeDesignator" [("AttributeId", "role"); ("DataType", "http://www.w3.org/2001/XMLSchema#string")] None []]]]]].

Definition leaf_match : matchel :=
  mkMatch (Some "urn:oasis:names:tc:xacml:1.0:function:string-equal") (Some (FnEqual StringAV))
    (Some (mkAV StringAV (xs "string") (NStr "staff"))) (Some role) None.
Definition leaf_policy : policybase :=
  PPolicy (mkMeta (Some "p") (Some "2.0") (Some "urn:oasis:names:tc:xacml:1.0:rule-combining-algorithm:first-applicable") None None)
    (Some (mkTarget [[leaf_match]] [] [] [])) (Some FirstApplicable) [].

Lemma std_readers : default_readers std_renv.
Proof.
  intros dt reader H. unfold std_renv in H. cbn [re_readers] in H.
  assert (forall l : list (string * (string * ntype)), dict_get dt (map (fun p => (fst (snd p), default_dtreader)) l) = Some reader -> reader = default_dtreader) as A.
  { induction l as [|x l IH]; cbn [map dict_get]; [discriminate|]. destruct (String.eqb dt (fst (snd x))); [intros [= <-]; reflexivity|exact IH]. }
  exact (A _ H).
Qed.

Lemma leaf_read : policy_doc std_renv leaf_doc leaf_policy.
Proof. apply (read_policy_iff std_renv std_readers). vm_compute. reflexivity. Qed.

(** The id of the policy set at a height: a letter for each level *)
Fixpoint letters (k : nat) : string := match k with O => "" | S k => String "s"%char (letters k) end.
Lemma letters_inj : forall a b, letters a = letters b -> a = b.
Proof. induction a as [|a IH]; intros [|b] H; try discriminate H; [reflexivity|]. injection H as H. f_equal. exact (IH b H). Qed.

Definition first_applicable : string := "urn:oasis:names:tc:xacml:1.0:policy-combining-algorithm:first-applicable".
Definition ref_to (k : nat) : node :=
  match k with
  | O => Elem "PolicyIdReference" [] (Some "p") []
  | S k => Elem "PolicySetIdReference" [] (Some (letters k)) []
  end.
Fixpoint tower_doc (k : nat) : node :=
  match k with
  | O => leaf_doc
  | S k => Elem "PolicySet" [("PolicySetId", letters k); ("PolicyCombiningAlgId", first_applicable)] None
             [tower_doc k; ref_to k]
  end.
Fixpoint tower (k : nat) : policybase :=
  match k with
  | O => leaf_policy
  | S k => PPolicySet (mkMeta (Some (letters k)) (Some "2.0") (Some first_applicable) None None) None
             (Some FirstApplicable) [tower k; tower k]
  end.
Fixpoint floors (k : nat) : list policybase :=
  match k with O => [leaf_policy] | S k => floors k ++ [tower (S k)] end.

Lemma tower_size : forall k, size_of (tower_doc k) = 7 + 2 * k.
Proof.
  induction k as [|k IH]; [reflexivity|]. cbn [tower_doc size_of map]. rewrite !ls_cons, IH.
  destruct k; cbn [ref_to size_of map list_sum fold_right]; lia.
Qed.

Lemma tower_occurrences : forall k, occurrences (tower k) = 2 * 2 ^ k - 1.
Proof.
  induction k as [|k IH]; [reflexivity|]. unfold occurrences in *. cbn [tower all_policies flat_map].
  rewrite !app_length, IH. cbn [Datatypes.length Nat.pow]. pose proof (pow_pos k). lia.
Qed.
Lemma tower_designators : forall k, subject_designators (tower k) = 2 ^ k.
Proof.
  induction k as [|k IH]; [reflexivity|]. unfold subject_designators in *. cbn [tower designators_policy designators_target app flat_map].
  rewrite !filter_app, !app_length, IH. cbn [filter Datatypes.length Nat.pow]. lia.
Qed.

Lemma floors_names : forall k q, In q (floors k) -> exists j, j <= k /\ q = tower j.
Proof.
  induction k as [|k IH]; intros q H; cbn [floors] in H.
  - destruct H as [<-|[]]. exists 0. split; [lia|reflexivity].
  - apply in_app_or in H. destruct H as [H|[<-|[]]]; [|exists (S k); split; [lia|reflexivity]].
    destruct (IH q H) as (j & L & ->). exists j. split; [lia|reflexivity].
Qed.
Lemma tower_in : forall k, In (tower k) (floors k).
Proof. intros [|k]; [left; reflexivity|]. cbn [floors]. apply in_or_app. right. left. reflexivity. Qed.

Lemma tower_called : forall k, called "Policy" (tower_doc k) || called "PolicySet" (tower_doc k) = true.
Proof. intros [|k]; reflexivity. Qed.
Lemma ref_called : forall k, called "PolicyIdReference" (ref_to k) || called "PolicySetIdReference" (ref_to k) = true.
Proof. intros [|k]; reflexivity. Qed.

Lemma tower_reads : forall fetch fd k, reads std_renv fetch fd (tower_doc k) [] (floors k) [] (tower k).
Proof.
  intros fetch fd. induction k as [|k IH].
  - apply (reads_policy std_renv fetch fd leaf_doc [] leaf_policy leaf_read). intros [].
  - assert (Hm : elems (tower_doc (S k)) = [tower_doc k; ref_to k]) by (destruct k; reflexivity).
    eapply (reads_set std_renv fetch fd (tower_doc (S k)) [] (floors k) [] (letters k) first_applicable FirstApplicable None None [tower k; tower k]).
    + reflexivity.
    + unfold allowed_in_set. rewrite Hm. intros c [<-|[<-|[]]].
      * destruct k; [exists "Policy"|exists "PolicySet"]; (split; [cbn; tauto|reflexivity]).
      * destruct k; [exists "PolicyIdReference"|exists "PolicySetIdReference"]; (split; [cbn; tauto|reflexivity]).
    + reflexivity.
    + reflexivity.
    + reflexivity.
    + unfold description_doc, elems_called. rewrite Hm. destruct k; exact I.
    + unfold last_one, elems_called. rewrite Hm. destruct k; cbn; (split; [intros ? []|reflexivity]).
    + assert (members (tower_doc (S k)) = [tower_doc k; ref_to k]) as ->.
      { unfold members. rewrite Hm. destruct k; reflexivity. }
      apply (reads_more std_renv fetch fd _ _ _ (floors k) _ [] []).
      * apply reads_inline; [destruct k; reflexivity|exact IH].
      * apply (reads_more std_renv fetch fd _ _ _ (floors k) _ [] []); [|apply reads_none].
        apply reads_known; [destruct k; reflexivity|apply tower_in].
    + reflexivity.
    + intros H. apply in_map_iff in H. destruct H as (q & Hn & Hq). destruct (floors_names k q Hq) as ([|j] & L & ->); [discriminate Hn|].
      cbn in Hn. injection Hn as Hn. apply letters_inj in Hn. lia.
Qed.

(** ** Evaluation *)
Lemma leaf_match_asks : forall m w, exists w',
  eval_match_s quiet (CtxRequest (m_request m)) leaf_match w = (Ok false, w') /\
  length (w_log w') = length (w_log w) + m.
Proof.
  intros m w.
  assert (H : forall r et subs, rq_ctxHandler r = Some 0%N -> Forall (fun s => sb_attributes s = []) subs -> forall w,
    exists w', collect_subjects_s quiet r role et [] subs w = (Ok [], w') /\
      length (w_log w') = length (w_log w) + length subs).
  { intros r et subs Hr HF. induction HF as [|s subs Hs _ IH]; intros w1; [exists w1; split; [reflexivity|simpl; lia]|].
    simpl. rewrite Hr, Hs. unfold bind_s, lift_s, pip_query_s. simpl.
    destruct (IH (mkWorld (w_log w1 ++ [(r, role)]) (w_cache w1) (w_applied w1))) as (w' & H1 & H2).
    exists w'. split; [exact H1|]. rewrite H2. cbn [w_log]. rewrite app_length. simpl. lia. }
  destruct (H (m_request m) (sclass_for quiet (dg_dataType role)) (repeat (mkSubject None []) m)) with (w := w) as (w' & H1 & H2).
  - reflexivity.
  - apply Forall_forall. intros s Hs. apply repeat_spec in Hs. subst. reflexivity.
  - exists w'. split; [|rewrite H2, repeat_length; reflexivity].
    unfold eval_match_s, leaf_match, mt_designator, eval_designator_s. change (dg_kind role) with DSubject. cbv iota.
    change (rq_subjects (m_request m)) with (repeat (mkSubject None []) m).
    unfold bind_s at 1 2. rewrite H1. reflexivity.
Qed.

Lemma tower_asks : forall k m w, exists w',
  policy_eval_s quiet (CtxRequest (m_request m)) (tower k) w = (Ok NotApplicable, w') /\
  length (w_log w') = length (w_log w) + 2 ^ k * m.
Proof.
  induction k as [|k IH]; intros m w.
  - destruct (leaf_match_asks m w) as (w' & H1 & H2). exists w'. split; [|rewrite H2; cbn [Nat.pow]; lia].
    cbn [tower leaf_policy policy_eval_s]. unfold catch_exception_s, with_target_s, target_match_s.
    cbn [tg_subjects tg_resources tg_actions tg_environments].
    assert (Q : match_section_s quiet (CtxRequest (m_request m)) [[leaf_match]] w = (Ok false, w')).
    { unfold match_section_s. cbn [section_loop_s]. unfold match_child_s, bind_s. cbn [mapM_s]. unfold bind_s. rewrite H1. reflexivity. }
    cbn [mapM_s]. unfold bind_s. rewrite Q. reflexivity.
  - destruct (IH m w) as (w1 & A1 & A2). destruct (IH m w1) as (w2 & B1 & B2). exists w2.
    split; [|rewrite B2, A2; cbn [Nat.pow]; lia].
    assert (Q : combine_policies_s FirstApplicable (policy_eval_s quiet (CtxRequest (m_request m))) [tower k; tower k] w
                = (Ok NotApplicable, w2)).
    { cbn [combine_policies_s policies_first_applicable_s]. unfold bind_s. rewrite A1, B1. reflexivity. }
    cbn [tower policy_eval_s]. unfold catch_exception_s, with_target_s, bind_s. cbn [ret_s].
    cbn [negb]. cbv iota. rewrite Q. reflexivity.
Qed.
