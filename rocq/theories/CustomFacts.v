(** Proofs about algorithms and policies of the user (C87). *)
From Verif Require Import Custom SpecCustom SpecEval EvalFacts EvalFacts2.
From Coq Require Import Lia Bool.
Local Open Scope list_scope.

Lemma cpolicy_ind' : forall (P : cpolicy -> Prop),
  (forall t alg rules, P (CPolicy t alg rules)) ->
  (forall t alg ps, Forall P ps -> P (CPolicySet t alg ps)) ->
  (forall k, P (CUser k)) ->
  forall p, P p.
Proof.
  intros P H1 H2 H3.
  fix IH 1. intros [t alg rules|t alg ps|k].
  - apply H1.
  - apply H2. induction ps as [|p ps IHps]; constructor; [apply IH|exact IHps].
  - apply H3.
Qed.

Lemma handed_catch : forall r, handed_on r (catch_answer r).
Proof.
  intros [a|e]; cbn; [constructor|].
  destruct (is_exception e) eqn:E; constructor; exact E.
Qed.

Lemma handed_det : forall r a b, handed_on r a -> handed_on r b -> a = b.
Proof.
  intros r a b H1 H2. destruct H1; inversion H2; subst; congruence.
Qed.

(** ** Containment *)

Lemma contained : forall C p c e,
  (forall k, p <> CUser k) -> c_evaluate C p c = Raise e -> is_exception e = false.
Proof.
  intros C [t alg rules|t alg ps|k] c e Hu H; cbn in H; [| |destruct (Hu k eq_refl)];
  (destruct (check_target _ _ _ _) as [a|e'] in H; cbn in H; [discriminate|]);
  destruct (is_exception e') eqn:E; try congruence; injection H as <-; exact E.
Qed.

(** ** Conversations *)

Lemma play_rules_talk : forall ask p,
  exists log, rtalk p log (play_rules ask p) /\ (forall r c d, In (r, c, d) log -> d = ask r c).
Proof.
  intros ask. induction p as [r|r c k IH]; cbn.
  - exists []. split; [constructor|intros ? ? ? []].
  - destruct (IH (ask r c)) as (log & T & V). exists ((r, c, ask r c) :: log). split.
    + constructor. exact T.
    + intros r' c' d' [E|I]; [congruence|apply V; exact I].
Qed.

Lemma talk_play_rules : forall ask p log a,
  rtalk p log a -> (forall r c d, In (r, c, d) log -> d = ask r c) -> a = play_rules ask p.
Proof.
  intros ask p log a T. induction T as [r|r c k d log a T IH]; intros V; cbn; [reflexivity|].
  rewrite <- (V r c d); [|left; reflexivity].
  apply IH. intros r' c' d' I. apply V. right. exact I.
Qed.

Lemma play_policies_talk : forall ask p,
  exists log, ptalk p log (play_policies ask p) /\ (forall i c d, In (i, c, d) log -> d = ask i c).
Proof.
  intros ask. induction p as [r|i c k IH]; cbn.
  - exists []. split; [constructor|intros ? ? ? []].
  - destruct (IH (ask i c)) as (log & T & V). exists ((i, c, ask i c) :: log). split.
    + constructor. exact T.
    + intros r' c' d' [E|I]; [congruence|apply V; exact I].
Qed.

Lemma talk_play_policies : forall ask p log a,
  ptalk p log a -> (forall r c d, In (r, c, d) log -> d = ask r c) -> a = play_policies ask p.
Proof.
  intros ask p log a T. induction T as [r|r c k d log a T IH]; intros V; cbn; [reflexivity|].
  rewrite <- (V r c d); [|left; reflexivity].
  apply IH. intros r' c' d' I. apply V. right. exact I.
Qed.

Lemma ask_member_map : forall C ps i c,
  ask_member (map (c_evaluate C) ps) i c =
  match nth_error ps i with Some p => c_evaluate C p c | None => Raise EIndexError end.
Proof.
  intros C ps i c. unfold ask_member. rewrite nth_error_map.
  destruct (nth_error ps i); reflexivity.
Qed.

Lemma true_members : forall C ps log, true_of_members C ps log <->
  forall i c b, In (i, c, b) log -> b = ask_member (map (c_evaluate C) ps) i c.
Proof.
  intros C ps log. split; intros H i c b I.
  - destruct (H i c b I) as (H1 & H2). rewrite ask_member_map.
    destruct (nth_error ps i) as [p|]; [apply H1|apply H2]; reflexivity.
  - specialize (H i c b I). rewrite ask_member_map in H. split.
    + intros p E. rewrite E in H. exact H.
    + intros E. rewrite E in H. exact H.
Qed.

Lemma applies_check : forall C c t x, applies C c t -> check_target (ce_env C) c t x = x.
Proof.
  intros C c t x [->|(t' & -> & M)]; unfold check_target; [reflexivity|].
  rewrite M. reflexivity.
Qed.

Lemma user_rules : forall C c t k rules, applies C c t ->
  exists log r, rtalk (ce_rules C k rules c) log r /\ true_of_rules C log /\
    handed_on r (c_evaluate C (CPolicy t (Some (User k)) rules) c).
Proof.
  intros C c t k rules A. cbn [c_evaluate]. rewrite (applies_check C c t _ A). cbn [run_rule_alg].
  destruct (play_rules_talk (fun r c' => rule_eval (ce_env C) c' r) (ce_rules C k rules c))
    as (log & T & V).
  exists log. eexists. split; [exact T|]. split; [exact V|]. apply handed_catch.
Qed.

Lemma user_rules_det : forall C c t k rules log r a, applies C c t ->
  rtalk (ce_rules C k rules c) log r -> true_of_rules C log -> handed_on r a ->
  c_evaluate C (CPolicy t (Some (User k)) rules) c = a.
Proof.
  intros C c t k rules log r a A T V H. cbn [c_evaluate]. rewrite (applies_check C c t _ A).
  cbn [run_rule_alg].
  rewrite <- (talk_play_rules _ _ _ _ T V).
  exact (handed_det _ _ _ (handed_catch r) H).
Qed.

Lemma user_policies : forall C c t k ps, applies C c t ->
  exists log r, ptalk (ce_policies C k ps c) log r /\ true_of_members C ps log /\
    handed_on r (c_evaluate C (CPolicySet t (Some (User k)) ps) c).
Proof.
  intros C c t k ps A. cbn [c_evaluate]. rewrite (applies_check C c t _ A). cbn [run_policy_alg].
  destruct (play_policies_talk (ask_member (map (c_evaluate C) ps)) (ce_policies C k ps c))
    as (log & T & V).
  exists log. eexists. split; [exact T|]. split; [apply true_members; exact V|].
  apply handed_catch.
Qed.

Lemma user_policies_det : forall C c t k ps log r a, applies C c t ->
  ptalk (ce_policies C k ps c) log r -> true_of_members C ps log -> handed_on r a ->
  c_evaluate C (CPolicySet t (Some (User k)) ps) c = a.
Proof.
  intros C c t k ps log r a A T V H. cbn [c_evaluate]. rewrite (applies_check C c t _ A).
  cbn [run_policy_alg].
  rewrite <- (talk_play_policies _ _ _ _ T (proj1 (true_members C ps log) V)).
  exact (handed_det _ _ _ (handed_catch r) H).
Qed.

(** ** The target comes first *)

Lemma target_first : forall C c t,
  target_match (ce_env C) c t = Ok false ->
  forall alg rules ps,
  c_evaluate C (CPolicy (Some t) alg rules) c = Ok (ADecision NotApplicable) /\
  c_evaluate C (CPolicySet (Some t) alg ps) c = Ok (ADecision NotApplicable).
Proof.
  intros C c t H alg rules ps.
  cbn [c_evaluate]. unfold check_target. rewrite H. split; reflexivity.
Qed.

Lemma target_error : forall C c t e r,
  target_match (ce_env C) c t = Raise e -> handed_on (Raise e) r ->
  forall alg rules ps,
  c_evaluate C (CPolicy (Some t) alg rules) c = r /\
  c_evaluate C (CPolicySet (Some t) alg ps) c = r.
Proof.
  intros C c t e r H Hr alg rules ps.
  cbn [c_evaluate]. unfold check_target. rewrite H. cbn [bind].
  split; apply (handed_det _ _ _ (handed_catch (Raise e)) Hr).
Qed.

(** ** Standard policies *)

Lemma dec_same_iff : forall a b, dec_same a b = true <-> a = b.
Proof. intros [] []; cbn; split; congruence. Qed.

Section Std.
Variable C : cenv.

Lemma set_deny_std : forall os per,
  set_deny_overrides C per (map as_answer os) = as_answer (pdo per os).
Proof.
  induction os as [|[[]|e] os IH]; intros per; cbn; try reflexivity; try apply IH.
  destruct per; reflexivity.
Qed.

Lemma set_permit_std : forall os err den,
  set_permit_overrides C err den (map as_answer os) = as_answer (ppo err den os).
Proof.
  induction os as [|[[]|e] os IH]; intros err den; cbn; try reflexivity; try apply IH.
  destruct den, err; reflexivity.
Qed.

Lemma set_first_std : forall (ev : policybase -> res decision) ps,
  set_first_applicable C (map (fun p => as_answer (ev p)) ps) =
  as_answer (policies_first_applicable ev ps).
Proof.
  intros ev ps. induction ps as [|p ps IH]; [reflexivity|].
  cbn. destruct (ev p) as [[]|e]; cbn; try reflexivity. exact IH.
Qed.

Lemma set_std : forall x (ev : policybase -> res decision) ps,
  set_combine C x (map (fun p => as_answer (ev p)) ps) = as_answer (combine_policies x ev ps).
Proof.
  intros [] ev ps; unfold set_combine, combine_policies.
  - rewrite policies_deny_overrides_pdo, <- (map_map ev as_answer). apply set_deny_std.
  - rewrite policies_permit_overrides_ppo, <- (map_map ev as_answer). apply set_permit_std.
  - apply set_first_std.
Qed.

Lemma catch_std : forall r, catch_answer (as_answer r) = as_answer (catch_exception r).
Proof. intros [d|e]; cbn; [reflexivity|]. destruct (is_exception e); reflexivity. Qed.

Lemma standard_eval : forall p c,
  c_evaluate C (standard p) c = as_answer (policy_eval (ce_env C) c p).
Proof.
  intros p c. induction p as [m t alg rules|m t alg ps IH] using policybase_ind'.
  - cbn [standard c_evaluate policy_eval]. rewrite <- catch_std. f_equal.
    unfold check_target, with_target.
    destruct (match t with Some t => target_match (ce_env C) c t | None => Ok true end) as [[]|e];
      cbn; try reflexivity.
    destruct alg as [a|]; reflexivity.
  - cbn [standard c_evaluate policy_eval]. rewrite <- catch_std. f_equal.
    unfold check_target, with_target.
    destruct (match t with Some t => target_match (ce_env C) c t | None => Ok true end) as [[]|e];
      cbn; try reflexivity.
    destruct alg as [a|]; [|reflexivity].
    cbn [std_alg run_policy_alg]. rewrite <- set_std. f_equal.
    rewrite !map_map. apply map_ext_in. intros q I.
    rewrite Forall_forall in IH. exact (IH q I).
Qed.

(** ** Answers that are no decisions *)

Definition compares_alike (r s : res answer) : Prop :=
  (exists e, r = Raise e /\ s = Raise e) \/
  (exists a b, r = Ok a /\ s = Ok b /\ forall d, answer_is C a d = answer_is C b d).

Lemma set_congr : forall x l m, Forall2 compares_alike l m ->
  set_combine C x l = set_combine C x m.
Proof.
  assert (D : forall l m, Forall2 compares_alike l m ->
     forall p, set_deny_overrides C p l = set_deny_overrides C p m).
  { intros l m F. induction F as [|r s l m [(e & -> & ->)|(a & b & -> & -> & H)] F IH]; intros p;
      try reflexivity.
    cbn [set_deny_overrides bind]. rewrite !H.
    repeat match goal with |- bind ?q _ = bind ?q _ => destruct q as [[]|]; cbn [bind]; try reflexivity end;
    apply IH. }
  assert (Q : forall l m, Forall2 compares_alike l m ->
     forall p q, set_permit_overrides C p q l = set_permit_overrides C p q m).
  { intros l m F. induction F as [|r s l m [(e & -> & ->)|(a & b & -> & -> & H)] F IH]; intros p q;
      try reflexivity.
    cbn [set_permit_overrides bind]. rewrite !H.
    repeat match goal with |- bind ?q _ = bind ?q _ => destruct q as [[]|]; cbn [bind]; try reflexivity end;
    apply IH. }
  assert (A : forall l m, Forall2 compares_alike l m ->
     set_first_applicable C l = set_first_applicable C m).
  { intros l m F. induction F as [|r s l m [(e & -> & ->)|(a & b & -> & -> & H)] F IH];
      try reflexivity.
    cbn [set_first_applicable bind]. rewrite !H.
    repeat match goal with |- bind ?q _ = bind ?q _ => destruct q as [[]|]; cbn [bind]; try reflexivity end;
    apply IH. }
  intros [] l m F; cbn [set_combine]; auto.
Qed.

Lemma decision_str_of : forall d, decision_of_str (match d with
                     | Permit => "Permit" | Deny => "Deny"
                     | Indeterminate => "Indeterminate" | NotApplicable => "NotApplicable"
                     end) = Some d.
Proof. intros []; reflexivity. Qed.

Lemma taken_compares : forall a d, taken_for C a d ->
  forall x, answer_is C a x = answer_is C (ADecision d) x.
Proof.
  intros [y|s| |o] d T x; cbn in *.
  - subst y. reflexivity.
  - rewrite T, decision_str_of. reflexivity.
  - contradiction.
  - rewrite T. destruct d, x; reflexivity.
Qed.

Lemma set_skip : forall x before after r, (exists a, r = Ok a /\ unlike_any C a) ->
  set_combine C x (before ++ r :: after) = set_combine C x (before ++ after).
Proof.
  intros x before after r (a & -> & (o & -> & N)).
  assert (D : forall before p, set_deny_overrides C p (before ++ Ok (AObject o) :: after) =
     set_deny_overrides C p (before ++ after)).
  { clear before. induction before as [|[b|e] before IH]; intros p; cbn.
    - rewrite !N. reflexivity.
    - repeat match goal with |- bind ?q _ = bind ?q _ => destruct q as [[]|]; cbn [bind]; try reflexivity end;
      apply IH.
    - reflexivity. }
  assert (Q : forall before p q, set_permit_overrides C p q (before ++ Ok (AObject o) :: after) =
     set_permit_overrides C p q (before ++ after)).
  { clear before. induction before as [|[b|e] before IH]; intros p q; cbn.
    - rewrite !N. reflexivity.
    - repeat match goal with |- bind ?q _ = bind ?q _ => destruct q as [[]|]; cbn [bind]; try reflexivity end;
      apply IH.
    - reflexivity. }
  assert (A : forall before, set_first_applicable C (before ++ Ok (AObject o) :: after) =
     set_first_applicable C (before ++ after)).
  { clear before. induction before as [|[b|e] before IH]; cbn.
    - rewrite !N. reflexivity.
    - repeat match goal with |- bind ?q _ = bind ?q _ => destruct q as [[]|]; cbn [bind]; try reflexivity end;
      apply IH.
    - reflexivity. }
  destruct x; cbn [set_combine]; auto.
Qed.

Lemma refuses_raises : forall a, refuses_comparison C a ->
  exists e, is_exception e = true /\ forall d, answer_is C a d = Raise e.
Proof.
  intros [y|s| |o] R; cbn in *.
  - contradiction.
  - exists EAttributeError. split; [reflexivity|]. intros d.
    destruct R as (A & B & D & F). unfold decision_of_str.
    apply String.eqb_neq in A, B, D, F. rewrite A, B, D, F. reflexivity.
  - exists EUnboundLocalError. split; reflexivity.
  - destruct R as (e & E & H). exists e. split; [exact E|exact H].
Qed.

Lemma set_refused : forall x before after a,
  (forall r, In r before -> exists b d, r = Ok b /\ taken_for C b d /\ goes_on x d) ->
  refuses_comparison C a ->
  exists e, is_exception e = true /\ set_combine C x (before ++ Ok a :: after) = Raise e.
Proof.
  intros x before after a B R. destruct (refuses_raises a R) as (e & E & H).
  exists e. split; [exact E|].
  destruct x; cbn [set_combine].
  - generalize false as p. induction before as [|r before IH]; intros p; cbn.
    + rewrite H. reflexivity.
    + destruct (B r (or_introl eq_refl)) as (b & d & -> & T & G). cbn [bind].
      rewrite !(taken_compares b d T).
      destruct G as [-> | ->]; cbn; apply IH; intros q I; apply B; right; exact I.
  - generalize false at 2 as q. generalize false as p.
    induction before as [|r before IH]; intros p q; cbn.
    + rewrite H. reflexivity.
    + destruct (B r (or_introl eq_refl)) as (b & d & -> & T & G). cbn [bind].
      rewrite !(taken_compares b d T). cbn in G.
      destruct d; [congruence| | |]; cbn; apply IH; intros y I; apply B; right; exact I.
  - induction before as [|r before IH]; cbn.
    + rewrite H. reflexivity.
    + destruct (B r (or_introl eq_refl)) as (b & d & -> & T & G). cbn [bind].
      rewrite !(taken_compares b d T). cbn in G. subst d. cbn.
      apply IH; intros y I; apply B; right; exact I.
Qed.

End Std.

(** ** Replacing an algorithm *)

Lemma ends_run : forall C a rules c r,
  ends_on_rules C a (fun x c' => rule_eval (ce_env C) c' x) rules c r <->
  r = run_rule_alg C a rules c.
Proof.
  intros C [a|k] rules c r; cbn [ends_on_rules run_rule_alg].
  - unfold as_answer. destruct (combine_rules _ _ _); reflexivity.
  - split.
    + intros (log & T & V). exact (talk_play_rules _ _ _ _ T V).
    + intros ->. destruct (play_rules_talk (fun r c' => rule_eval (ce_env C) c' r) (ce_rules C k rules c))
        as (log & T & V). exists log. split; [exact T|exact V].
Qed.

Lemma same_run : forall C a b, same_on_rules C a b ->
  forall rules c, run_rule_alg C a rules c = run_rule_alg C b rules c.
Proof.
  intros C a b S rules c. apply ends_run. apply S. apply ends_run. reflexivity.
Qed.

Lemma replaced_same : forall C a b, same_on_rules C a b ->
  forall p q, replaced a b p q -> forall c, c_evaluate C p c = c_evaluate C q c.
Proof.
  intros C a b S p. induction p as [t alg rules|t alg ps IH|k] using cpolicy_ind';
    intros q R c; inversion R; subst; try reflexivity.
  - cbn [c_evaluate]. rewrite (same_run C a b S). reflexivity.
  - cbn [c_evaluate run_policy_alg]. do 3 f_equal.
    match goal with F : Forall2 _ ps ?qs |- _ => rename F into F0 end.
    clear R. rewrite !map_map.
    induction F0 as [|p' q' ps qs Hpq F0 IH']; [reflexivity|].
    apply Forall_cons_iff in IH as (H1 & H2). cbn. f_equal; [apply H1; exact Hpq|].
    apply IH'. exact H2.
Qed.

(** ** Sources of Permit *)

Lemma permits_is : forall C a, answer_is C a Permit = Ok true -> permits C a.
Proof.
  intros C [d|s| |o] H; cbn in H.
  - left. destruct d; cbn in H; congruence.
  - right. left. unfold decision_of_str in H.
    destruct (String.eqb s "Permit") eqn:E; [apply String.eqb_eq in E; congruence|].
    repeat match type of H with context [String.eqb ?u ?v] => destruct (String.eqb u v) end; cbn in H; discriminate.
  - discriminate.
  - right. right. exists o. split; [reflexivity|exact H].
Qed.

Lemma set_permit_source : forall C x l a, set_combine C x l = Ok a -> permits C a ->
  exists b, In (Ok b) l /\ permits C b.
Proof.
  assert (NP : forall C d, permits C (ADecision d) -> d = Permit).
  { intros C d [H|[H|(o & H & _)]]; congruence. }
  intros C x l a H P. destruct x; cbn [set_combine] in H.
  - assert (G : forall l p, set_deny_overrides C p l = Ok a ->
       p = true \/ exists b, In (Ok b) l /\ permits C b).
    { clear H l. induction l as [|[b|e] l IH]; intros p H; cbn in H.
      - destruct p; [left; reflexivity|]. injection H as <-. apply NP in P. discriminate.
      - destruct (answer_is C b Deny) as [[]|]; cbn in H; try discriminate.
        { injection H as <-. apply NP in P. discriminate. }
        destruct (answer_is C b Permit) as [[]|] eqn:E; cbn in H; try discriminate.
        { right. exists b. split; [left; reflexivity|apply permits_is; exact E]. }
        assert (K : set_deny_overrides C p l = Ok a \/ a = ADecision Deny).
        { destruct (answer_is C b NotApplicable) as [[]|]; cbn in H; try discriminate; [left; exact H|].
          destruct (answer_is C b Indeterminate) as [[]|]; cbn in H; try discriminate; [right; congruence|left; exact H]. }
        destruct K as [K | ->]; [|apply NP in P; discriminate].
        destruct (IH p K) as [->|(b' & I & Q)]; [left; reflexivity|].
        right. exists b'. split; [right; exact I|exact Q].
      - discriminate. }
    destruct (G l false H) as [D|R]; [discriminate|exact R].
  - assert (G : forall l p q, set_permit_overrides C p q l = Ok a ->
       exists b, In (Ok b) l /\ permits C b).
    { clear H l. induction l as [|[b|e] l IH]; intros p q H; cbn in H.
      - destruct q, p; injection H as <-; apply NP in P; discriminate.
      - destruct (answer_is C b Permit) as [[]|] eqn:E.
        { exists b. split; [left; reflexivity|apply permits_is; exact E]. }
        + assert (K : exists p q, set_permit_overrides C p q l = Ok a).
          { destruct (answer_is C b Deny) as [[]|]; cbn in H; try discriminate; [eauto|].
            destruct (answer_is C b NotApplicable) as [[]|]; cbn in H; try discriminate; [eauto|].
            destruct (answer_is C b Indeterminate) as [[]|]; cbn in H; try discriminate; eauto. }
          destruct K as (p' & q' & K). destruct (IH p' q' K) as (b' & I & Q).
          exists b'. split; [right; exact I|exact Q].
        + assert (K : exists p q, set_permit_overrides C p q l = Ok a).
          { destruct (answer_is C b Deny) as [[]|]; cbn in H; try discriminate; eauto. }
          destruct K as (p' & q' & K). destruct (IH p' q' K) as (b' & I & Q).
          exists b'. split; [right; exact I|exact Q].
      - discriminate. }
    exact (G l false false H).
  - induction l as [|[b|e] l IH]; cbn in H.
    + injection H as <-. apply NP in P. discriminate.
    + destruct (answer_is C b Deny) as [[]|]; cbn in H; try discriminate.
      { injection H as <-. apply NP in P. discriminate. }
      destruct (answer_is C b Permit) as [[]|] eqn:E; cbn in H; try discriminate.
      { exists b. split; [left; reflexivity|apply permits_is; exact E]. }
      assert (K : set_first_applicable C l = Ok a \/ a = ADecision Indeterminate).
      { destruct (answer_is C b NotApplicable) as [[]|]; cbn in H; try discriminate; [left; exact H|].
        destruct (answer_is C b Indeterminate) as [[]|]; cbn in H; try discriminate; [right; congruence|left; exact H]. }
      destruct K as [K | ->]; [|apply NP in P; discriminate].
      destruct (IH K) as (b' & I & Q). exists b'. split; [right; exact I|exact Q].
    + discriminate.
Qed.

Lemma checked_ok : forall E c t r a,
  catch_answer (check_target E c t r) = Ok a ->
  a = ADecision NotApplicable \/ a = ADecision Indeterminate \/ r = Ok a.
Proof.
  intros E c t r a H. unfold check_target in H.
  destruct (match t with Some t => target_match E c t | None => Ok true end) as [[]|e]; cbn in H.
  - destruct r as [b|e]; cbn in H; [right; right; exact H|].
    destruct (is_exception e); [|discriminate]. right. left. congruence.
  - left. congruence.
  - destruct (is_exception e); [|discriminate]. right. left. congruence.
Qed.

Lemma permit_from_rule : forall C, honest_rules C -> honest_policies C -> reserved_users C ->
  forall p c a, c_evaluate C p c = Ok a -> permits C a ->
  exists r, rule_of r p /\ rule_eval (ce_env C) c r = Ok Permit.
Proof.
  intros C HR HP HU.
  assert (NP : forall d, permits C (ADecision d) -> d = Permit).
  { intros d [H|[H|(o & H & _)]]; congruence. }
  intros p. induction p as [t alg rules|t alg ps IH|k] using cpolicy_ind'; intros c a H P.
  - cbn [c_evaluate] in H. destruct (checked_ok _ _ _ _ _ H) as [-> | [-> | K]];
      try (apply NP in P; discriminate).
    destruct alg as [[x|k]|]; [| |discriminate]; cbn [run_rule_alg] in K.
    + destruct (combine_rules x (rule_eval (ce_env C) c) rules) as [d|e] eqn:E; [|discriminate].
      cbn in K. injection K as <-. apply NP in P. subst d.
      assert (V : policy_eval (ce_env C) c (PPolicy (mkMeta None None None None None) None (Some x) rules) = Ok Permit).
      { cbn. rewrite E. reflexivity. }
      destruct (policy_rule_reason _ _ _ _ _ _ _ V) as (_ & r & I & R); try discriminate.
      exists r. split; [constructor; exact I|exact R].
    + destruct (play_rules_talk (fun r c' => rule_eval (ce_env C) c' r) (ce_rules C k rules c))
        as (log & T & V).
      rewrite K in T. destruct (HR k rules c log a T P) as (r & I & L).
      exists r. split; [constructor; exact I|]. symmetry. exact (V _ _ _ L).
  - cbn [c_evaluate] in H. destruct (checked_ok _ _ _ _ _ H) as [-> | [-> | K]];
      try (apply NP in P; discriminate).
    rewrite Forall_forall in IH.
    destruct alg as [[x|k]|]; [| |discriminate]; cbn [run_policy_alg] in K.
    + destruct (set_permit_source C x _ a K P) as (b & I & Q).
      rewrite map_map, in_map_iff in I. destruct I as (q & E & I).
      destruct (IH q I c b E Q) as (r & O & R).
      exists r. split; [exact (rule_below r t _ ps q I O)|exact R].
    + destruct (play_policies_talk (ask_member (map (c_evaluate C) ps)) (ce_policies C k ps c))
        as (log & T & V).
      rewrite K in T. destruct (HP k ps c log a T P) as (i & b & I & Q).
      assert (W := V _ _ _ I). rewrite ask_member_map in W.
      destruct (nth_error ps i) as [q|] eqn:E; [|discriminate].
      assert (Iq := nth_error_In ps i E).
      destruct (IH q Iq c b (eq_sym W) Q) as (r & O & R).
      exists r. split; [exact (rule_below r t _ ps q Iq O)|exact R].
  - destruct (HU k c a H P).
Qed.

(** ** Sets *)

Lemma set_same_answers : forall C c t x ps qs,
  Forall2 (fun p q => exists a d, c_evaluate C p c = Ok a /\
             c_evaluate C q c = Ok (ADecision d) /\ taken_for C a d) ps qs ->
  c_evaluate C (CPolicySet t (Some (Std x)) ps) c =
  c_evaluate C (CPolicySet t (Some (Std x)) qs) c.
Proof.
  intros C c t x ps qs F. cbn [c_evaluate run_policy_alg]. do 2 f_equal.
  apply set_congr. rewrite !map_map.
  induction F as [|p q ps qs (a & d & E1 & E2 & T) F IH]; cbn; constructor; [|exact IH].
  right. exists a, (ADecision d). split; [exact E1|]. split; [exact E2|].
  apply taken_compares. exact T.
Qed.

Lemma set_without : forall C c t x before p after a,
  c_evaluate C p c = Ok a -> unlike_any C a ->
  c_evaluate C (CPolicySet t (Some (Std x)) (before ++ p :: after)) c =
  c_evaluate C (CPolicySet t (Some (Std x)) (before ++ after)) c.
Proof.
  intros C c t x before p after a E U. cbn [c_evaluate run_policy_alg]. do 2 f_equal.
  rewrite !map_map, !map_app. cbn [map]. apply set_skip.
  exists a. split; assumption.
Qed.

Lemma set_spoiled : forall C c t x before p after a, applies C c t ->
  (forall q, In q before -> exists b d,
     c_evaluate C q c = Ok b /\ taken_for C b d /\ goes_on x d) ->
  c_evaluate C p c = Ok a -> refuses_comparison C a ->
  c_evaluate C (CPolicySet t (Some (Std x)) (before ++ p :: after)) c =
  Ok (ADecision Indeterminate).
Proof.
  intros C c t x before p after a A B E R. cbn [c_evaluate run_policy_alg].
  rewrite (applies_check C c t _ A). rewrite !map_map, !map_app. cbn [map].
  rewrite E.
  destruct (set_refused C x (map (fun q => c_evaluate C q c) before)
     (map (fun q => c_evaluate C q c) after) a) as (e & X & K).
  - intros r I. rewrite in_map_iff in I. destruct I as (q & <- & I). exact (B q I).
  - exact R.
  - rewrite K. cbn. rewrite X. reflexivity.
Qed.
