From Verif Require Import Eval EvalFacts EvalFacts2 EvalFacts3 Setters SpecSetters SettersFacts Response SpecResponse.

Lemma dec_same_iff : forall a b, dec_same a b = true <-> a = b.
Proof. intros [] []; simpl; split; congruence. Qed.

(** ** Evaluation with unchanged shared objects *)
Section Initial.
  Variables (E : env) (s : store) (c : context).
  Hypothesis Hs : forall d, s d = d.

  Definition read (r : res dobj) : res decision :=
    match r with Ok o => Ok (value_of s o) | Raise e => Raise e end.

  Lemma read_shared : forall d, read (Ok (DShared d)) = Ok d.
  Proof. intros d. simpl. rewrite Hs. reflexivity. Qed.

  Lemma read_catch : forall r, read (catch_exception_o r) = catch_exception (read r).
  Proof.
    intros [o|e]; simpl; [reflexivity|]. destruct (is_exception e); simpl; [rewrite Hs|]; reflexivity.
  Qed.

  Lemma read_rule : forall r, read (rule_eval_o E c r) = rule_eval E c r.
  Proof.
    intros r. unfold rule_eval_o, rule_eval. rewrite read_catch. f_equal.
    unfold rule_body_o, rule_body.
    destruct (match rl_target r with Some t => target_match E c t | None => Ok true end) as [b|e];
      simpl; [|reflexivity].
    destruct b; simpl; [|rewrite Hs; reflexivity].
    destruct (match rl_condition r with Some cond => eval_condition E c cond | None => Ok (py_bool true) end)
      as [v|e]; simpl; [|reflexivity].
    destruct (truthy v); simpl; [|rewrite Hs; reflexivity].
    destruct (rl_effect r); reflexivity.
  Qed.

  Ltac step := rewrite ?Hs; simpl; try reflexivity.

  Lemma read_rdo : forall ev ev', (forall r, read (ev r) = ev' r) ->
    forall rules err pd perm,
      read (rules_deny_overrides_o s ev err pd perm rules)
      = rules_deny_overrides ev' err pd perm rules.
  Proof.
    intros ev ev' H. induction rules as [|r rest IH]; intros err pd perm; cbn [rules_deny_overrides_o rules_deny_overrides].
    - destruct pd; [apply read_shared|]. destruct perm; [apply read_shared|]. destruct err; apply read_shared.
    - rewrite <- (H r). destruct (ev r) as [o|e]; cbn [bind read]; [|reflexivity].
      rewrite !Hs. destruct (value_of s o); cbn [dec_same].
      + apply IH.
      + apply read_shared.
      + destruct (rl_effect r) as [[]|]; cbn [dec_same decision_of_effect]; [apply IH|apply IH|reflexivity].
      + apply IH.
  Qed.

  Lemma read_rpo : forall ev ev', (forall r, read (ev r) = ev' r) ->
    forall rules err pp den,
      read (rules_permit_overrides_o s ev err pp den rules)
      = rules_permit_overrides ev' err pp den rules.
  Proof.
    intros ev ev' H. induction rules as [|r rest IH]; intros err pd perm; cbn [rules_permit_overrides_o rules_permit_overrides].
    - destruct pd; [apply read_shared|]. destruct perm; [apply read_shared|]. destruct err; apply read_shared.
    - rewrite <- (H r). destruct (ev r) as [o|e]; cbn [bind read]; [|reflexivity].
      rewrite !Hs. destruct (value_of s o); cbn [dec_same].
      + apply read_shared.
      + apply IH.
      + destruct (rl_effect r) as [[]|]; cbn [dec_same decision_of_effect]; [apply IH|apply IH|reflexivity].
      + apply IH.
  Qed.

  Lemma read_rfa : forall ev ev', (forall r, read (ev r) = ev' r) ->
    forall rules, read (first_applicable_o s ev rules) = rules_first_applicable ev' rules.
  Proof.
    intros ev ev' H. induction rules as [|r rest IH]; cbn [first_applicable_o rules_first_applicable].
    - apply read_shared.
    - rewrite <- (H r). destruct (ev r) as [o|e]; cbn [bind read]; [|reflexivity].
      rewrite !Hs. destruct (value_of s o); cbn [dec_same]; try apply read_shared. apply IH.
  Qed.

  Lemma read_combine_rules : forall alg ev ev', (forall r, read (ev r) = ev' r) ->
    forall rules, read (combine_rules_o s alg ev rules) = combine_rules alg ev' rules.
  Proof.
    intros [] ev ev' H rules; unfold combine_rules_o, combine_rules.
    - apply read_rdo, H. - apply read_rpo, H. - apply read_rfa, H.
  Qed.

  Lemma read_combine_policies : forall alg ev ev' ps, Forall (fun p => read (ev p) = ev' p) ps ->
    read (combine_policies_o s alg ev ps) = combine_policies alg ev' ps.
  Proof.
    intros alg ev ev' ps H. destruct alg; unfold combine_policies_o, combine_policies.
    - generalize false. induction H as [|p rest H0 H IH]; intros perm;
        cbn [policies_deny_overrides_o policies_deny_overrides].
      + destruct perm; apply read_shared.
      + rewrite <- H0. destruct (ev p) as [o|e]; cbn [bind read]; [|reflexivity].
        rewrite !Hs. destruct (value_of s o); cbn [dec_same]; try apply read_shared; apply IH.
    - generalize false at 1 3. generalize false. induction H as [|p rest H0 H IH]; intros den err;
        cbn [policies_permit_overrides_o policies_permit_overrides].
      + destruct den; [apply read_shared|]. destruct err; apply read_shared.
      + rewrite <- H0. destruct (ev p) as [o|e]; cbn [bind read]; [|reflexivity].
        rewrite !Hs. destruct (value_of s o); cbn [dec_same]; try apply read_shared; apply IH.
    - induction H as [|p rest H0 H IH]; cbn [first_applicable_o policies_first_applicable].
      + apply read_shared.
      + rewrite <- H0. destruct (ev p) as [o|e]; cbn [bind read]; [|reflexivity].
        rewrite !Hs. destruct (value_of s o); cbn [dec_same]; try apply read_shared; apply IH.
  Qed.

  Lemma read_with_target : forall t r r', read r = r' ->
    read (with_target_o E c t r) = with_target E c t r'.
  Proof.
    intros t r r' <-. unfold with_target_o, with_target.
    destruct (match t with Some t => target_match E c t | None => Ok true end) as [b|e]; simpl; [|reflexivity].
    destruct b; simpl; [reflexivity|rewrite Hs; reflexivity].
  Qed.

  Lemma read_policy : forall p, read (policy_eval_o E s c p) = policy_eval E c p.
  Proof.
    intros p. induction p as [m t alg rules|m t alg ps IH] using policybase_ind';
      cbn [policy_eval_o policy_eval]; rewrite read_catch; f_equal; apply read_with_target;
      destruct alg as [a|]; try reflexivity.
    - apply read_combine_rules. intros r. apply read_rule.
    - apply read_combine_policies. exact IH.
  Qed.
End Initial.

(** ** Only shared objects leave evaluation *)
Lemma catch_shared : forall r, (forall o, r = Ok o -> exists d, o = DShared d) ->
  forall o, catch_exception_o r = Ok o -> exists d, o = DShared d.
Proof.
  intros [o'|e] H o; simpl.
  - intros H1. injection H1 as <-. apply H. reflexivity.
  - destruct (is_exception e); intros H1; [injection H1 as <-; eexists; reflexivity|discriminate].
Qed.

Ltac shared H := injection H as <-; eexists; reflexivity.

Lemma combine_rules_shared : forall s alg ev rules o,
  combine_rules_o s alg ev rules = Ok o -> exists d, o = DShared d.
Proof.
  intros s alg ev rules o. destruct alg; unfold combine_rules_o.
  - generalize false at 1. generalize false at 1. generalize false.
    induction rules as [|r rest IH]; intros perm pd err; cbn [rules_deny_overrides_o].
    + destruct pd, perm, err; intros H; shared H.
    + destruct (ev r) as [o'|e]; cbn [bind]; [|discriminate].
      destruct (dec_same (value_of s o') (s Deny)); [intros H; shared H|].
      destruct (dec_same (value_of s o') (s Permit)); [apply IH|].
      destruct (dec_same (value_of s o') (s NotApplicable)); [apply IH|].
      destruct (dec_same (value_of s o') (s Indeterminate)); [|apply IH].
      destruct (rl_effect r); [apply IH|discriminate].
  - generalize false at 1. generalize false at 1. generalize false.
    induction rules as [|r rest IH]; intros perm pd err; cbn [rules_permit_overrides_o].
    + destruct pd, perm, err; intros H; shared H.
    + destruct (ev r) as [o'|e]; cbn [bind]; [|discriminate].
      destruct (dec_same (value_of s o') (s Deny)); [apply IH|].
      destruct (dec_same (value_of s o') (s Permit)); [intros H; shared H|].
      destruct (dec_same (value_of s o') (s NotApplicable)); [apply IH|].
      destruct (dec_same (value_of s o') (s Indeterminate)); [|apply IH].
      destruct (rl_effect r); [apply IH|discriminate].
  - induction rules as [|r rest IH]; cbn [first_applicable_o].
    + intros H; shared H.
    + destruct (ev r) as [o'|e]; cbn [bind]; [|discriminate].
      destruct (dec_same (value_of s o') (s Deny)); [intros H; shared H|].
      destruct (dec_same (value_of s o') (s Permit)); [intros H; shared H|].
      destruct (dec_same (value_of s o') (s NotApplicable)); [apply IH|].
      destruct (dec_same (value_of s o') (s Indeterminate)); [intros H; shared H|apply IH].
Qed.

Lemma combine_policies_shared : forall s alg ev ps o,
  combine_policies_o s alg ev ps = Ok o -> exists d, o = DShared d.
Proof.
  intros s alg ev ps o. destruct alg; unfold combine_policies_o.
  - generalize false. induction ps as [|r rest IH]; intros perm; cbn [policies_deny_overrides_o].
    + destruct perm; intros H; shared H.
    + destruct (ev r) as [o'|e]; cbn [bind]; [|discriminate].
      destruct (dec_same (value_of s o') (s Deny)); [intros H; shared H|].
      destruct (dec_same (value_of s o') (s Permit)); [apply IH|].
      destruct (dec_same (value_of s o') (s NotApplicable)); [apply IH|].
      destruct (dec_same (value_of s o') (s Indeterminate)); [intros H; shared H|apply IH].
  - generalize false at 1. generalize false. induction ps as [|r rest IH]; intros den err; cbn [policies_permit_overrides_o].
    + destruct den, err; intros H; shared H.
    + destruct (ev r) as [o'|e]; cbn [bind]; [|discriminate].
      destruct (dec_same (value_of s o') (s Deny)); [apply IH|].
      destruct (dec_same (value_of s o') (s Permit)); [intros H; shared H|].
      destruct (dec_same (value_of s o') (s NotApplicable)); [apply IH|].
      destruct (dec_same (value_of s o') (s Indeterminate)); [apply IH|apply IH].
  - induction ps as [|r rest IH]; cbn [first_applicable_o].
    + intros H; shared H.
    + destruct (ev r) as [o'|e]; cbn [bind]; [|discriminate].
      destruct (dec_same (value_of s o') (s Deny)); [intros H; shared H|].
      destruct (dec_same (value_of s o') (s Permit)); [intros H; shared H|].
      destruct (dec_same (value_of s o') (s NotApplicable)); [apply IH|].
      destruct (dec_same (value_of s o') (s Indeterminate)); [intros H; shared H|apply IH].
Qed.

Lemma policy_shared : forall E s c p o, policy_eval_o E s c p = Ok o -> exists d, o = DShared d.
Proof.
  intros E s c p o. destruct p as [m t alg rules|m t alg ps]; cbn [policy_eval_o]; apply catch_shared;
    intros o'; unfold with_target_o;
    destruct (match t with Some t => target_match E c t | None => Ok true end) as [b|e]; cbn [bind];
    try discriminate; destruct b; cbn [negb]; try (intros H; shared H);
    destruct alg; try discriminate.
  - apply combine_rules_shared.
  - apply combine_policies_shared.
Qed.

(** Evaluation raises only exceptions outside the Exception hierarchy. *)
Lemma policy_o_raises : forall E s c p e, policy_eval_o E s c p = Raise e -> is_exception e = false.
Proof.
  intros E s c p e. destruct p as [m t alg rules|m t alg ps]; cbn [policy_eval_o]; unfold catch_exception_o;
  match goal with |- match ?x with _ => _ end = _ -> _ => destruct x as [o|e'] end; try discriminate;
  destruct (is_exception e') eqn:He; try discriminate; intros H; injection H as <-; exact He.
Qed.

(** ** Responses *)
Lemma create_na : forall s d,
  result_create (as_arg s (DShared d)) no_args
  = Ok (mkResult (Some (DOwn (s d))) (Some (plain_status "")) None None).
Proof. intros s d. unfold as_arg. simpl value_of. destruct (s d); reflexivity. Qed.

Lemma evaluateResponse_ok : forall E s c p r, evaluateResponse E s c p = Ok r ->
  exists d, policy_eval_o E s c p = Ok (DShared d) /\
            r = [mkResult (Some (DShared d)) (Some (plain_status "")) None None].
Proof.
  intros E s c p r. unfold evaluateResponse. rewrite create_na. cbn [bind].
  destruct (policy_eval_o E s c p) as [o|e] eqn:He.
  - intros H. injection H as <-. destruct (policy_shared _ _ _ _ _ He) as [d ->].
    exists d. split; reflexivity.
  - apply policy_o_raises in He. destruct e; try discriminate.
Qed.

Lemma evaluateResponse_raise : forall E s c p e, evaluateResponse E s c p = Raise e <->
  policy_eval_o E s c p = Raise e.
Proof.
  intros E s c p e. unfold evaluateResponse. rewrite create_na. cbn [bind].
  destruct (policy_eval_o E s c p) as [o|e'] eqn:He.
  - split; discriminate.
  - apply policy_o_raises in He. destruct e'; try discriminate He. simpl. split; intros H; injection H as <-; reflexivity.
Qed.

Lemma response_spec : forall E s c p, (forall d, s d = d) ->
  match policy_eval E c p with
  | Ok d => evaluateResponse E s c p
            = Ok [mkResult (Some (DShared d)) (Some (plain_status "")) None None]
  | Raise e => evaluateResponse E s c p = Raise e
  end.
Proof.
  intros E s c p Hs. pose proof (read_policy E s c Hs p) as Hr.
  destruct (evaluateResponse E s c p) as [r|e] eqn:He.
  - destruct (evaluateResponse_ok _ _ _ _ _ He) as [d [Hd ->]]. rewrite Hd in Hr. simpl in Hr.
    rewrite Hs in Hr. rewrite <- Hr. reflexivity.
  - apply evaluateResponse_raise in He. rewrite He in Hr. simpl in Hr. rewrite <- Hr. reflexivity.
Qed.

Lemma evaluate_unmatched : forall E s c p t, target_of p = Some t -> target_match E c t = Ok false ->
  evaluateResponse E s c p
  = Ok [mkResult (Some (DShared NotApplicable)) (Some (plain_status "")) None None].
Proof.
  intros E s c p t Ht Hm. unfold evaluateResponse. rewrite create_na. cbn [bind].
  assert (Hp : policy_eval_o E s c p = Ok (DShared NotApplicable)).
  { destruct p as [m t' alg rules|m t' alg ps]; cbn [target_of] in Ht; subst t'; cbn [policy_eval_o];
      unfold with_target_o; rewrite Hm; reflexivity. }
  rewrite Hp. reflexivity.
Qed.

(** ** Programs *)
Lemma w_run_snoc : forall ops o w, w_run (ops ++ [o]) w = snd (w_step (w_run ops w) o).
Proof. intros ops o w. unfold w_run. rewrite fold_left_app. reflexivity. Qed.

Lemma w_run_app : forall ops ops' w, w_run (ops ++ ops') w = w_run ops' (w_run ops w).
Proof. intros ops ops' w. unfold w_run. rewrite fold_left_app. reflexivity. Qed.

Lemma step_store : forall o w, assigns_value o = false -> w_store (snd (w_step w o)) = w_store w.
Proof.
  intros [E c p|arg|k d|k x] w H; simpl in *; try discriminate.
  - destruct (evaluateResponse _ _ _ _); reflexivity.
  - destruct (context_error _ _); reflexivity.
  - destruct (nth_error (w_responses w) k) as [[|r rest]|]; reflexivity.
Qed.

Lemma run_store : forall ops w, (forall o, In o ops -> assigns_value o = false) ->
  w_store (w_run ops w) = w_store w.
Proof.
  induction ops as [|o ops IH] using rev_ind; intros w H; [reflexivity|].
  rewrite w_run_snoc, step_store by (apply H, in_or_app; right; left; reflexivity).
  apply IH. intros o' Ho. apply H, in_or_app. left. exact Ho.
Qed.

Lemma nth_set_nth_other : forall A k j (a : A) l, k <> j -> nth_error (set_nth k a l) j = nth_error l j.
Proof.
  intros A. induction k as [|k IH]; intros [|j] a [|b l] H; simpl; try reflexivity; try contradiction.
  apply IH. congruence.
Qed.

Lemma nth_set_nth_same : forall A k (a b : A) l, nth_error l k = Some b -> nth_error (set_nth k a l) k = Some a.
Proof.
  intros A. induction k as [|k IH]; intros a b [|x l] H; simpl in *; try discriminate; [reflexivity|].
  eapply IH, H.
Qed.

Lemma nth_app_old : forall A (l : list A) x k a, nth_error l k = Some a -> nth_error (l ++ [x]) k = Some a.
Proof.
  intros A l x k a H. rewrite nth_error_app1; [exact H|]. apply nth_error_Some. congruence.
Qed.

Lemma step_keeps : forall o w k r, assigns_value o = false -> replaces k o = false ->
  nth_error (w_responses w) k = Some r -> nth_error (w_responses (snd (w_step w o))) k = Some r.
Proof.
  intros [E c p|arg|j d|j x] w k r H H2 Hn; simpl in *; try discriminate.
  - destruct (evaluateResponse _ _ _ _); simpl; [apply nth_app_old|]; exact Hn.
  - destruct (context_error _ _); simpl; [apply nth_app_old|]; exact Hn.
  - apply Nat.eqb_neq in H2.
    destruct (nth_error (w_responses w) j) as [[|r' rest]|]; simpl; try exact Hn.
    rewrite nth_set_nth_other; assumption.
Qed.

Lemma run_keeps : forall ops w k r,
  (forall o, In o ops -> assigns_value o = false /\ replaces k o = false) ->
  nth_error (w_responses w) k = Some r -> nth_error (w_responses (w_run ops w)) k = Some r.
Proof.
  induction ops as [|o ops IH] using rev_ind; intros w k r H Hn; [exact Hn|].
  rewrite w_run_snoc. destruct (H o) as [H1 H2]; [apply in_or_app; right; left; reflexivity|].
  apply step_keeps; try assumption. apply IH; [|exact Hn].
  intros o' Ho. apply H, in_or_app. left. exact Ho.
Qed.

Lemma names_set : forall self x d, names x d -> decision_set self x = (Ok tt, Some (decision_str d)).
Proof. intros self x d [-> | ->]; destruct d; reflexivity. Qed.

Lemma of_str : forall d, decision_of_str (decision_str d) = Some d.
Proof. intros []; reflexivity. Qed.

Lemma step_value : forall w k r d x v, nth_error (w_responses w) k = Some r -> holds r d -> names x v ->
  w_step w (WValue k x) = (Ok tt, mkWorld (store_set d v (w_store w)) (w_responses w)).
Proof.
  intros w k r d x v Hn [y [-> Hy]] Hx. simpl. rewrite Hn, Hy, (names_set _ _ _ Hx), of_str. reflexivity.
Qed.

Lemma store_set_same : forall d v s, store_set d v s d = v.
Proof. intros [] v s; reflexivity. Qed.
Lemma store_set_other : forall d v s k, k <> d -> store_set d v s k = s k.
Proof.
  intros d v s k H. unfold store_set. destruct (dec_same k d) eqn:E; [|reflexivity].
  apply dec_same_iff in E. contradiction.
Qed.

Lemma reads_holds : forall s r d, holds r d -> reads s r = Some (s d).
Proof. intros s r d [x [-> H]]. simpl. rewrite H. reflexivity. Qed.

(** ** Context errors *)
Lemma context_error_none : forall s,
  context_error s []
  = Ok [mkResult (Some (DShared Indeterminate)) (Some (plain_status "")) None None].
Proof. intros s. unfold context_error. rewrite create_na. reflexivity. Qed.

Lemma context_error_str : forall s m rest,
  context_error s (ONat (NStr m) :: rest)
  = Ok [mkResult (Some (DShared Indeterminate)) (Some (plain_status m)) None None].
Proof. intros s m rest. unfold context_error. rewrite create_na. reflexivity. Qed.

Lemma context_error_other : forall s x rest, as_string x = None ->
  context_error s (x :: rest) = Raise ETypeError.
Proof.
  intros s x rest H. unfold context_error. rewrite create_na. cbn [bind set_decision rs_status].
  destruct x as [[]| | | | | | |]; try reflexivity. discriminate.
Qed.

(** ** The PDP *)
Lemma pdp_last : forall xs, set_run pdp_set xs None = last_some (map as_policy xs).
Proof.
  induction xs as [|x xs IH] using rev_ind; [reflexivity|].
  rewrite set_run_snoc, map_app. simpl map. rewrite last_some_snoc, <- IH.
  destruct x as [p|x]; reflexivity.
Qed.
