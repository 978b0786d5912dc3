(** Proofs about evaluation: combining algorithms, rules, targets. *)
From Verif Require Import Eval SpecEval.
From Coq Require Import Lia Permutation.

(** ** Lists and mapM *)

Lemma bind_ok : forall A B (x : res A) (f : A -> res B) b,
  bind x f = Ok b <-> exists a, x = Ok a /\ f a = Ok b.
Proof.
  intros A B [a|e] f b; simpl; split.
  - intros H; eauto.
  - intros (a' & H1 & H2). injection H1 as ->. exact H2.
  - discriminate.
  - intros (a' & H1 & _). discriminate.
Qed.

Lemma bind_raise : forall A B (x : res A) (f : A -> res B) e,
  bind x f = Raise e <-> x = Raise e \/ exists a, x = Ok a /\ f a = Raise e.
Proof.
  intros A B [a|e'] f e; simpl; split.
  - intros H; eauto.
  - intros [H|(a' & H1 & H2)]; [discriminate|]. injection H1 as ->. exact H2.
  - intros H; injection H as ->; auto.
  - intros [H|(a' & H1 & _)]; [injection H as ->; reflexivity|discriminate].
Qed.

Lemma mapM_cons : forall A B (f : A -> res B) x xs,
  mapM f (x :: xs) = let* y := f x in let* ys := mapM f xs in Ok (y :: ys).
Proof. reflexivity. Qed.

Lemma mapM_ok : forall A B (f : A -> res B) l ys,
  mapM f l = Ok ys <-> Forall2 (fun x y => f x = Ok y) l ys.
Proof.
  induction l as [|x xs IH]; intros ys.
  - simpl; split; intros H.
    + injection H as <-. constructor.
    + inversion H; reflexivity.
  - rewrite mapM_cons, bind_ok. split.
    + intros (y & Hy & H). apply bind_ok in H. destruct H as (ys' & Hys & H).
      injection H as <-. constructor; [exact Hy|]. apply IH; exact Hys.
    + intros H. inversion H as [|x' y xs' ys' Hy Hys]; subst.
      exists y; split; [exact Hy|]. apply bind_ok. exists ys'. split; [|reflexivity].
      apply IH; exact Hys.
Qed.

Lemma mapM_raise : forall A B (f : A -> res B) l e,
  mapM f l = Raise e <->
  exists pre x post ys, l = pre ++ x :: post /\ f x = Raise e /\
    Forall2 (fun a b => f a = Ok b) pre ys.
Proof.
  induction l as [|x xs IH]; intros e.
  - simpl; split; [discriminate|].
    intros (pre & x & post & ys & H & _). destruct pre; discriminate.
  - rewrite mapM_cons, bind_raise. split.
    + intros [H|(y & Hy & H)].
      * exists [], x, xs, []. repeat split; auto.
      * apply bind_raise in H. destruct H as [H|(ys & _ & H)]; [|discriminate].
        apply IH in H. destruct H as (pre & x' & post & ys & -> & Hx' & Hpre).
        exists (x :: pre), x', post, (y :: ys). repeat split; auto.
    + intros (pre & x' & post & ys & Heq & Hx' & Hpre).
      destruct pre as [|p pre]; simpl in Heq; injection Heq as -> ->.
      * left; exact Hx'.
      * right. inversion Hpre as [|p' y pre' ys' Hy Hys]; subst.
        exists y; split; [exact Hy|]. apply bind_raise; left. apply IH.
        exists pre, x', post, ys'. auto.
Qed.

Lemma mapM_ext_in : forall A B (f g : A -> res B) l,
  (forall x, In x l -> f x = g x) -> mapM f l = mapM g l.
Proof.
  induction l as [|x xs IH]; intros H; [reflexivity|].
  rewrite !mapM_cons, (H x (or_introl eq_refl)), IH; auto.
  intros y Hy; apply H; right; exact Hy.
Qed.

Lemma mapM_app : forall A B (f : A -> res B) l1 l2,
  mapM f (l1 ++ l2) = let* a := mapM f l1 in let* b := mapM f l2 in Ok (a ++ b).
Proof.
  induction l1 as [|x xs IH]; intros l2.
  - simpl. destruct (mapM f l2); reflexivity.
  - change ((x :: xs) ++ l2) with (x :: (xs ++ l2)).
    rewrite !mapM_cons, IH. destruct (f x) as [y|e]; simpl; [|reflexivity].
    destruct (mapM f xs) as [ys|e]; simpl; [|reflexivity].
    destruct (mapM f l2); reflexivity.
Qed.

Lemma Forall2_In_l : forall A B (R : A -> B -> Prop) l1 l2 x,
  Forall2 R l1 l2 -> In x l1 -> exists y, In y l2 /\ R x y.
Proof.
  induction 1; simpl; intros Hin; [contradiction|].
  destruct Hin as [->|Hin]; [eauto|].
  destruct (IHForall2 Hin) as (y' & ? & ?); eauto.
Qed.

Lemma Forall2_In_r : forall A B (R : A -> B -> Prop) l1 l2 y,
  Forall2 R l1 l2 -> In y l2 -> exists x, In x l1 /\ R x y.
Proof.
  induction 1; simpl; intros Hin; [contradiction|].
  destruct Hin as [->|Hin]; [eauto|].
  destruct (IHForall2 Hin) as (y' & ? & ?); eauto.
Qed.

(** ** Induction over policy trees *)

Lemma policybase_ind' : forall (P : policybase -> Prop),
  (forall m t alg rules, P (PPolicy m t alg rules)) ->
  (forall m t alg children, Forall P children -> P (PPolicySet m t alg children)) ->
  forall p, P p.
Proof.
  intros P H1 H2. fix IH 1. intros [m t alg rules|m t alg children].
  - apply H1.
  - apply H2. induction children as [|p ps IHps]; constructor; auto.
Qed.

Lemma expr_ind' : forall (P : expr -> Prop),
  (forall fid f args, Forall P args -> P (XApply fid f args)) ->
  (forall v, P (XValue v)) ->
  (forall d, P (XDesignator d)) ->
  (forall s, P (XSelector s)) ->
  forall x, P x.
Proof.
  intros P H1 H2 H3 H4. fix IH 1. intros [fid f args|v|d|s].
  - apply H1. induction args as [|y ys IHys]; constructor; auto.
  - apply H2.
  - apply H3.
  - apply H4.
Qed.

(** ** Catching exceptions *)

Lemma catch_exception_raise : forall r e,
  catch_exception r = Raise e -> r = Raise e /\ is_exception e = false.
Proof.
  intros [d|e'] e; simpl; [discriminate|].
  destruct (is_exception e') eqn:H; [discriminate|].
  intros Heq; injection Heq as ->. auto.
Qed.

Lemma rule_eval_raise : forall E c r e,
  rule_eval E c r = Raise e -> is_exception e = false.
Proof. intros E c r e H. apply catch_exception_raise in H. apply H. Qed.

Lemma policy_eval_raise : forall E c p e,
  policy_eval E c p = Raise e -> is_exception e = false.
Proof.
  intros E c [m t alg rules|m t alg children] e H;
    apply catch_exception_raise in H; apply H.
Qed.

(** ** Rule combining algorithms *)

Definition outcomes (ev : rule -> res decision) (rules : list rule)
  : list rule_outcome := map (fun r => (rl_effect r, ev r)) rules.

Definition catch_outcome (r : res decision) := catch_exception r.

Section Override.
  Variables (win lose : decision) (win_eff : effect).
  Hypothesis Hwl : win <> lose.
  Hypothesis Hwi : win <> Indeterminate.
  Hypothesis Hwn : win <> NotApplicable.
  Hypothesis Hli : lose <> Indeterminate.
  Hypothesis Hln : lose <> NotApplicable.

  (** Decide a result from flags: an executable reading of both loops. *)
  Definition effect_eqb (a b : effect) : bool :=
    match a, b with
    | EffPermit, EffPermit => true
    | EffDeny, EffDeny => true
    | _, _ => false
    end.
  Lemma effect_eqb_eq : forall a b, effect_eqb a b = true <-> a = b.
  Proof. intros [|] [|]; simpl; split; congruence. Qed.

  Definition dec_eqb (a b : decision) : bool :=
    match a, b with
    | Permit, Permit => true | Deny, Deny => true
    | Indeterminate, Indeterminate => true
    | NotApplicable, NotApplicable => true
    | _, _ => false
    end.
  Lemma dec_eqb_eq : forall a b, dec_eqb a b = true <-> a = b.
  Proof. intros [| | |] [| | |]; simpl; split; congruence. Qed.

  Fixpoint over (err pot los : bool) (os : list rule_outcome) : res decision :=
    match os with
    | [] =>
        if pot then Ok Indeterminate
        else if los then Ok lose
        else if err then Ok Indeterminate
        else Ok NotApplicable
    | (eff, Raise e) :: rest => Raise e
    | (eff, Ok d) :: rest =>
        if dec_eqb d win then Ok win
        else if dec_eqb d lose then over err pot true rest
        else if dec_eqb d NotApplicable then over err pot los rest
        else match eff with
             | None => Ok Indeterminate
             | Some ef => over true (pot || effect_eqb ef win_eff) los rest
             end
    end.

  Definition quiet (o : rule_outcome) : Prop := ~ rule_faulty o /\ snd o <> Ok win.

  Lemma faulty_raise : forall eff e, rule_faulty (eff, Raise e).
  Proof. intros. right. eauto. Qed.
  Lemma not_faulty_ok : forall eff d, d <> Indeterminate -> ~ rule_faulty (eff, Ok d).
  Proof. intros eff d H [H1|(e & o' & H1)]; congruence. Qed.
  Lemma not_faulty_some : forall ef d, ~ rule_faulty (Some ef, Ok d).
  Proof. intros ef d [H1|(e & o' & H1)]; congruence. Qed.

  Lemma over_spec : forall os seen err pot los,
    (forall o, In o seen -> quiet o) ->
    (pot = true <-> In (Some win_eff, Ok Indeterminate) seen) ->
    (los = true <-> exists eff, In (eff, Ok lose) seen) ->
    (err = true <-> exists eff, In (eff, Ok Indeterminate) seen) ->
    rules_override_spec win win_eff lose (seen ++ os) (over err pot los os).
  Proof.
    induction os as [|[eff [d|e]] rest IH]; intros seen err pot los Hq Hp Hl He.
    - rewrite app_nil_r. simpl.
      destruct pot.
      { apply ROpotential; [exact Hq|]. apply Hp; reflexivity. }
      assert (Hnp : ~ In (Some win_eff, Ok Indeterminate) seen)
        by (intros H; apply Hp in H; discriminate).
      destruct los.
      { destruct (proj1 Hl eq_refl) as [eff Hin]. eapply ROlose; eauto. }
      assert (Hnl : forall o, In o seen -> snd o <> Ok lose).
      { intros [eff o] Hin Heq. simpl in Heq. subst o.
        assert (false = true) by (apply Hl; eauto). discriminate. }
      destruct err.
      { destruct (proj1 He eq_refl) as [eff Hin]. eapply ROerror; eauto. }
      apply ROnone. intros [eff [d|e]] Hin; simpl.
      + destruct (Hq _ Hin) as [Hnf Hnw]. specialize (Hnl _ Hin). simpl in *.
        assert (d <> Indeterminate).
        { intros ->. assert (false = true) by (apply He; eauto). discriminate. }
        destruct win, lose, d; congruence.
      + destruct (Hq _ Hin) as [Hnf _]. exfalso; apply Hnf, faulty_raise.
    - cbn [over].
      destruct (dec_eqb d win) eqn:Hdw.
      { apply dec_eqb_eq in Hdw; subst d. eapply ROwin; [reflexivity|].
        intros o Hin; apply (Hq _ Hin). }
      assert (Hd1 : d <> win) by (intros H; apply dec_eqb_eq in H; congruence).
      destruct (dec_eqb d lose) eqn:Hdl.
      { apply dec_eqb_eq in Hdl; subst d.
        change ((eff, Ok lose) :: rest) with ([(eff, Ok lose)] ++ rest).
        rewrite app_assoc. apply IH.
        - intros o Hin. apply in_app_iff in Hin. destruct Hin as [Hin|[<-|[]]]; [auto|].
          split; [apply not_faulty_ok; exact Hli|]. simpl; congruence.
        - rewrite Hp, in_app_iff. split; [tauto|].
          intros [H|[H|[]]]; [exact H|congruence].
        - split; [|reflexivity]. intros _. exists eff. apply in_app_iff; right; left; reflexivity.
        - rewrite He. split; intros [e0 H]; exists e0.
          + apply in_app_iff; left; exact H.
          + apply in_app_iff in H; destruct H as [H|[H|[]]]; [exact H|congruence]. }
      assert (Hd2 : d <> lose) by (intros H; apply dec_eqb_eq in H; congruence).
      destruct (dec_eqb d NotApplicable) eqn:Hdn.
      { apply dec_eqb_eq in Hdn; subst d.
        change ((eff, Ok NotApplicable) :: rest) with ([(eff, Ok NotApplicable)] ++ rest).
        rewrite app_assoc. apply IH.
        - intros o Hin. apply in_app_iff in Hin. destruct Hin as [Hin|[<-|[]]]; [auto|].
          split; [apply not_faulty_ok; discriminate|]. simpl; congruence.
        - rewrite Hp, in_app_iff. split; [tauto|].
          intros [H|[H|[]]]; [exact H|congruence].
        - rewrite Hl. split; intros [e0 H]; exists e0.
          + apply in_app_iff; left; exact H.
          + apply in_app_iff in H; destruct H as [H|[H|[]]]; [exact H|congruence].
        - rewrite He. split; intros [e0 H]; exists e0.
          + apply in_app_iff; left; exact H.
          + apply in_app_iff in H; destruct H as [H|[H|[]]]; [exact H|congruence]. }
      assert (Hd3 : d <> NotApplicable) by (intros H; apply dec_eqb_eq in H; congruence).
      assert (Hd : d = Indeterminate) by (destruct win, lose, d; congruence).
      subst d. destruct eff as [ef|].
      + change ((Some ef, Ok Indeterminate) :: rest)
          with ([(Some ef, Ok Indeterminate)] ++ rest).
        rewrite app_assoc. apply IH.
        * intros o Hin. apply in_app_iff in Hin. destruct Hin as [Hin|[<-|[]]]; [auto|].
          split; [apply not_faulty_some|]. simpl; congruence.
        * rewrite orb_true_iff, effect_eqb_eq, in_app_iff, Hp. split.
          -- intros [H| ->]; [left; exact H|right; left; reflexivity].
          -- intros [H|[H|[]]]; [left; exact H|right; congruence].
        * rewrite Hl. split; intros [e0 H]; exists e0.
          -- apply in_app_iff; left; exact H.
          -- apply in_app_iff in H; destruct H as [H|[H|[]]]; [exact H|congruence].
        * split; [|reflexivity]. intros _. exists (Some ef).
          apply in_app_iff; right; left; reflexivity.
      + change (Ok Indeterminate) with (fault_result (None, Ok Indeterminate)).
        eapply ROfault; [reflexivity|left; reflexivity|exact Hq].
    - cbn [over]. change (Raise e) with (fault_result (eff, Raise e)).
      eapply ROfault; [reflexivity|apply faulty_raise|exact Hq].
  Qed.

  Lemma over_spec0 : forall os,
    rules_override_spec win win_eff lose os (over false false false os).
  Proof.
    intros os. apply (over_spec os []); simpl; try tauto;
      split; try discriminate; try contradiction.
    - intros [? []].
    - intros [? []].
  Qed.

  (** The specification determines the outcome. *)
  Lemma over_win : forall pre eff post err pot los,
    (forall o, In o pre -> ~ rule_faulty o) ->
    over err pot los (pre ++ (eff, Ok win) :: post) = Ok win.
  Proof.
    induction pre as [|[ef [d|e]] pre IH]; intros eff post err pot los Hq; cbn [over app].
    - replace (dec_eqb win win) with true; [reflexivity|].
      symmetry; apply dec_eqb_eq; reflexivity.
    - assert (Hq' : forall o, In o pre -> ~ rule_faulty o) by (intros; apply Hq; right; assumption).
      destruct (dec_eqb d win) eqn:Hd; [reflexivity|].
      destruct (dec_eqb d lose) eqn:Hdl; [apply IH; exact Hq'|].
      destruct (dec_eqb d NotApplicable) eqn:Hdn; [apply IH; exact Hq'|].
      destruct ef as [ef|]; [apply IH; exact Hq'|].
      exfalso. apply (Hq (None, Ok d)); [left; reflexivity|]. left.
      destruct win, lose, d; simpl in *; congruence.
    - exfalso. apply (Hq (ef, Raise e)); [left; reflexivity|apply faulty_raise].
  Qed.

  Lemma over_fault : forall pre o post err pot los,
    (forall o', In o' pre -> quiet o') -> rule_faulty o ->
    over err pot los (pre ++ o :: post) = fault_result o.
  Proof.
    induction pre as [|[ef [d|e]] pre IH]; intros o post err pot los Hq Ho; cbn [over app].
    - destruct Ho as [->|(e & eff & ->)]; [|reflexivity].
      destruct win, lose; simpl; try reflexivity; congruence.
    - assert (Hq' : forall o, In o pre -> quiet o) by (intros; apply Hq; right; assumption).
      destruct (Hq (ef, Ok d) (or_introl eq_refl)) as [Hnf Hnw]. simpl in Hnw.
      destruct (dec_eqb d win) eqn:Hd; [apply dec_eqb_eq in Hd; congruence|].
      destruct (dec_eqb d lose) eqn:Hdl; [apply IH; assumption|].
      destruct (dec_eqb d NotApplicable) eqn:Hdn; [apply IH; assumption|].
      destruct ef as [ef|]; [apply IH; assumption|].
      exfalso. apply Hnf. left. destruct win, lose, d; simpl in *; congruence.
    - exfalso. apply (proj1 (Hq (ef, Raise e) (or_introl eq_refl))), faulty_raise.
  Qed.

  Lemma over_unfold_quiet : forall os err pot los,
    (forall o, In o os -> quiet o) ->
    over err pot los os =
      if pot || existsb (fun o => match o with (Some ef, Ok Indeterminate) => effect_eqb ef win_eff
                                            | _ => false end) os then Ok Indeterminate
      else if los || existsb (fun o => match o with (_, Ok d) => dec_eqb d lose | _ => false end) os
           then Ok lose
      else if err || existsb (fun o => match o with (_, Ok Indeterminate) => true | _ => false end) os
           then Ok Indeterminate else Ok NotApplicable.
  Proof.
    induction os as [|[ef [d|e]] os IH]; intros err pot los Hq; cbn [over existsb].
    - rewrite !orb_false_r. reflexivity.
    - assert (Hq' : forall o, In o os -> quiet o) by (intros; apply Hq; right; assumption).
      destruct (Hq (ef, Ok d) (or_introl eq_refl)) as [Hnf Hnw]. simpl in Hnw.
      destruct (dec_eqb d win) eqn:Hd; [apply dec_eqb_eq in Hd; congruence|].
      destruct (dec_eqb d lose) eqn:Hdl.
      { apply dec_eqb_eq in Hdl; subst d. rewrite IH by exact Hq'.
        clear IH. destruct win, lose; try congruence; destruct ef as [ef|]; simpl;
          rewrite ?orb_true_r, ?orb_true_l, ?orb_false_r; reflexivity. }
      destruct (dec_eqb d NotApplicable) eqn:Hdn.
      { apply dec_eqb_eq in Hdn; subst d. rewrite IH by exact Hq'.
        destruct ef as [ef|]; simpl; reflexivity. }
      assert (Hdi : d = Indeterminate) by (destruct win, lose, d; simpl in *; congruence).
      subst d. destruct ef as [ef|].
      + rewrite IH by exact Hq'. clear IH.
        rewrite <- !orb_assoc, orb_true_l. simpl. rewrite orb_true_r. reflexivity.
      + exfalso. apply Hnf. left; reflexivity.
    - exfalso. apply (proj1 (Hq (ef, Raise e) (or_introl eq_refl))), faulty_raise.
  Qed.

  Lemma existsb_false_iff : forall A (f : A -> bool) l,
    existsb f l = false <-> forall x, In x l -> f x = false.
  Proof.
    intros A f l. split.
    - intros H x Hx. destruct (f x) eqn:Hf; [|reflexivity].
      assert (existsb f l = true) by (apply existsb_exists; eauto). congruence.
    - intros H. destruct (existsb f l) eqn:He; [|reflexivity].
      apply existsb_exists in He. destruct He as (x & Hx & Hf). rewrite H in Hf; auto.
  Qed.

  Lemma spec_over : forall os r,
    rules_override_spec win win_eff lose os r -> r = over false false false os.
  Proof.
    intros os r H. destruct H as [pre eff post -> Hpre|pre o post -> Ho Hpre
      |Hq Hin|eff Hq Hnin Hin|eff Hq Hnin Hnl Hin|Hall].
    - symmetry; apply over_win; exact Hpre.
    - symmetry; apply over_fault; assumption.
    - rewrite over_unfold_quiet by exact Hq. simpl.
      match goal with |- context[existsb ?f os] => destruct (existsb f os) eqn:Hx end;
        [reflexivity|].
      rewrite existsb_false_iff in Hx. specialize (Hx _ Hin). simpl in Hx.
      destruct win_eff; discriminate.
    - rewrite over_unfold_quiet by exact Hq. simpl.
      match goal with |- context[existsb ?f os] => destruct (existsb f os) eqn:Hx end.
      { apply existsb_exists in Hx. destruct Hx as ([[ef|] [[]|]] & Hi & Hx); try discriminate.
        apply effect_eqb_eq in Hx; subst. contradiction. }
      match goal with |- context[existsb ?f os] => destruct (existsb f os) eqn:Hy end;
        [reflexivity|].
      rewrite existsb_false_iff in Hy. specialize (Hy _ Hin). simpl in Hy.
      assert (dec_eqb lose lose = true) by (apply dec_eqb_eq; reflexivity). congruence.
    - rewrite over_unfold_quiet by exact Hq. simpl.
      match goal with |- context[existsb ?f os] => destruct (existsb f os) eqn:Hx end.
      { reflexivity. }
      match goal with |- context[existsb ?f os] => destruct (existsb f os) eqn:Hy end.
      { apply existsb_exists in Hy. destruct Hy as ([ef [d|]] & Hi & Hy); try discriminate.
        apply dec_eqb_eq in Hy; subst. exfalso. apply (Hnl _ Hi). reflexivity. }
      match goal with |- context[existsb ?f os] => destruct (existsb f os) eqn:Hz end;
        [reflexivity|].
      rewrite existsb_false_iff in Hz. specialize (Hz _ Hin). discriminate.
    - rewrite over_unfold_quiet.
      2:{ intros [ef o] Hi. specialize (Hall _ Hi). simpl in Hall; subst.
          split; [apply not_faulty_ok; discriminate|simpl; congruence]. }
      simpl.
      match goal with |- context[existsb ?f os] => destruct (existsb f os) eqn:Hx end.
      { apply existsb_exists in Hx. destruct Hx as ([[ef|] [[]|]] & Hi & Hx); try discriminate.
        specialize (Hall _ Hi). discriminate. }
      match goal with |- context[existsb ?f os] => destruct (existsb f os) eqn:Hy end.
      { apply existsb_exists in Hy. destruct Hy as ([ef [d|]] & Hi & Hy); try discriminate.
        apply dec_eqb_eq in Hy; subst. specialize (Hall _ Hi). simpl in Hall. congruence. }
      match goal with |- context[existsb ?f os] => destruct (existsb f os) eqn:Hz end;
        [|reflexivity].
      apply existsb_exists in Hz. destruct Hz as ([ef [[]|]] & Hi & Hz); try discriminate.
      specialize (Hall _ Hi). discriminate.
  Qed.

  Lemma override_functional : forall os r1 r2,
    rules_override_spec win win_eff lose os r1 ->
    rules_override_spec win win_eff lose os r2 -> r1 = r2.
  Proof.
    intros os r1 r2 H1 H2. rewrite (spec_over _ _ H1), (spec_over _ _ H2). reflexivity.
  Qed.
End Override.

(** The model loops compute [over]; the attribute error of a rule without effect
    is turned into Indeterminate by the caller. *)
Lemma rules_deny_overrides_over : forall ev rules err pot per,
  (forall r e, In r rules -> ev r = Raise e -> is_exception e = false) ->
  catch_exception (rules_deny_overrides ev err pot per rules) =
  over Deny Permit EffDeny err pot per (outcomes ev rules).
Proof.
  induction rules as [|r rules IH]; intros err pot per Hev.
  - simpl. destruct pot, per, err; reflexivity.
  - assert (IH' := fun a b c => IH a b c (fun r e Hr => Hev r e (or_intror Hr))).
    specialize (Hev r). simpl. destruct (ev r) as [d|e]; simpl.
    + destruct d; simpl; try apply IH'; try reflexivity.
      destruct (rl_effect r) as [[|]|]; simpl.
      * rewrite orb_false_r. apply IH'.
      * rewrite orb_true_r. apply IH'.
      * reflexivity.
    + rewrite (Hev e (or_introl eq_refl) eq_refl). reflexivity.
Qed.

Lemma rules_permit_overrides_over : forall ev rules err pot den,
  (forall r e, In r rules -> ev r = Raise e -> is_exception e = false) ->
  catch_exception (rules_permit_overrides ev err pot den rules) =
  over Permit Deny EffPermit err pot den (outcomes ev rules).
Proof.
  induction rules as [|r rules IH]; intros err pot per Hev.
  - simpl. destruct pot, per, err; reflexivity.
  - assert (IH' := fun a b c => IH a b c (fun r e Hr => Hev r e (or_intror Hr))).
    specialize (Hev r). simpl. destruct (ev r) as [d|e]; simpl.
    + destruct d; simpl; try apply IH'; try reflexivity.
      destruct (rl_effect r) as [[|]|]; simpl.
      * rewrite orb_true_r. apply IH'.
      * rewrite orb_false_r. apply IH'.
      * reflexivity.
    + rewrite (Hev e (or_introl eq_refl) eq_refl). reflexivity.
Qed.

Lemma with_target_accepts : forall E c t k,
  target_accepts E c t -> with_target E c t k = k.
Proof.
  intros E c [t|] k H; unfold with_target; simpl; [|reflexivity].
  rewrite (H t eq_refl). reflexivity.
Qed.

Lemma rules_deny_overrides_spec : forall E c m t rules,
  target_accepts E c t ->
  deny_overrides_rules_spec
    (map (fun r => (rl_effect r, rule_eval E c r)) rules)
    (policy_eval E c (PPolicy m t (Some DenyOverrides) rules)).
Proof.
  intros E c m t rules Ht. simpl. rewrite with_target_accepts by exact Ht.
  rewrite rules_deny_overrides_over.
  - apply over_spec0; discriminate.
  - intros r e _ H. eapply rule_eval_raise; eauto.
Qed.

Lemma rules_permit_overrides_spec : forall E c m t rules,
  target_accepts E c t ->
  permit_overrides_rules_spec
    (map (fun r => (rl_effect r, rule_eval E c r)) rules)
    (policy_eval E c (PPolicy m t (Some PermitOverrides) rules)).
Proof.
  intros E c m t rules Ht. simpl. rewrite with_target_accepts by exact Ht.
  rewrite rules_permit_overrides_over.
  - apply over_spec0; discriminate.
  - intros r e _ H. eapply rule_eval_raise; eauto.
Qed.

Lemma deny_overrides_rules_functional : forall os r1 r2,
  deny_overrides_rules_spec os r1 -> deny_overrides_rules_spec os r2 -> r1 = r2.
Proof. intros os r1 r2. apply override_functional; discriminate. Qed.

Lemma permit_overrides_rules_functional : forall os r1 r2,
  permit_overrides_rules_spec os r1 -> permit_overrides_rules_spec os r2 -> r1 = r2.
Proof. intros os r1 r2. apply override_functional; discriminate. Qed.

(** ** First applicable *)

Lemma catch_first_applicable_rules : forall ev rules,
  (forall r e, In r rules -> ev r = Raise e -> is_exception e = false) ->
  catch_exception (rules_first_applicable ev rules) = rules_first_applicable ev rules.
Proof.
  induction rules as [|r rules IH]; intros Hev; [reflexivity|].
  simpl. destruct (ev r) as [d|e] eqn:Hr; simpl.
  - destruct d; try reflexivity. apply IH. intros r' e' Hin; apply Hev; right; exact Hin.
  - rewrite (Hev r e (or_introl eq_refl) Hr). reflexivity.
Qed.

Lemma first_applicable_rules_gen : forall ev rules seen,
  (forall o, In o seen -> o = Ok NotApplicable) ->
  first_applicable_spec (seen ++ map ev rules) (rules_first_applicable ev rules).
Proof.
  induction rules as [|r rules IH]; intros seen Hs.
  - simpl. rewrite app_nil_r. apply FAnone; exact Hs.
  - simpl. destruct (ev r) as [d|e] eqn:Hr; simpl.
    + destruct d; try (eapply FAfirst; [reflexivity|exact Hs|discriminate]).
      change (Ok NotApplicable :: map ev rules) with ([Ok NotApplicable] ++ map ev rules).
      rewrite app_assoc. apply IH. intros o Ho. apply in_app_iff in Ho.
      destruct Ho as [Ho|[<-|[]]]; auto.
    + eapply FAfirst; [reflexivity|exact Hs|discriminate].
Qed.

Lemma rules_first_applicable_spec : forall E c m t rules,
  target_accepts E c t ->
  first_applicable_spec (map (rule_eval E c) rules)
    (policy_eval E c (PPolicy m t (Some FirstApplicable) rules)).
Proof.
  intros E c m t rules Ht. simpl. rewrite with_target_accepts by exact Ht.
  rewrite catch_first_applicable_rules.
  - apply (first_applicable_rules_gen _ _ []). intros o [].
  - intros r e _ H. eapply rule_eval_raise; eauto.
Qed.

Lemma first_applicable_functional : forall os r1 r2,
  first_applicable_spec os r1 -> first_applicable_spec os r2 -> r1 = r2.
Proof.
  intros os r1 r2 H1 H2.
  destruct H1 as [pre1 o1 post1 -> Hp1 Ho1|H1]; destruct H2 as [pre2 o2 post2 Heq Hp2 Ho2|H2].
  - revert pre2 Heq Hp2. induction pre1 as [|x xs IH]; intros pre2 Heq Hp2.
    + destruct pre2 as [|y ys]; simpl in Heq; injection Heq as -> ->; [reflexivity|].
      exfalso. apply Ho1. apply Hp2. left; reflexivity.
    + destruct pre2 as [|y ys]; simpl in Heq; injection Heq as -> Heq.
      * exfalso. apply Ho2, Hp1. left; reflexivity.
      * apply (IH (fun o Ho => Hp1 o (or_intror Ho)) ys Heq).
        intros o Ho; apply Hp2; right; exact Ho.
  - exfalso. apply Ho1, H2. apply in_app_iff; right; left; reflexivity.
  - exfalso. subst os. apply Ho2, H1. apply in_app_iff; right; left; reflexivity.
  - reflexivity.
Qed.

(** ** Policy combining algorithms *)

Lemma policies_fa_same : forall ev ps,
  policies_first_applicable ev ps =
  match combine_policies FirstApplicable ev ps with r => r end.
Proof. reflexivity. Qed.

Lemma catch_first_applicable_policies : forall ev ps,
  (forall p e, In p ps -> ev p = Raise e -> is_exception e = false) ->
  catch_exception (policies_first_applicable ev ps) = policies_first_applicable ev ps.
Proof.
  induction ps as [|r rules IH]; intros Hev; [reflexivity|].
  simpl. destruct (ev r) as [d|e] eqn:Hr; simpl.
  - destruct d; try reflexivity. apply IH. intros r' e' Hin; apply Hev; right; exact Hin.
  - rewrite (Hev r e (or_introl eq_refl) Hr). reflexivity.
Qed.

Lemma first_applicable_policies_gen : forall ev rules seen,
  (forall o, In o seen -> o = Ok NotApplicable) ->
  first_applicable_spec (seen ++ map ev rules) (policies_first_applicable ev rules).
Proof.
  induction rules as [|r rules IH]; intros seen Hs.
  - simpl. rewrite app_nil_r. apply FAnone; exact Hs.
  - simpl. destruct (ev r) as [d|e] eqn:Hr; simpl.
    + destruct d; try (eapply FAfirst; [reflexivity|exact Hs|discriminate]).
      change (Ok NotApplicable :: map ev rules) with ([Ok NotApplicable] ++ map ev rules).
      rewrite app_assoc. apply IH. intros o Ho. apply in_app_iff in Ho.
      destruct Ho as [Ho|[<-|[]]]; auto.
    + eapply FAfirst; [reflexivity|exact Hs|discriminate].
Qed.

Lemma policies_first_applicable_spec : forall E c m t ps,
  target_accepts E c t ->
  first_applicable_spec (map (policy_eval E c) ps)
    (policy_eval E c (PPolicySet m t (Some FirstApplicable) ps)).
Proof.
  intros E c m t ps Ht. simpl. rewrite with_target_accepts by exact Ht.
  rewrite catch_first_applicable_policies.
  - apply (first_applicable_policies_gen _ _ []). intros o [].
  - intros r e _ H. eapply policy_eval_raise; eauto.
Qed.

Lemma catch_deny_overrides_policies : forall ev ps per,
  (forall p e, In p ps -> ev p = Raise e -> is_exception e = false) ->
  catch_exception (policies_deny_overrides ev per ps) = policies_deny_overrides ev per ps.
Proof.
  induction ps as [|r rules IH]; intros per Hev; [destruct per; reflexivity|].
  assert (IH' := fun p => IH p (fun r e Hr => Hev r e (or_intror Hr))).
  simpl. destruct (ev r) as [d|e] eqn:Hr; simpl.
  - destruct d; try reflexivity; apply IH'.
  - rewrite (Hev r e (or_introl eq_refl) Hr). reflexivity.
Qed.

Lemma deny_overrides_policies_gen : forall ev ps seen per,
  (forall o, In o seen -> o = Ok Permit \/ o = Ok NotApplicable) ->
  (per = true <-> In (Ok Permit) seen) ->
  deny_overrides_policies_spec (seen ++ map ev ps) (policies_deny_overrides ev per ps).
Proof.
  induction ps as [|p ps IH]; intros seen per Hs Hp.
  - simpl. rewrite app_nil_r. destruct per.
    + apply PDpermit; [exact Hs|apply Hp; reflexivity].
    + apply PDnone. intros o Ho. destruct (Hs o Ho) as [->|]; [|assumption].
      apply Hp in Ho; discriminate.
  - simpl. assert (Hok : forall o', In o' seen -> is_ok o' = true).
    { intros o' Ho'. destruct (Hs _ Ho') as [->| ->]; reflexivity. }
    destruct (ev p) as [d|e] eqn:Hr; simpl.
    + destruct d.
      * change (Ok Permit :: map ev ps) with ([Ok Permit] ++ map ev ps).
        rewrite app_assoc. apply IH.
        -- intros o Ho. apply in_app_iff in Ho. destruct Ho as [Ho|[<-|[]]]; auto.
        -- split; [|reflexivity]. intros _. apply in_app_iff; right; left; reflexivity.
      * eapply PDdeny; [reflexivity|left; reflexivity|exact Hok].
      * eapply PDdeny; [reflexivity|right; reflexivity|exact Hok].
      * change (Ok NotApplicable :: map ev ps) with ([Ok NotApplicable] ++ map ev ps).
        rewrite app_assoc. apply IH.
        -- intros o Ho. apply in_app_iff in Ho. destruct Ho as [Ho|[<-|[]]]; auto.
        -- rewrite Hp, in_app_iff. split; [tauto|]. intros [H|[H|[]]]; [exact H|discriminate].
    + eapply PDescape; [reflexivity|exact Hs].
Qed.

Lemma policies_deny_overrides_spec : forall E c m t ps,
  target_accepts E c t ->
  deny_overrides_policies_spec (map (policy_eval E c) ps)
    (policy_eval E c (PPolicySet m t (Some DenyOverrides) ps)).
Proof.
  intros E c m t ps Ht. simpl. rewrite with_target_accepts by exact Ht.
  rewrite catch_deny_overrides_policies.
  - apply (deny_overrides_policies_gen _ _ []); simpl; [intros o []|].
    split; [discriminate|contradiction].
  - intros r e _ H. eapply policy_eval_raise; eauto.
Qed.

Lemma catch_permit_overrides_policies : forall ev ps err den,
  (forall p e, In p ps -> ev p = Raise e -> is_exception e = false) ->
  catch_exception (policies_permit_overrides ev err den ps) =
  policies_permit_overrides ev err den ps.
Proof.
  induction ps as [|r rules IH]; intros err den Hev; [destruct err, den; reflexivity|].
  assert (IH' := fun a b => IH a b (fun r e Hr => Hev r e (or_intror Hr))).
  simpl. destruct (ev r) as [d|e] eqn:Hr; simpl.
  - destruct d; try reflexivity; apply IH'.
  - rewrite (Hev r e (or_introl eq_refl) Hr). reflexivity.
Qed.

Lemma permit_overrides_policies_gen : forall ev ps seen err den,
  (forall o, In o seen -> is_ok o = true /\ o <> Ok Permit) ->
  (den = true <-> In (Ok Deny) seen) ->
  (err = true <-> In (Ok Indeterminate) seen) ->
  permit_overrides_policies_spec (seen ++ map ev ps)
    (policies_permit_overrides ev err den ps).
Proof.
  induction ps as [|p ps IH]; intros seen err den Hs Hd He.
  - simpl. rewrite app_nil_r.
    destruct den; [apply PPdeny; [exact Hs|apply Hd; reflexivity]|].
    assert (Hnd : ~ In (Ok Deny) seen) by (intros H; apply Hd in H; discriminate).
    assert (Hrest : forall o, In o seen -> o = Ok Indeterminate \/ o = Ok NotApplicable).
    { intros o Ho. destruct (Hs o Ho) as [H1 H2]. destruct o as [[]|]; auto;
        try discriminate; contradiction. }
    destruct err.
    + apply PPerror; [exact Hrest|apply He; reflexivity].
    + apply PPnone. intros o Ho. destruct (Hrest o Ho) as [->|]; [|assumption].
      apply He in Ho; discriminate.
  - simpl. destruct (ev p) as [d|e] eqn:Hr; simpl.
    + assert (Hstep : forall den' err' d', d' <> Permit ->
        (den' = true <-> In (Ok Deny) (seen ++ [Ok d'])) ->
        (err' = true <-> In (Ok Indeterminate) (seen ++ [Ok d'])) ->
        permit_overrides_policies_spec (seen ++ Ok d' :: map ev ps)
          (policies_permit_overrides ev err' den' ps)).
      { intros den' err' d' Hd' H1 H2.
        change (Ok d' :: map ev ps) with ([Ok d'] ++ map ev ps). rewrite app_assoc.
        apply IH; auto. intros o Ho. apply in_app_iff in Ho.
        destruct Ho as [Ho|[<-|[]]]; [auto|]. split; [reflexivity|congruence]. }
      destruct d.
      * eapply PPpermit; [reflexivity|]. intros o' Ho'; apply (Hs _ Ho').
      * apply Hstep; [discriminate| |].
        -- split; [|reflexivity]. intros _; apply in_app_iff; right; left; reflexivity.
        -- rewrite He, in_app_iff. split; [tauto|]. intros [H|[H|[]]]; [exact H|discriminate].
      * apply Hstep; [discriminate| |].
        -- rewrite Hd, in_app_iff. split; [tauto|]. intros [H|[H|[]]]; [exact H|discriminate].
        -- split; [|reflexivity]. intros _; apply in_app_iff; right; left; reflexivity.
      * apply Hstep; [discriminate| |].
        -- rewrite Hd, in_app_iff. split; [tauto|]. intros [H|[H|[]]]; [exact H|discriminate].
        -- rewrite He, in_app_iff. split; [tauto|]. intros [H|[H|[]]]; [exact H|discriminate].
    + eapply PPescape; [reflexivity|exact Hs].
Qed.

Lemma policies_permit_overrides_spec : forall E c m t ps,
  target_accepts E c t ->
  permit_overrides_policies_spec (map (policy_eval E c) ps)
    (policy_eval E c (PPolicySet m t (Some PermitOverrides) ps)).
Proof.
  intros E c m t ps Ht. simpl. rewrite with_target_accepts by exact Ht.
  rewrite catch_permit_overrides_policies.
  - apply (permit_overrides_policies_gen _ _ []); simpl; [intros o []| |];
      (split; [discriminate|contradiction]).
  - intros r e _ H. eapply policy_eval_raise; eauto.
Qed.
