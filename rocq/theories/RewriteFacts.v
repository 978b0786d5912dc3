(** Lemmas about other ways of writing a policy. *)
From Coq Require Import Lia.
From Verif Require Import Eval SpecEval SpecStandard SpecMonotone SpecTighten SpecRewrite EvalFacts EvalFacts2 EvalFacts3 FunFacts
  AlgebraFacts StandardFacts MonotoneFacts TightenFacts.

(** *** Lists of rules *)
Section Rules.
  Variable ev : rule -> res decision.
  Definition alike (r r' : rule) : Prop := rl_effect r = rl_effect r' /\ ev r = ev r'.
  Lemma rules_alike : forall alg l l', Forall2 alike l l' ->
    combine_rules alg ev l = combine_rules alg ev l'.
  Proof.
    intros alg l l' H. destruct alg; cbn [combine_rules].
    - enough (G : forall a b p, rules_deny_overrides ev a b p l = rules_deny_overrides ev a b p l') by apply G.
      induction H as [|r r' l l' (He & Hv) _ IH]; intros a b p; [reflexivity|].
      cbn [rules_deny_overrides]. fold (rules_deny_overrides ev). rewrite Hv, He.
      destruct (ev r') as [[]|]; cbn [bind]; try reflexivity; try apply IH.
      destruct (rl_effect r') as [[]|]; try reflexivity; apply IH.
    - enough (G : forall a b p, rules_permit_overrides ev a b p l = rules_permit_overrides ev a b p l') by apply G.
      induction H as [|r r' l l' (He & Hv) _ IH]; intros a b p; [reflexivity|].
      cbn [rules_permit_overrides]. fold (rules_permit_overrides ev). rewrite Hv, He.
      destruct (ev r') as [[]|]; cbn [bind]; try reflexivity; try apply IH.
      destruct (rl_effect r') as [[]|]; try reflexivity; apply IH.
    - induction H as [|r r' l l' (He & Hv) _ IH]; [reflexivity|].
      cbn [rules_first_applicable]. fold (rules_first_applicable ev). rewrite Hv.
      destruct (ev r') as [[]|]; cbn [bind]; try reflexivity; apply IH.
  Qed.
  Lemma alike_refl : forall l, Forall2 alike l l.
  Proof. induction l; constructor; [split; reflexivity|assumption]. Qed.
  Lemma rules_replace : forall alg l1 r r' l2, alike r r' ->
    combine_rules alg ev (l1 ++ r :: l2) = combine_rules alg ev (l1 ++ r' :: l2).
  Proof.
    intros. apply rules_alike. apply Forall2_app; [apply alike_refl|]. constructor; [assumption|apply alike_refl].
  Qed.
  Definition part_of_rule (R r : rule) : Prop :=
    rl_effect r = rl_effect R /\ (ev r = Ok NotApplicable \/ ev r = ev R).
  Lemma rules_absorb : forall alg l1 R l l2, Forall (part_of_rule R) l ->
    combine_rules alg ev (l1 ++ R :: l ++ l2) = combine_rules alg ev (l1 ++ R :: l2).
  Proof.
    intros alg l1 R l l2. induction 1 as [|r l (He & [Hn|Hv]) _ IH]; [reflexivity| |].
    - cbn [app]. rewrite <- IH. replace (l1 ++ R :: r :: l ++ l2) with ((l1 ++ [R]) ++ r :: l ++ l2)
        by (rewrite <- app_assoc; reflexivity).
      rewrite rules_skip by exact Hn. rewrite <- app_assoc. reflexivity.
    - cbn [app]. rewrite <- IH. replace (l1 ++ R :: r :: l ++ l2) with ((l1 ++ [R]) ++ r :: l ++ l2)
        by (rewrite <- app_assoc; reflexivity).
      rewrite (rules_replace alg _ r R) by (split; assumption). rewrite <- app_assoc. cbn [app].
      exact (rules_dup ev alg l1 R [] (l ++ l2)).
  Qed.
  Lemma rules_merge : forall alg l1 R l l2, Forall (part_of_rule R) l ->
    (ev R = Ok NotApplicable \/ exists r, In r l /\ ev r = ev R) ->
    combine_rules alg ev (l1 ++ l ++ l2) = combine_rules alg ev (l1 ++ R :: l2).
  Proof.
    intros alg l1 R l l2 F [N|X].
    - rewrite (rules_skip ev alg l1 R l2 N). induction F as [|r l (He & Hv) _ IH]; [reflexivity|].
      cbn [app]. rewrite rules_skip; [exact IH|]. destruct Hv; congruence.
    - induction F as [|r l (He & Hv) F IH]; [destruct X as (? & [] & _)|]. cbn [app].
      destruct Hv as [Hn|Hv].
      + destruct (ev R) as [[]|] eqn:ER.
        4: { rewrite rules_skip by exact Hn.
             rewrite (rules_skip ev alg l1 R l2 ER).
             clear IH X. induction F as [|r0 l (He0 & Hv0) _ IH]; [reflexivity|].
             cbn [app]. rewrite rules_skip; [exact IH|]. rewrite ER in Hv0. destruct Hv0; congruence. }
        all: rewrite rules_skip by exact Hn; apply IH; destruct X as (z & [<-|Hz] & Ez); [congruence|eauto].
      + rewrite (rules_replace alg l1 r R) by (split; assumption). apply rules_absorb, F.
  Qed.
  Lemma rules_silent : forall alg l, Forall (fun r => ev r = Ok NotApplicable) l ->
    combine_rules alg ev l = Ok NotApplicable.
  Proof.
    intros alg l F. induction F as [|r l H _ IH]; [destruct alg; reflexivity|].
    rewrite <- IH. exact (rules_skip ev alg [] r l H).
  Qed.
  Lemma rules_doubtful : forall alg l, l <> [] ->
    Forall (fun r => ev r = Ok Indeterminate /\ rl_effect r <> None) l ->
    combine_rules alg ev l = Ok Indeterminate.
  Proof.
    assert (D : forall l a b, Forall (fun r => ev r = Ok Indeterminate /\ rl_effect r <> None) l ->
      (a = true \/ l <> []) -> rules_deny_overrides ev a b false l = Ok Indeterminate).
    { induction l as [|r l IH]; intros a b F H; cbn [rules_deny_overrides].
      - destruct b; [reflexivity|]. destruct H as [->|H]; [reflexivity|congruence].
      - fold (rules_deny_overrides ev). inversion F as [|? ? (Hi & He) F']; subst. rewrite Hi. cbn [bind].
        destruct (rl_effect r) as [[]|]; [| |congruence]; apply IH; auto. }
    assert (P : forall l a b, Forall (fun r => ev r = Ok Indeterminate /\ rl_effect r <> None) l ->
      (a = true \/ l <> []) -> rules_permit_overrides ev a b false l = Ok Indeterminate).
    { induction l as [|r l IH]; intros a b F H; cbn [rules_permit_overrides].
      - destruct b; [reflexivity|]. destruct H as [->|H]; [reflexivity|congruence].
      - fold (rules_permit_overrides ev). inversion F as [|? ? (Hi & He) F']; subst. rewrite Hi. cbn [bind].
        destruct (rl_effect r) as [[]|]; [| |congruence]; apply IH; auto. }
    intros [] l N F; cbn [combine_rules]; auto.
    destruct l as [|r l]; [congruence|]. cbn [rules_first_applicable].
    inversion F as [|? ? (Hi & He) F']; subst. rewrite Hi. reflexivity.
  Qed.
  Lemma rules_escape : forall alg r l e, ev r = Raise e -> combine_rules alg ev (r :: l) = Raise e.
  Proof. intros [] r l e H; cbn; rewrite H; reflexivity. Qed.
End Rules.

Section Writing.
  Variables (E : env) (c : context).

  (** *** Targets *)
  Definition known (m : matchel) : Prop := exists b, eval_match E c m = Ok b.
  Definition sat (s : list (list matchel)) : Prop :=
    s = [] \/ exists ch, In ch s /\ forall m, In m ch -> eval_match E c m = Ok true.
  Lemma child_known : forall ch, (forall m, In m ch -> known m) -> exists b, match_child E c ch = Ok b.
  Proof.
    intros ch H. unfold match_child. destruct (mapM_total (eval_match E c) ch) as (bs & ->); [exact H|].
    cbn [bind]. eauto.
  Qed.
  Lemma section_known : forall s, (forall m, In m (concat s) -> known m) ->
    exists b, match_section E c s = Ok b /\ (b = true <-> sat s).
  Proof.
    intros s H.
    assert (L : forall l st, (forall m, In m (concat l) -> known m) -> exists b, section_loop E c st l = Ok b).
    { induction l as [|ch l IH]; intros st F; cbn [section_loop]; [eauto|].
      destruct (child_known ch) as (b & Hb); [intros m Hm; apply F; cbn; apply in_or_app; auto|].
      rewrite Hb. cbn [bind]. apply IH. intros m Hm. apply F. cbn. apply in_or_app. auto. }
    assert (X : exists b, match_section E c s = Ok b).
    { destruct s as [|ch s]; [cbn; eauto|]. apply L. exact H. }
    destruct X as (b & Hb). exists b. split; [exact Hb|].
    destruct (match_section_inv _ _ _ _ Hb) as (B & _). rewrite B. unfold sat.
    split; (intros [|(ch & Hi & Hc)]; [auto|right; exists ch; split; [exact Hi|]]).
    - apply (proj2 (match_child_inv _ _ _ _ Hc)). reflexivity.
    - destruct (child_known ch) as (b' & Hb'); [intros m Hm; exists true; auto|].
      rewrite Hb'. f_equal. apply (proj2 (match_child_inv _ _ _ _ Hb')). exact Hc.
  Qed.
  Lemma section_matches : forall s b, match_section E c s = Ok b -> forall m, In m (concat s) -> known m.
  Proof.
    intros s b H m Hm. apply in_concat in Hm. destruct Hm as (ch & Hi & Hm).
    destruct (match_section_inv _ _ _ _ H) as (_ & F). destruct (F ch Hi) as (b' & Hb').
    apply (proj1 (match_child_inv _ _ _ _ Hb')). exact Hm.
  Qed.
  Definition known_target (t : target) : Prop := forall k m, In m (concat (part_of k t)) -> known m.
  Lemma target_known : forall t, known_target t ->
    exists b, target_match E c t = Ok b /\ (b = true <-> forall k, sat (part_of k t)).
  Proof.
    intros t H.
    destruct (section_known (tg_subjects t) (H Subjects)) as (b1 & H1 & B1).
    destruct (section_known (tg_resources t) (H Resources)) as (b2 & H2 & B2).
    destruct (section_known (tg_actions t) (H Actions)) as (b3 & H3 & B3).
    destruct (section_known (tg_environments t) (H Environments)) as (b4 & H4 & B4).
    exists (b1 && (b2 && (b3 && (b4 && true)))). split.
    - unfold target_match. cbn [mapM]. rewrite H1, H2, H3, H4. reflexivity.
    - rewrite !andb_true_iff, B1, B2, B3, B4. split.
      + intros (K1 & K2 & K3 & K4 & _) []; assumption.
      + intro K. repeat split; [exact (K Subjects)|exact (K Resources)|exact (K Actions)|exact (K Environments)].
  Qed.
  Lemma target_matches_known : forall t b, target_match E c t = Ok b -> known_target t.
  Proof.
    intros t b H k. destruct (target_match_inv _ _ _ _ H) as (b1 & b2 & b3 & b4 & H1 & H2 & H3 & H4 & _).
    destruct k; eapply section_matches; eauto.
  Qed.
  Lemma sat_split : forall s1 s2, s1 <> [] -> s2 <> [] -> (sat (s1 ++ s2) <-> sat s1 \/ sat s2).
  Proof.
    intros s1 s2 N1 N2. split.
    - intros [H|(ch & Hi & Hc)]; [destruct s1; [congruence|discriminate]|].
      apply in_app_or in Hi. destruct Hi; [left|right]; right; eauto.
    - intros [[H|(ch & Hi & Hc)]|[H|(ch & Hi & Hc)]]; try congruence; right; exists ch; split; auto; apply in_or_app; auto.
  Qed.
  Lemma sat_both : forall s1 s2, sat (both_sections s1 s2) <-> sat s1 /\ sat s2.
  Proof.
    intros s1 s2.
    assert (X : s1 <> [] -> s2 <> [] -> both_sections s1 s2 = flat_map (fun a => map (fun b => a ++ b) s2) s1).
    { destruct s1, s2; try congruence; reflexivity. }
    destruct s1 as [|a1 s1]; [cbn; unfold sat at 2; tauto|].
    destruct s2 as [|a2 s2]; [unfold both_sections, sat at 3; tauto|].
    rewrite X by discriminate. clear X. unfold sat. split.
    - intros [H|(ch & Hi & Hc)]; [discriminate|]. apply in_flat_map in Hi. destruct Hi as (x & Hx & Hi).
      apply in_map_iff in Hi. destruct Hi as (y & <- & Hy).
      split; right; [exists x|exists y]; split; auto; intros m Hm; apply Hc, in_or_app; auto.
    - intros ([H|(x & Hx & Cx)] & [H'|(y & Hy & Cy)]); try discriminate. right. exists (x ++ y). split.
      + apply in_flat_map. exists x. split; [exact Hx|]. apply in_map. exact Hy.
      + intros m Hm. apply in_app_or in Hm. destruct Hm; auto.
  Qed.
  Lemma both_in : forall s1 s2 m, In m (concat (both_sections s1 s2)) -> In m (concat s1) \/ In m (concat s2).
  Proof.
    intros s1 s2 m. destruct s1 as [|a1 s1]; [auto|]. destruct s2 as [|a2 s2]; [auto|].
    change (both_sections (a1 :: s1) (a2 :: s2)) with (flat_map (fun a => map (fun b => a ++ b) (a2 :: s2)) (a1 :: s1)).
    intro H. apply in_concat in H. destruct H as (ch & Hi & Hm). apply in_flat_map in Hi.
    destruct Hi as (x & Hx & Hi). apply in_map_iff in Hi. destruct Hi as (y & <- & Hy).
    apply in_app_or in Hm. destruct Hm; [left|right]; apply in_concat; eauto.
  Qed.
  Lemma both_part : forall k t1 t2, part_of k (both_targets t1 t2) = both_sections (part_of k t1) (part_of k t2).
  Proof. intros [] t1 t2; reflexivity. Qed.
  Lemma target_both : forall t1 t2 b1 b2, target_match E c t1 = Ok b1 -> target_match E c t2 = Ok b2 ->
    target_match E c (both_targets t1 t2) = Ok (b1 && b2).
  Proof.
    intros t1 t2 b1 b2 H1 H2.
    pose proof (target_matches_known _ _ H1) as K1. pose proof (target_matches_known _ _ H2) as K2.
    destruct (target_known t1 K1) as (b1' & H1' & B1). destruct (target_known t2 K2) as (b2' & H2' & B2).
    assert (b1' = b1) as -> by congruence. assert (b2' = b2) as -> by congruence.
    destruct (target_known (both_targets t1 t2)) as (b & Hb & B).
    { intros k m Hm. rewrite both_part in Hm. destruct (both_in _ _ _ Hm); eauto. }
    rewrite Hb. f_equal. apply eq_true_iff_eq. rewrite andb_true_iff, B, B1, B2. split.
    - intro K. split; intro k; specialize (K k); rewrite both_part in K; apply sat_both in K; tauto.
    - intros (X & Y) k. rewrite both_part. apply sat_both. auto.
  Qed.
  Lemma part_same : forall k s t, part_of k (with_part k s t) = s.
  Proof. intros [] s t; reflexivity. Qed.
  Lemma part_other : forall k k' s t, k <> k' -> part_of k' (with_part k s t) = part_of k' t.
  Proof. intros [] [] s t H; try congruence; reflexivity. Qed.
  Definition part_eq : forall k k' : part, {k = k'} + {k <> k'}.
  Proof. decide equality. Defined.
  Lemma target_split : forall k t s1 s2 b, part_of k t = s1 ++ s2 -> s1 <> [] -> s2 <> [] ->
    target_match E c t = Ok b -> exists b1 b2,
    target_match E c (with_part k s1 t) = Ok b1 /\ target_match E c (with_part k s2 t) = Ok b2 /\ b = b1 || b2.
  Proof.
    intros k t s1 s2 b Hk N1 N2 H. pose proof (target_matches_known _ _ H) as K.
    assert (K' : forall s, incl (concat s) (concat (s1 ++ s2)) -> known_target (with_part k s t)).
    { intros s I k' m Hm. destruct (part_eq k k') as [<-|N].
      - rewrite part_same in Hm. apply (K k). rewrite Hk. auto.
      - rewrite part_other in Hm by exact N. exact (K k' m Hm). }
    destruct (target_known (with_part k s1 t)) as (b1 & H1 & B1).
    { apply K'. rewrite concat_app. apply incl_appl, incl_refl. }
    destruct (target_known (with_part k s2 t)) as (b2 & H2 & B2).
    { apply K'. rewrite concat_app. apply incl_appr, incl_refl. }
    destruct (target_known t K) as (b' & H' & B). assert (b' = b) as -> by congruence.
    exists b1, b2. split; [exact H1|]. split; [exact H2|].
    apply eq_true_iff_eq. rewrite orb_true_iff, B, B1, B2. split.
    - intro X. pose proof (X k) as Y. rewrite Hk in Y. apply sat_split in Y; [|assumption|assumption].
      destruct Y as [Y|Y]; [left|right]; intro k'; destruct (part_eq k k') as [<-|N];
        rewrite ?part_same, ?part_other by exact N; auto.
    - intros [X|X] k'; pose proof (X k') as Y; (destruct (part_eq k k') as [<-|N];
        [rewrite part_same in Y; rewrite Hk; apply sat_split; auto|rewrite part_other in Y by exact N; exact Y]).
  Qed.

  (** *** Conditions *)
  Lemma x_not_eval : forall x b, eval_expr E c x = Ok (PNat (NBool b)) ->
    eval_expr E c (x_not x) = Ok (PNat (NBool (negb b))).
  Proof. intros x b H. cbn [x_not eval_expr mapM]. rewrite H. reflexivity. Qed.
  Lemma x_and_eval : forall xs bs, Forall2 (fun x b => eval_expr E c x = Ok (PNat (NBool b))) xs bs ->
    eval_expr E c (x_and xs) = Ok (PNat (NBool (forallb (fun b => b) bs))).
  Proof.
    intros xs bs H. unfold x_and. cbn [eval_expr].
    assert (M : mapM (eval_expr E c) xs = Ok (map (fun b => PNat (NBool b)) bs)).
    { induction H as [|x b xs bs Hx _ IH]; [reflexivity|]. cbn [mapM map]. rewrite Hx, IH. reflexivity. }
    rewrite M. cbn [bind]. apply and_ok.
  Qed.
  Lemma x_or_eval : forall xs bs, Forall2 (fun x b => eval_expr E c x = Ok (PNat (NBool b))) xs bs ->
    eval_expr E c (x_or xs) = Ok (PNat (NBool (existsb (fun b => b) bs))).
  Proof.
    intros xs bs H. unfold x_or.
    assert (M : Forall2 (fun x b => eval_expr E c x = Ok (PNat (NBool b))) (map x_not xs) (map negb bs)).
    { induction H as [|x b xs bs Hx _ IH]; cbn [map]; constructor; [apply x_not_eval, Hx|exact IH]. }
    rewrite (x_not_eval _ _ (x_and_eval _ _ M)). do 3 f_equal.
    clear. induction bs as [|[] bs IH]; cbn in *; auto.
  Qed.
  Lemma nested_and : forall xs ys zs,
    (forall x, In x (xs ++ ys ++ zs) -> exists b, eval_expr E c x = Ok (PNat (NBool b))) ->
    eval_expr E c (x_and (xs ++ x_and ys :: zs)) = eval_expr E c (x_and (xs ++ ys ++ zs)).
  Proof.
    assert (B : forall xs, (forall x, In x xs -> exists b, eval_expr E c x = Ok (PNat (NBool b))) ->
      exists bs, Forall2 (fun x b => eval_expr E c x = Ok (PNat (NBool b))) xs bs).
    { induction xs as [|x xs IH]; intro H; [exists []; constructor|].
      destruct (H x) as (b & Hb); [cbn; auto|]. destruct IH as (bs & Hbs); [intros; apply H; cbn; auto|].
      exists (b :: bs). constructor; assumption. }
    intros xs ys zs H.
    destruct (B xs) as (b1 & B1); [intros; apply H; rewrite !in_app_iff; auto|].
    destruct (B ys) as (b2 & B2); [intros; apply H; rewrite !in_app_iff; auto|].
    destruct (B zs) as (b3 & B3); [intros; apply H; rewrite !in_app_iff; auto|].
    rewrite (x_and_eval (xs ++ x_and ys :: zs) (b1 ++ forallb (fun b => b) b2 :: b3)).
    - rewrite (x_and_eval (xs ++ ys ++ zs) (b1 ++ b2 ++ b3)) by (repeat apply Forall2_app; assumption).
      rewrite !forallb_app. cbn [forallb]. rewrite <- forallb_app. cbn. rewrite ?forallb_app. reflexivity.
    - apply Forall2_app; [assumption|]. constructor; [exact (x_and_eval _ _ B2)|assumption].
  Qed.
  Lemma equal_alike : forall k v d, av_isinstance v k = true -> class_for E (dg_dataType d) = Some k ->
    match eval_expr E c (equal_expr k v d) with
    | Ok w => exists b, w = PNat (NBool b) /\ eval_match E c (equal_match k v d) = Ok b
    | Raise e => eval_match E c (equal_match k v d) = Raise e
    end.
  Proof.
    intros k v d Hv Hk. unfold equal_expr, equal_match, eval_match.
    cbn [mt_designator eval_expr mapM bind fn_eval]. unfold bag_eval. cbn [bag_loop].
    rewrite Hv. cbn [bag_loop app bind].
    destruct (eval_designator E d c) as [w|e] eqn:Hd; cbn [bind]; [|reflexivity].
    destruct (eval_designator_ok_bag _ _ _ _ Hd) as (l & -> & I & _). rewrite Hk in I |- *.
    destruct (at_least_one_ok (en_fenv E) k k k [v] l eq_refl eq_refl) as (b & Hb & B).
    cbn [fn_eval] in Hb. rewrite Hb. exists b. split; [reflexivity|]. cbn [bag_items].
    assert (M : mapM (match_fn_apply E (equal_match k v d)) l =
                Ok (map (fun x => py_bool (native_eqb (av_value v) (av_value x))) l)).
    { clear Hd Hb B. induction l as [|x l IH]; [reflexivity|]. cbn in I. apply andb_prop in I. destruct I as (Ix & I).
      cbn [mapM map]. rewrite IH by exact I. unfold match_fn_apply. cbn [equal_match mt_fn mt_value fn_eval].
      unfold equal_eval. rewrite Hv, Ix. reflexivity. }
    unfold equal_match in M. rewrite M. cbn [bind]. f_equal. apply eq_true_iff_eq. rewrite B, existsb_exists. split.
    - intros (w & Hw & T). apply in_map_iff in Hw. destruct Hw as (x & <- & Hx).
      exists v, x. split; [left; reflexivity|]. split; [exact Hx|]. cbn in T. exact T.
    - intros (v1 & v2 & [<-|[]] & H2 & T). exists (py_bool (native_eqb (av_value v) (av_value v2))). split.
      + apply in_map_iff. eauto.
      + cbn. exact T.
  Qed.

  (** *** Rules *)
  Lemma rule_split : forall r k t s1 s2, good_rule E c r -> rl_target r = Some t ->
    part_of k t = s1 ++ s2 -> s1 <> [] -> s2 <> [] ->
    let r1 := retarget (Some (with_part k s1 t)) r in
    let r2 := retarget (Some (with_part k s2 t)) r in
    Forall (part_of_rule (rule_eval E c) r) [r1; r2] /\
    (rule_eval E c r = Ok NotApplicable \/ exists r', In r' [r1; r2] /\ rule_eval E c r' = rule_eval E c r).
  Proof.
    intros r k t s1 s2 ((b & Hb) & (v & Hv) & He) Ht Hk N1 N2 r1 r2. rewrite Ht in Hb. cbn [target_of] in Hb.
    destruct (target_split k t s1 s2 b Hk N1 N2 Hb) as (b1 & b2 & H1 & H2 & ->).
    assert (R : forall t' b', target_match E c t' = Ok b' -> rule_eval E c (retarget (Some t') r) =
      if b' then catch_exception (if truthy v then match rl_effect r with Some e => Ok (decision_of_effect e) | None => Raise EAttributeError end else Ok NotApplicable)
      else Ok NotApplicable).
    { intros t' b' Hb'. unfold rule_eval. rewrite body_of. cbn [retarget rl_target rl_condition rl_effect target_of].
      rewrite Hb', Hv. destruct b'; reflexivity. }
    assert (R0 : rule_eval E c r = rule_eval E c (retarget (Some t) r)).
    { unfold rule_eval. rewrite !body_of. cbn [retarget rl_target rl_condition rl_effect]. rewrite Ht. reflexivity. }
    unfold part_of_rule. rewrite R0, (R _ _ Hb).
    split.
    - constructor; [|constructor; [|constructor]]; (split; [reflexivity|]); unfold r1, r2; [rewrite (R _ _ H1)|rewrite (R _ _ H2)];
        destruct b1, b2; cbn; auto.
    - destruct b1; [right; exists r1; split; [cbn; auto|unfold r1; rewrite (R _ _ H1); reflexivity]|].
      destruct b2; [right; exists r2; split; [cbn; auto|unfold r2; rewrite (R _ _ H2); reflexivity]|].
      left. reflexivity.
  Qed.
  Lemma rule_or : forall r xs, (exists b, target_of E c (rl_target r) = Ok b) ->
    (forall x, In x xs -> exists b, eval_expr E c x = Ok (PNat (NBool b))) ->
    let R := recondition (Some (Some (x_or xs))) r in
    let rs := map (fun x => recondition (Some (Some x)) r) xs in
    Forall (part_of_rule (rule_eval E c) R) rs /\
    (rule_eval E c R = Ok NotApplicable \/ exists r', In r' rs /\ rule_eval E c r' = rule_eval E c R).
  Proof.
    intros r xs (b & Hb) Hx R rs.
    assert (B : exists bs, Forall2 (fun x b => eval_expr E c x = Ok (PNat (NBool b))) xs bs).
    { clear -Hx. induction xs as [|x xs IH]; [exists []; constructor|].
      destruct (Hx x) as (b & Hb); [cbn; auto|]. destruct IH as (bs & H); [intros; apply Hx; cbn; auto|].
      exists (b :: bs). constructor; assumption. }
    destruct B as (bs & B). pose proof (x_or_eval _ _ B) as HR.
    assert (EV : forall x b', eval_expr E c x = Ok (PNat (NBool b')) ->
      rule_eval E c (recondition (Some (Some x)) r) =
      catch_exception (if negb b then Ok NotApplicable else
        if b' then match rl_effect r with Some e => Ok (decision_of_effect e) | None => Raise EAttributeError end else Ok NotApplicable)).
    { intros x b' H. unfold rule_eval. rewrite body_of. cbn [recondition rl_target rl_condition rl_effect].
      rewrite Hb. cbn [status_of eval_condition]. rewrite H. cbn [bind]. destruct b, b'; reflexivity. }
    assert (ER : rule_eval E c R = _) by exact (EV _ _ HR).
    unfold part_of_rule. rewrite ER. split.
    - apply Forall_forall. intros r' Hr'. apply in_map_iff in Hr'. destruct Hr' as (x & <- & Hi). split; [reflexivity|].
      destruct (Forall2_In_l _ _ _ _ _ _ B Hi) as (b' & Hb' & H). rewrite (EV _ _ H).
      destruct b; cbn [negb]; [|auto]. destruct b'; [|auto]. right.
      replace (existsb (fun b => b) bs) with true; [reflexivity|].
      symmetry. apply existsb_exists. eauto.
    - destruct b; cbn [negb]; [|left; reflexivity].
      destruct (existsb (fun b => b) bs) eqn:X; [|left; reflexivity]. right.
      apply existsb_exists in X. destruct X as (b' & Hb' & ->).
      destruct (Forall2_In_r _ _ _ _ _ _ B Hb') as (x & Hi & H).
      exists (recondition (Some (Some x)) r). split; [apply in_map_iff; eauto|]. rewrite (EV _ _ H). reflexivity.
  Qed.
  Lemma rule_equal : forall r k v d s, av_isinstance v k = true -> class_for E (dg_dataType d) = Some k ->
    rule_eval E c (recondition None (retarget (Some (with_part s [[equal_match k v d]] (mkTarget [] [] [] []))) r)) =
    rule_eval E c (recondition (Some (Some (equal_expr k v d))) (retarget None r)).
  Proof.
    intros r k v d s Hv Hk. unfold rule_eval. rewrite !body_of.
    cbn [recondition retarget rl_target rl_condition rl_effect target_of status_of eval_condition].
    assert (T : target_match E c (with_part s [[equal_match k v d]] (mkTarget [] [] [] [])) =
                eval_match E c (equal_match k v d)).
    { unfold target_match. destruct s;
      cbn [with_part tg_subjects tg_resources tg_actions tg_environments mapM match_section section_loop bind];
      unfold match_child; cbn [mapM bind];
      destruct (eval_match E c (equal_match k v d)) as [[]|]; reflexivity. }
    rewrite T. pose proof (equal_alike k v d Hv Hk) as A.
    destruct (eval_expr E c (equal_expr k v d)) as [w|e].
    - destruct A as (b & -> & ->). cbn [bind]. destruct b; reflexivity.
    - rewrite A. reflexivity.
  Qed.

  (** *** Policies *)
  Lemma policy_rules : forall m t a rs rs', combine_rules a (rule_eval E c) rs = combine_rules a (rule_eval E c) rs' ->
    policy_eval E c (PPolicy m t (Some a) rs) = policy_eval E c (PPolicy m t (Some a) rs').
  Proof. intros m t a rs rs' H. cbn [policy_eval]. rewrite H. reflexivity. Qed.
  Lemma target_down : forall m t a rules, rules <> [] ->
    (forall r, In r rules -> rl_target r = None /\ rl_effect r <> None) ->
    policy_eval E c (PPolicy m (Some t) (Some a) rules) =
    policy_eval E c (PPolicy m None (Some a) (map (retarget (Some t)) rules)).
  Proof.
    intros m t a rules N H. cbn [policy_eval]. unfold with_target. cbn [bind negb].
    assert (R : forall r, rule_eval E c (retarget (Some t) r) =
      catch_exception (let* b := target_match E c t in if negb b then Ok NotApplicable else
         rule_body E c (retarget None r))).
    { intro r. unfold rule_eval. rewrite !body_of. cbn [retarget rl_target rl_condition rl_effect target_of bind negb]. reflexivity. }
    destruct (target_match E c t) as [[]|e]; cbn [bind negb] in *.
    - f_equal. apply rules_alike. clear N. induction rules as [|r rules IH]; [constructor|]. cbn [map]. constructor.
      + split; [reflexivity|]. rewrite R. unfold rule_eval. f_equal. rewrite !body_of.
        cbn [retarget rl_target rl_condition rl_effect]. rewrite (proj1 (H r (or_introl eq_refl))). reflexivity.
      + apply IH. intros; apply H; cbn; auto.
    - rewrite rules_silent; [reflexivity|]. apply Forall_forall. intros r Hr. apply in_map_iff in Hr.
      destruct Hr as (r0 & <- & _). rewrite R. reflexivity.
    - cbn [catch_exception] in *. destruct (is_exception e) eqn:X.
      + rewrite rules_doubtful; [reflexivity|destruct rules; [congruence|discriminate]|].
        apply Forall_forall. intros r Hr. apply in_map_iff in Hr. destruct Hr as (r0 & <- & H0).
        rewrite R. split; [reflexivity|]. exact (proj2 (H r0 H0)).
      + destruct rules as [|r rules]; [congruence|]. cbn [map].
        rewrite (rules_escape _ a _ _ e); [cbn; rewrite X; reflexivity|]. rewrite R. reflexivity.
  Qed.
  Lemma target_joined : forall m t a rules, without_errors E c (PPolicy m (Some t) (Some a) rules) ->
    policy_eval E c (PPolicy m (Some t) (Some a) rules) =
    policy_eval E c (PPolicy m None (Some a) (map (also_for t) rules)).
  Proof.
    intros m t a rules Hw. cbn [policy_eval]. unfold with_target. cbn [bind negb].
    destruct (clean_target E c _ t Hw) as (b & Hb); [cbn; auto|]. rewrite Hb. cbn [bind].
    assert (R : forall r, In r rules -> rule_eval E c (also_for t r) = if b then rule_eval E c r else Ok NotApplicable).
    { intros r Hr. destruct (clean_rule _ _ _ _ _ _ _ Hw Hr) as ((b' & Hb') & _).
      unfold rule_eval. rewrite !body_of. unfold also_for. cbn [retarget rl_target rl_condition rl_effect target_of].
      destruct (rl_target r) as [t'|]; cbn [target_of] in *.
      - rewrite (target_both _ _ _ _ Hb Hb'), Hb'. destruct b; [reflexivity|reflexivity].
      - rewrite Hb. destruct b; reflexivity. }
    destruct b; cbn [negb].
    - f_equal. apply rules_alike. clear Hw. induction rules as [|r rules IH]; [constructor|]. cbn [map]. constructor.
      + split; [reflexivity|]. rewrite R by (cbn; auto). reflexivity.
      + apply IH. intros; apply R; cbn; auto.
    - rewrite rules_silent; [reflexivity|]. apply Forall_forall. intros r Hr. apply in_map_iff in Hr.
      destruct Hr as (r0 & <- & H0). exact (R r0 H0).
  Qed.
End Writing.
