(** Facts about what has a bearing on decisions. *)
From Verif Require Import StateFacts ObjectsFacts ObjectsFacts3 SpecBearing EvalObjectsFacts2 EvalLiveFacts EvalLiveFacts2.
From Coq Require Import Lia.
Local Open Scope string_scope.
Local Open Scope list_scope.

(** ** Computations that do not look at attributes without a bearing *)
Fixpoint blind {A} (t : LT A) : Prop :=
  match t with
  | LDone _ => True
  | LLook a k => (forall o o', alike_but o o' -> k o' = k o) /\ forall o, blind (k o)
  | LPip _ _ k => forall x, blind (k x)
  | LXpath _ _ k => forall x, blind (k x)
  | LBind x f => blind x /\ forall r, blind (f r)
  | LLoop _ _ _ body => forall s v, blind (body s v)
  end.

Lemma blind_lbind : forall A B (x : LT A) (f : A -> LT B), blind x -> (forall v, blind (f v)) -> blind (lbind x f).
Proof. intros A B x f X F. split; [exact X|]. intros [v|e]; [apply F | exact I]. Qed.
Lemma blind_get : forall a name, ~ In name no_bearing -> blind (l_get a name).
Proof.
  intros a name N. split; [|intros; exact I]. intros o o' H. f_equal. destruct H as [o|k s s' H]; [reflexivity|].
  cbn. rewrite (H name N). reflexivity.
Qed.
Lemma blind_attr : forall v name, ~ In name no_bearing -> blind (l_attr v name).
Proof. intros [] name N; try exact I. apply blind_get; exact N. Qed.
Lemma blind_len : forall v, blind (l_len v).
Proof. intros []; try exact I. split; [intros ? ? [] | intros [[]|]]; reflexivity || exact I. Qed.
Lemma blind_for : forall A v (s : A) body, (forall s v, blind (body s v)) -> blind (l_for v s body).
Proof. intros A [] s body H; try exact I. exact H. Qed.
Lemma blind_pyval : forall v, blind (l_pyval v).
Proof. intros []; try exact I. split; [intros ? ? [] | intros [[]|]]; reflexivity || exact I. Qed.
Lemma blind_request : forall v, blind (l_is_request v).
Proof. intros []; try exact I. split; [intros ? ? []; reflexivity | intros o; exact I]. Qed.
Lemma blind_look : forall A a (k : option pobject -> LT A),
  (forall c s s', k (Some (PInst c s')) = k (Some (PInst c s))) -> (forall o, blind (k o)) -> blind (LLook a k).
Proof. intros A a k H B. split; [|exact B]. intros o o' []; [reflexivity | apply H]. Qed.

Lemma blind_none : forall A (x y : LT A) v, blind x -> blind y -> blind (match v with PNat NNone => x | _ => y end).
Proof. intros A x y [[]| | | | | |] X Y; assumption. Qed.

Lemma bearing : forall name, existsb (String.eqb name) no_bearing = false -> ~ In name no_bearing.
Proof.
  intros name E I. assert (Q : existsb (String.eqb name) no_bearing = true); [|congruence].
  apply existsb_exists. exists name. split; [exact I | apply String.eqb_refl].
Qed.
Ltac has_bearing := apply bearing; vm_compute; reflexivity.
Ltac blind_step :=
  match goal with
  | |- blind (LDone _) => exact I
  | |- blind (ret _) => exact I
  | |- blind (raise _) => exact I
  | |- blind (lbind _ _) => apply blind_lbind; [|intros]
  | |- blind (l_get _ _) => apply blind_get; has_bearing
  | |- blind (l_attr _ _) => apply blind_attr; has_bearing
  | |- blind (l_len _) => apply blind_len
  | |- blind (l_for _ _ _) => apply blind_for; intros
  | |- blind (l_pyval _) => apply blind_pyval
  | |- blind (l_is_request _) => apply blind_request
  | |- blind (LPip _ _ _) => cbn [blind]; intros
  | |- blind (LXpath _ _ _) => cbn [blind]; intros
  | |- blind (LLook _ _) => apply blind_look; [reflexivity|intros]
  | |- blind ((let '(_, _) := ?x in _) _) => destruct x
  | |- blind (match ?x with _ => _ end) => first [apply blind_none | destruct x]
  | |- True => exact I
  | |- blind (l_catch _) => split; [|intros]
  end.
Ltac blinds := repeat blind_step.

Section Blind.
Variable O : oenv.

Lemma blind_collect : forall id dt issuer et bag l, blind (l_collect_attrs id dt issuer et bag l).
Proof. intros. unfold l_collect_attrs, l_attr_match, l_typed_values. blinds. Qed.
Lemma blind_designator : forall k d c, blind (l_eval_designator O k d c).
Proof.
  intros. unfold l_eval_designator, l_collect_subjects, l_collect_resources. cbv zeta.
  blinds; try apply blind_collect.
Qed.
Lemma blind_selector : forall s c, blind (l_eval_selector O s c).
Proof. intros. unfold l_eval_selector. blinds. Qed.
Lemma blind_expr : forall n c x, blind (l_eval_expr O n c x).
Proof.
  induction n as [|n IH]; intros c []; cbn [l_eval_expr]; blinds;
    try apply blind_designator; try apply blind_selector; apply IH.
Qed.
Lemma blind_values : forall f value bag status, blind (l_match_values O f value status bag).
Proof. intros f value. induction bag as [|v bag IH]; intros status; cbn [l_match_values]; blinds; apply IH. Qed.
Lemma blind_match : forall c m, blind (l_eval_match O c m).
Proof.
  intros. unfold l_eval_match. blinds; try apply blind_values; try apply blind_designator; apply blind_selector.
Qed.
Lemma blind_section : forall c t name, ~ In name no_bearing -> blind (l_match_section O c t name).
Proof.
  intros c t name N. unfold l_match_section, l_match_child.
  apply blind_lbind; [apply blind_attr; exact N|intros]. blinds; apply blind_match.
Qed.
Lemma blind_sections : forall c t names, Forall (fun name => ~ In name no_bearing) names -> forall status,
  blind (l_match_sections O c t status names).
Proof.
  intros c t names F. induction F as [|name names N F IH]; intros status; cbn [l_match_sections]; [exact I|].
  apply blind_lbind; [apply blind_section; exact N|intros; apply IH].
Qed.
Lemma blind_check : forall c v, blind (l_check_target O c v).
Proof.
  intros. unfold l_check_target, l_target_match. blinds; apply blind_sections; repeat constructor; has_bearing.
Qed.
Lemma blind_effect : forall r, blind (l_effect_value r).
Proof. intros. unfold l_effect_value. blinds. Qed.
Lemma blind_rule : forall n c r, blind (l_rule_eval O n c r).
Proof.
  intros. unfold l_rule_eval, l_rule_body, l_eval_condition. blinds;
    try apply blind_check; try apply blind_expr; apply blind_effect.
Qed.
Lemma blind_policy : forall n c p, blind (l_policy_eval O n c p).
Proof.
  induction n as [|n IH]; intros c []; cbn [l_policy_eval]; blinds; try apply blind_check.
  - unfold l_combine_rules, l_rules_deny_overrides, l_rules_permit_overrides, l_first_applicable,
      l_effect_is_deny, l_effect_is_permit. blinds; try apply blind_rule; apply blind_effect.
  - unfold l_combine_policies, l_policies_deny_overrides, l_policies_permit_overrides, l_first_applicable.
    blinds; apply IH.
Qed.
End Blind.

Lemma blind_round : forall A o a i (s : A) body, (forall s v, blind (body s v)) -> blind (next_round o a i s body).
Proof.
  intros A o a i s body H. unfold next_round. blinds; [apply H|exact H].
Qed.
Lemma blind_next : forall O h A (t : LT A), blind t -> blind (lstep O h t).
Proof.
  intros O h. fix IH 2. intros A t B. destruct t as [r|a k|r d k|r path k|B' x f|a i s body]; cbn [lstep].
  - exact I.
  - apply B.
  - apply B.
  - apply B.
  - destruct B as (BX & BF). pose proof (IH _ x BX) as Q. destruct x; [apply BF| | | | |]; split; assumption.
  - apply blind_round. exact B.
Qed.

(** ** Objects that are alike *)
Lemma alike_sym : forall o o', alike_but o o' -> alike_but o' o.
Proof.
  intros o o' [x|k s s' H]; [constructor|]. constructor. intros name N. symmetry. apply H, N.
Qed.
Lemma alike_trans : forall o o' o'', alike_but o o' -> alike_but o' o'' -> alike_but o o''.
Proof.
  intros o o' o'' H. destruct H as [x|k s s' H]; [intro K; exact K|]. intro K.
  inversion K as [x E|k' t t' H' E1]; subst; constructor; [exact H|].
  intros name N. rewrite (H' name N). apply H, N.
Qed.
Lemma alike_attr : forall h h' a b name, alike_but (nth_error h a) (nth_error h' a) -> ~ In name no_bearing ->
  get_attr h a name = Ok (PRef b) -> get_attr h' a name = Ok (PRef b).
Proof.
  intros h h' a b name H N G. unfold get_attr in *. destruct H as [o|k s s' H]; [exact G|].
  rewrite (H name N). exact G.
Qed.
Lemma alike_list : forall o o' t items, alike_but o o' -> o = Some (PTypedList t items) ->
  o' = Some (PTypedList t items).
Proof. intros o o' t items [x|k s s' H] Q; [exact Q | discriminate Q]. Qed.

Definition kept (e : string * pval) : bool := negb (existsb (String.eqb (fst e)) no_bearing).
Definition prune1 (o : pobject) : pobject :=
  match o with PInst k s => PInst k (filter kept s) | _ => o end.
Definition prune (h : heap) : heap := map prune1 h.

Lemma kept_get : forall name s, ~ In name no_bearing -> dict_get name (filter kept s) = dict_get name s.
Proof.
  intros name s N. induction s as [|[k v] s IH]; [reflexivity|]. cbn [filter dict_get].
  destruct (String.eqb_spec name k) as [<-|D].
  - assert (E : kept (name, v) = true).
    { unfold kept. cbn [fst]. destruct (existsb (String.eqb name) no_bearing) eqn:E; [|reflexivity].
      apply existsb_exists in E. destruct E as (x & I & Q). apply String.eqb_eq in Q. subst x. contradiction. }
    rewrite E. cbn [dict_get]. rewrite String.eqb_refl. reflexivity.
  - destruct (kept (k, v)); [|exact IH]. cbn [dict_get]. destruct (String.eqb_spec name k); [contradiction | exact IH].
Qed.
Lemma kept_only : forall name s v, dict_get name (filter kept s) = Some v -> ~ In name no_bearing.
Proof.
  intros name s v. induction s as [|[k w] s IH]; cbn [filter]; [discriminate|].
  destruct (kept (k, w)) eqn:E; [|exact IH]. cbn [dict_get].
  destruct (String.eqb_spec name k) as [<-|D]; [|exact IH]. intros _. apply bearing.
  unfold kept in E. cbn [fst] in E. destruct (existsb (String.eqb name) no_bearing); [discriminate E | reflexivity].
Qed.
Lemma prune_alike : forall h b, alike_but (nth_error h b) (nth_error (prune h) b).
Proof.
  intros h b. unfold prune. rewrite nth_error_map. destruct (nth_error h b) as [[k s|t its|v|e]|]; cbn;
    constructor. intros name N. apply kept_get, N.
Qed.
Lemma prune_refers : forall h a b, refers (prune h) a b -> leads h a b.
Proof.
  intros h a b H. pose proof (alike_sym _ _ (prune_alike h a)) as A. destruct H as [a b name G|a b t its N I].
  - assert (NB : ~ In name no_bearing).
    { unfold get_attr in G. unfold prune in G. rewrite nth_error_map in G.
      destruct (nth_error h a) as [[k s|t its|v|e]|]; cbn in G; try discriminate G.
      - destruct (dict_get name (filter kept s)) eqn:D; [|discriminate G]. exact (kept_only _ _ _ D).
      - destruct (String.eqb name "value"); [discriminate G|]. destruct (String.eqb name "dataType"); discriminate G.
      - destruct (String.eqb name "value"); discriminate G. }
    apply (by_attribute h a b name NB). exact (alike_attr _ _ _ _ _ A NB G).
  - eapply by_item; [exact (alike_list _ _ _ _ A N) | exact I].
Qed.

Section Frame.
Variable O O0 : oenv.
Variable h0 : heap.
Variables S R : nat -> Prop.

Definition keeps2 (h' : heap) : Prop :=
  (forall b, S b -> alike_but (nth_error h0 b) (nth_error h' b)) /\
  (forall r, R r -> (forall d, oe_pip O h' r d = oe_pip O0 h0 r d) /\
                    (forall v, oe_xpath O h' r v = oe_xpath O0 h0 r v)).

Lemma round_alike : forall A o o' a i (s : A) body, alike_but o o' -> next_round o' a i s body = next_round o a i s body.
Proof. intros A o o' a i s body []; reflexivity. Qed.

Lemma ev_step2 : forall h', keeps2 h' -> forall A (t : LT A) r, ev O0 h0 S R t r -> blind t ->
  ev O0 h0 S R (lstep O h' t) r.
Proof.
  intros h' (KS & KR) A t r E. induction E as
    [A r|A a k r Sa E IH|A a d k r Ra E IH|A a v k r Ra E IH|A B x f r r1 X IHX F IHF|A a i s body r Sa E IH];
    intros BL; cbn [lstep].
  - apply ev_done.
  - destruct BL as (BL & _). rewrite (BL _ _ (KS a Sa)). exact E.
  - rewrite (proj1 (KR a Ra)). exact E.
  - rewrite (proj2 (KR a Ra)). exact E.
  - destruct BL as (BX & BF). destruct x as [r0| | | | |]; try (eapply ev_bind; [exact (IHX BX) | exact F]).
    rewrite (ev_done_inv _ _ _ _ _ _ _ X r0 eq_refl). exact F.
  - rewrite (round_alike _ _ _ _ _ _ _ (KS a Sa)). exact E.
Qed.

Lemma ev_run2 : forall hs, Forall keeps2 hs -> forall A (t : LT A) r, ev O0 h0 S R t r -> blind t ->
  ev O0 h0 S R (lrun O hs t) r.
Proof.
  intros hs K. induction K as [|h' hs K _ IH]; intros A t r E BL; [exact E|].
  apply IH; [apply ev_step2; assumption | apply blind_next, BL].
Qed.

Lemma ev_result2 : forall hs A (t : LT A) r d, Forall keeps2 hs -> ev O0 h0 S R t r -> blind t ->
  lrun O hs t = LDone d -> d = r.
Proof. intros hs A t r d K E BL Q. exact (ev_done_inv _ _ _ _ _ _ _ (ev_run2 hs K _ _ _ E BL) _ Q). Qed.

Lemma bind_ends2 : forall A B (f : res B -> LT A) r1 r n2,
  (forall hs, n2 <= length hs -> Forall keeps2 hs -> lrun O hs (f r1) = LDone r) ->
  forall n1 (x : LT B), ev O0 h0 S R x r1 -> blind x ->
  (forall hs, n1 <= length hs -> Forall keeps2 hs -> lrun O hs x = LDone r1) ->
  forall hs, n1 + 1 + n2 <= length hs -> Forall keeps2 hs -> lrun O hs (LBind x f) = LDone r.
Proof.
  intros A B f r1 r n2 F. induction n1 as [|n1 IH]; intros x EX BX X hs L K.
  - pose proof (X [] (le_n 0) (Forall_nil _)) as Q. cbn in Q. subst x.
    destruct hs as [|h1 hs]; [cbn in L; lia|]. apply F; [cbn in L; lia | inversion K; assumption].
  - destruct hs as [|h1 hs]; [cbn in L; lia|]. cbn [length] in L. inversion K as [|? ? K1 K']; subst.
    assert (Y : forall hs, n1 <= length hs -> Forall keeps2 hs -> lrun O hs (lstep O h1 x) = LDone r1).
    { intros hs' L' H'. apply (X (h1 :: hs')); [cbn; lia | constructor; assumption]. }
    pose proof (ev_step2 h1 K1 _ _ _ EX BX) as EY. pose proof (blind_next O h1 _ _ BX) as BY.
    destruct x as [r0| | | | |]; try (apply (IH _ EY BY Y); [lia | exact K']).
    rewrite (ev_done_inv _ _ _ _ _ _ _ EX r0 eq_refl). cbn [lrun fold_left lstep]. apply F; [lia | exact K'].
Qed.

Lemma ev_ends2 : forall A (t : LT A) r, ev O0 h0 S R t r -> blind t ->
  exists N, forall hs, N <= length hs -> Forall keeps2 hs -> lrun O hs t = LDone r.
Proof.
  intros A t r E. induction E as
    [A r|A a k r Sa E IH|A a d k r Ra E IH|A a v k r Ra E IH|A B x f r r1 X IHX F IHF|A a i s body r Sa E IH]; intros BL.
  - exists 0. intros. apply run_done.
  - destruct (IH (proj2 BL _)) as (N & H). exists (Datatypes.S N). intros [|h1 hs] L K; cbn in L; [lia|].
    inversion K as [|? ? (KS & KR) K']; subst. cbn [lrun fold_left lstep].
    rewrite (proj1 BL _ _ (KS a Sa)). apply H; [lia | exact K'].
  - destruct (IH (BL _)) as (N & H). exists (Datatypes.S N). intros [|h1 hs] L K; cbn in L; [lia|].
    inversion K as [|? ? (KS & KR) K']; subst. cbn [lrun fold_left lstep]. rewrite (proj1 (KR a Ra)). apply H; [lia | exact K'].
  - destruct (IH (BL _)) as (N & H). exists (Datatypes.S N). intros [|h1 hs] L K; cbn in L; [lia|].
    inversion K as [|? ? (KS & KR) K']; subst. cbn [lrun fold_left lstep]. rewrite (proj2 (KR a Ra)). apply H; [lia | exact K'].
  - destruct (IHX (proj1 BL)) as (n1 & X'). destruct (IHF (proj2 BL _)) as (n2 & F'). exists (n1 + 1 + n2).
    apply (bind_ends2 _ _ _ r1); [exact F' | exact X | exact (proj1 BL) | exact X'].
  - destruct (IH (blind_round _ _ _ _ _ _ BL)) as (N & H). exists (Datatypes.S N). intros [|h1 hs] L K; cbn in L; [lia|].
    inversion K as [|? ? (KS & KR) K']; subst. cbn [lrun fold_left lstep].
    rewrite (round_alike _ _ _ _ _ _ _ (KS a Sa)). apply H; [lia | exact K'].
Qed.
End Frame.

(** The collaborators of [h] whatever the heap *)
Definition frozen (O : oenv) (h : heap) : oenv :=
  mkOenv (oe_fenv O) (oe_classes O) (fun _ => oe_pip O h) (fun _ => oe_xpath O h).

Lemma frozen_expr : forall O h, l_eval_expr (frozen O h) = l_eval_expr O.
Proof. reflexivity. Qed.
Lemma frozen_match : forall O h, l_eval_match (frozen O h) = l_eval_match O.
Proof. reflexivity. Qed.
Lemma frozen_child : forall O h, l_match_child (frozen O h) = l_match_child O.
Proof. intros. unfold l_match_child. rewrite frozen_match. reflexivity. Qed.
Lemma frozen_section : forall O h, l_match_section (frozen O h) = l_match_section O.
Proof. intros. unfold l_match_section. rewrite frozen_child. reflexivity. Qed.
Lemma frozen_check : forall O h, l_check_target (frozen O h) = l_check_target O.
Proof. intros. unfold l_check_target, l_target_match, l_match_sections. rewrite frozen_section. reflexivity. Qed.
Lemma frozen_rule : forall O h, l_rule_eval (frozen O h) = l_rule_eval O.
Proof.
  intros. unfold l_rule_eval, l_rule_body, l_eval_condition. rewrite frozen_check, frozen_expr. reflexivity.
Qed.
Lemma frozen_eval : forall O h n c p, l_policy_eval (frozen O h) n c p = l_policy_eval O n c p.
Proof.
  intros. unfold l_policy_eval. rewrite frozen_check, frozen_rule. reflexivity.
Qed.

Lemma bearing_closed : forall h p c a b, bears_on h p c a -> refers (prune h) a b -> bears_on h p c b.
Proof.
  intros h p c a b (x & Q & H) F. exists x. split; [exact Q|].
  eapply rt_trans; [exact H | apply rt_step, prune_refers; exact F].
Qed.

Lemma ev_bearing : forall O h n c p,
  ev (frozen O h) (prune h) (bears_on h p c) (asked c) (l_policy_eval O n c p)
    (o_policy_eval (frozen O h) (prune h) n c p).
Proof.
  intros O h n c p. rewrite <- (frozen_eval O h). apply ev_policy.
  - apply bearing_closed.
  - intros a ->. exists a. split; [right; reflexivity | apply rt_refl].
  - intros r Q. exact Q.
  - intros a ->. exists a. split; [left; reflexivity | apply rt_refl].
Qed.

Lemma keeps_bearing : forall O h h' p c, same_bearing h h' p c -> same_collaborators O h h' c ->
  keeps2 O (frozen O h) (prune h) (bears_on h p c) (asked c) h'.
Proof.
  intros O h h' p c SB (P & X). split.
  - intros b B. eapply alike_trans; [apply alike_sym, prune_alike | exact (SB b B)].
  - intros r Q. split; intro; [apply P | apply X]; exact Q.
Qed.

Lemma pruned_eval : forall O h n c p, o_policy_eval (frozen O h) (prune h) n c p = o_policy_eval O h n c p.
Proof.
  intros O h n c p. symmetry.
  destruct (ev_ends _ _ _ _ _ _ _ (ev_whole O h n c p)) as (N & H).
  apply (ev_result2 O (frozen O h) (prune h) (bears_on h p c) (asked c) (repeat h N) _ (l_policy_eval O n c p)).
  - clear H. induction N as [|N IH]; constructor; [|exact IH]. apply keeps_bearing.
    + intros b _. apply equal_objects.
    + split; reflexivity.
  - apply ev_bearing.
  - apply blind_policy.
  - apply H; [rewrite repeat_length; apply le_n|].
    clear H. induction N; constructor; [apply keeps_self | assumption].
Qed.

Lemma bearing_result : forall O h hs n c p d,
  Forall (fun h' => same_bearing h h' p c /\ same_collaborators O h h' c) hs ->
  gives O hs n c p d -> d = o_policy_eval O h n c p.
Proof.
  intros O h hs n c p d F G. rewrite <- pruned_eval.
  apply (ev_result2 O (frozen O h) (prune h) (bears_on h p c) (asked c) hs _ (l_policy_eval O n c p)).
  - eapply Forall_impl; [|exact F]. intros h' (SB & SC). apply keeps_bearing; assumption.
  - apply ev_bearing.
  - apply blind_policy.
  - exact G.
Qed.
Lemma bearing_ends : forall O h n c p, exists N, forall hs, N <= length hs ->
  Forall (fun h' => same_bearing h h' p c /\ same_collaborators O h h' c) hs ->
  gives O hs n c p (o_policy_eval O h n c p).
Proof.
  intros O h n c p. destruct (ev_ends2 O _ _ _ _ _ _ _ (ev_bearing O h n c p) (blind_policy O n c p)) as (N & H).
  exists N. intros hs L F. unfold gives. rewrite <- pruned_eval. apply H; [exact L|].
  eapply Forall_impl; [|exact F]. intros h' (SB & SC). apply keeps_bearing; assumption.
Qed.
Lemma bearing_same : forall O h h' n c p, same_bearing h h' p c -> same_collaborators O h h' c ->
  o_policy_eval O h' n c p = o_policy_eval O h n c p.
Proof.
  intros O h h' n c p SB SC.
  destruct (ev_ends _ _ _ _ _ _ _ (ev_whole O h' n c p)) as (N & H).
  apply (bearing_result O h (repeat h' N)).
  - clear H. induction N as [|N IH]; constructor; [split; assumption | exact IH].
  - apply H; [rewrite repeat_length; apply le_n|].
    clear H. induction N; constructor; [apply keeps_self | assumption].
Qed.

(** ** Operations *)
Lemma step_alike : forall cm s o b x, nth_error (os_heap s) b = Some x ->
  (touches o = Some b -> exists name v, o = OSet b name v /\ In name no_bearing /\ ~ In name loading) ->
  exists x', nth_error (os_heap (snd (ostep cm s o))) b = Some x' /\ alike_but (Some x) (Some x').
Proof.
  intros cm s o b x N T.
  assert (D : touches o = Some b \/ touches o <> Some b).
  { destruct (touches o) as [a|]; [|right; discriminate].
    destruct (Nat.eq_dec a b) as [->|D]; [left; reflexivity | right; congruence]. }
  destruct D as [D|D].
  - destruct (T D) as (name & v & -> & NB & NL). destruct s as [h m]. cbn [os_heap] in *. clear T D.
    cbn [ostep os_heap os_map]. rewrite N.
    assert (L : b < length h) by (apply nth_error_Some; congruence).
    destruct x as [k at1|t its|y|e].
    + destruct (setter_type k name) as [t|]; [|exists (PInst k at1); split; [exact N | constructor]].
      destruct (isinstance h v t); [|exists (PInst k at1); split; [exact N | constructor]].
      assert (Q : exists r, assign cm k name v at1 m = (r, dict_set name v at1, m)).
      { unfold assign. cbn in NB, NL.
        assert (NE : forall n, ~ In n no_bearing \/ In n loading -> String.eqb name n = false).
        { intros n W. apply String.eqb_neq. intros ->. destruct W as [W|W]; contradiction. }
        destruct k; rewrite ?(NE "attributeDesignator"), ?(NE "attributeSelector"), ?(NE "matchId"), ?(NE "functionId"),
          ?(NE "ruleCombiningAlgId"), ?(NE "policyCombiningAlgId");
          try (eexists; reflexivity); try (left; has_bearing); right; cbn; tauto. }
      destruct Q as (r & Q). rewrite Q. cbn [snd os_heap].
      exists (PInst k (dict_set name v at1)). split; [eapply nth_replace_same; exact N|].
      constructor. intros n W. apply dict_get_set_other. intros ->. contradiction.
    + exists (PTypedList t its). split; [exact N | constructor].
    + assert (V : String.eqb name "value" = false /\ String.eqb name "dataType" = false).
      { split; apply String.eqb_neq; intros ->; revert NB; has_bearing. }
      destruct V as (V1 & V2). rewrite V1, V2. exists (PValue y). split; [exact N | constructor].
    + assert (V : String.eqb name "value" = false).
      { apply String.eqb_neq; intros ->; revert NB; has_bearing. }
      rewrite V. exists (PEffect e). split; [exact N | constructor].
  - exists x. split; [apply ostep_other; assumption | constructor].
Qed.

Lemma leads_object : forall h a b, well_formed h -> nth_error h a <> None -> clos_refl_trans nat (leads h) a b ->
  nth_error h b <> None.
Proof.
  intros h a b W N H. apply (reaches_object h a b W N). clear N.
  induction H as [a b H|a|a b c _ IH1 _ IH2]; [|apply rt_refl|eapply rt_trans; eassumption].
  apply rt_step. destruct H as [a b name _ G|a b t its L I]; [eapply refers_attribute; exact G | eapply refers_item; eassumption].
Qed.
Lemma bearing_object : forall h p r b, well_formed h -> nth_error h p <> None -> nth_error h r <> None ->
  bears_on h (PRef p) (PRef r) b -> nth_error h b <> None.
Proof.
  intros h p r b W P R (a & Q & L). apply (leads_object h a b W); [|exact L].
  destruct Q as [Q|Q]; injection Q as <-; assumption.
Qed.

(** Whatever happens without a bearing, the objects with one stay alike. *)
Lemma meanwhile_alike : forall cm b x evs s, nth_error (os_heap s) b = Some x ->
  (forall o, In o (performed evs) -> touches o = Some b ->
     exists name v, o = OSet b name v /\ In name no_bearing /\ ~ In name loading) ->
  forall h, In h (meanwhile cm s evs) -> alike_but (Some x) (nth_error h b).
Proof.
  intros cm b x evs s N.
  cut (forall s y, nth_error (os_heap s) b = Some y -> alike_but (Some x) (Some y) ->
    (forall o, In o (performed evs) -> touches o = Some b ->
       exists name v, o = OSet b name v /\ In name no_bearing /\ ~ In name loading) ->
    forall h, In h (meanwhile cm s evs) -> alike_but (Some x) (nth_error h b)).
  { intros H. apply (H s x N). constructor. }
  clear s N. induction evs as [|[|o] evs IH]; intros s y N A T h I; cbn [meanwhile] in I; [destruct I| |].
  - destruct I as [<-|I]; [rewrite N; exact A|]. exact (IH s y N A T h I).
  - destruct (step_alike cm s o b y N (T o (or_introl eq_refl))) as (z & N' & A').
    apply (IH _ z N' (alike_trans _ _ _ A A')); [|exact I]. intros o' I'. apply T. right. exact I'.
Qed.
Lemma run_alike : forall cm b ops s x, nth_error (os_heap s) b = Some x ->
  (forall o, In o ops -> touches o = Some b ->
     exists name v, o = OSet b name v /\ In name no_bearing /\ ~ In name loading) ->
  alike_but (Some x) (nth_error (os_heap (orun cm s ops)) b).
Proof.
  intros cm b ops s x N.
  cut (forall s y, nth_error (os_heap s) b = Some y -> alike_but (Some x) (Some y) ->
    (forall o, In o ops -> touches o = Some b ->
       exists name v, o = OSet b name v /\ In name no_bearing /\ ~ In name loading) ->
    alike_but (Some x) (nth_error (os_heap (orun cm s ops)) b)).
  { intros H. apply (H s x N). constructor. }
  clear s N. induction ops as [|o ops IH]; intros s y N A T; cbn; [rewrite N; exact A|].
  destruct (step_alike cm s o b y N (T o (or_introl eq_refl))) as (z & N' & A').
  apply (IH _ z N' (alike_trans _ _ _ A A')). intros o' I'. apply T. right. exact I'.
Qed.
Lemma idle_on : forall h p c o b, idle h p c o -> bears_on h p c b -> touches o = Some b ->
  exists name v, o = OSet b name v /\ In name no_bearing /\ ~ In name loading.
Proof.
  intros h p c o b I B T. unfold idle in I. rewrite T in I. destruct I as [I|I]; [contradiction | exact I].
Qed.

Lemma leads_prune : forall h a b, leads h a b -> refers (prune h) a b.
Proof.
  intros h a b [a' b' name NB G|a' b' t its N I].
  - eapply refers_attribute. exact (alike_attr _ _ _ _ _ (prune_alike h a') NB G).
  - eapply refers_item; [exact (alike_list _ _ _ _ (prune_alike h a') N) | exact I].
Qed.
Lemma bears_prune : forall h p c b, bears_on h p c b -> exists a, (p = PRef a \/ c = PRef a) /\ reaches (prune h) a b.
Proof.
  intros h p c b (a & Q & L). exists a. split; [exact Q|]. clear Q.
  induction L as [a b H|a|a b d _ IH1 _ IH2]; [apply rt_step, leads_prune, H|apply rt_refl|eapply rt_trans; eassumption].
Qed.
