(** Facts about evaluations while other threads change objects. *)
From Verif Require Import SpecEvalLive EvalLiveFacts EvalObjectsFacts2.
From Coq Require Import Lia Relations.
Local Open Scope string_scope.
Local Open Scope list_scope.

Arguments ev O h S R {A} _ _.

Section Frame.
Variable O : oenv.
Variable h : heap.
Variables S R : nat -> Prop.

(** [h'] does not differ in what is looked at *)
Definition keeps (h' : heap) : Prop :=
  (forall b, S b -> nth_error h' b = nth_error h b) /\
  (forall r, R r -> (forall d, oe_pip O h' r d = oe_pip O h r d) /\
                    (forall v, oe_xpath O h' r v = oe_xpath O h r v)).

Lemma ev_done_inv : forall A (t : LT A) r, ev O h S R t r -> forall r', t = LDone r' -> r' = r.
Proof. intros A t r E. destruct E; intros r' Q; try discriminate Q. injection Q as <-. reflexivity. Qed.

Lemma ev_step : forall h', keeps h' -> forall A (t : LT A) r, ev O h S R t r -> ev O h S R (lstep O h' t) r.
Proof.
  intros h' (KS & KR) A t r E. induction E as
    [A r|A a k r Sa E IH|A a d k r Ra E IH|A a v k r Ra E IH|A B x f r r1 X IHX F IHF|A a i s body r Sa E IH]; cbn [lstep].
  - apply ev_done.
  - rewrite (KS a Sa). exact E.
  - rewrite (proj1 (KR a Ra)). exact E.
  - rewrite (proj2 (KR a Ra)). exact E.
  - destruct x as [r0| | | | |]; try (eapply ev_bind; [exact IHX | exact F]).
    rewrite (ev_done_inv _ _ _ X r0 eq_refl). exact F.
  - rewrite (KS a Sa). exact E.
Qed.

Lemma ev_run : forall hs, Forall keeps hs -> forall A (t : LT A) r, ev O h S R t r -> ev O h S R (lrun O hs t) r.
Proof.
  intros hs K. induction K as [|h' hs K _ IH]; intros A t r E; [exact E|]. apply IH, ev_step; assumption.
Qed.

Lemma ev_result : forall hs A (t : LT A) r d, Forall keeps hs -> ev O h S R t r -> lrun O hs t = LDone d -> d = r.
Proof. intros hs A t r d K E Q. exact (ev_done_inv _ _ _ (ev_run hs K _ _ _ E) _ Q). Qed.

Lemma run_done : forall hs A (r : res A), lrun O hs (LDone r) = LDone r.
Proof. induction hs as [|h' hs IH]; intros A r; [reflexivity | apply IH]. Qed.

Lemma keeps_self : keeps h.
Proof. split; [reflexivity | intros r _; split; reflexivity]. Qed.

Lemma bind_ends : forall A B (f : res B -> LT A) r1 r n2,
  (forall hs, n2 <= length hs -> Forall keeps hs -> lrun O hs (f r1) = LDone r) ->
  forall n1 (x : LT B), (forall hs, n1 <= length hs -> Forall keeps hs -> lrun O hs x = LDone r1) ->
  forall hs, n1 + 1 + n2 <= length hs -> Forall keeps hs -> lrun O hs (LBind x f) = LDone r.
Proof.
  intros A B f r1 r n2 F. induction n1 as [|n1 IH]; intros x X hs L K.
  - pose proof (X [] (le_n 0) (Forall_nil _)) as Q. cbn in Q. subst x.
    destruct hs as [|h1 hs]; [cbn in L; lia|]. apply F; [cbn in L; lia | inversion K; assumption].
  - destruct hs as [|h1 hs]; [cbn in L; lia|]. cbn [length] in L. inversion K as [|? ? K1 K']; subst.
    assert (Y : forall hs, n1 <= length hs -> Forall keeps hs -> lrun O hs (lstep O h1 x) = LDone r1).
    { intros hs' L' H'. apply (X (h1 :: hs')); [cbn; lia | constructor; assumption]. }
    destruct x as [r0| | | | |]; try (apply (IH _ Y); [lia | exact K']).
    cbn [lstep] in Y. pose proof (Y (repeat h n1)) as Z. rewrite run_done, repeat_length in Z.
    assert (Q : LDone r0 = LDone r1).
    { apply Z; [lia|]. clear. induction n1; constructor; [apply keeps_self | assumption]. }
    injection Q as ->. cbn [lrun fold_left lstep]. apply F; [lia | exact K'].
Qed.

Lemma ev_ends : forall A (t : LT A) r, ev O h S R t r ->
  exists N, forall hs, N <= length hs -> Forall keeps hs -> lrun O hs t = LDone r.
Proof.
  intros A t r E. induction E as
    [A r|A a k r Sa E IH|A a d k r Ra E IH|A a v k r Ra E IH|A B x f r r1 X IHX F IHF|A a i s body r Sa E IH].
  - exists 0. intros. apply run_done.
  - destruct IH as (N & IH). exists (Datatypes.S N). intros [|h1 hs] L K; cbn in L; [lia|].
    inversion K as [|? ? (KS & KR) K']; subst. cbn [lrun fold_left lstep]. rewrite (KS a Sa). apply IH; [lia | exact K'].
  - destruct IH as (N & IH). exists (Datatypes.S N). intros [|h1 hs] L K; cbn in L; [lia|].
    inversion K as [|? ? (KS & KR) K']; subst. cbn [lrun fold_left lstep]. rewrite (proj1 (KR a Ra)). apply IH; [lia | exact K'].
  - destruct IH as (N & IH). exists (Datatypes.S N). intros [|h1 hs] L K; cbn in L; [lia|].
    inversion K as [|? ? (KS & KR) K']; subst. cbn [lrun fold_left lstep]. rewrite (proj2 (KR a Ra)). apply IH; [lia | exact K'].
  - destruct IHX as (n1 & X'). destruct IHF as (n2 & F'). exists (n1 + 1 + n2). apply (bind_ends _ _ _ r1); assumption.
  - destruct IH as (N & IH). exists (Datatypes.S N). intros [|h1 hs] L K; cbn in L; [lia|].
    inversion K as [|? ? (KS & KR) K']; subst. cbn [lrun fold_left lstep]. rewrite (KS a Sa). apply IH; [lia | exact K'].
Qed.

Lemma ev_det : forall A (t : LT A) r r', ev O h S R t r -> ev O h S R t r' -> r = r'.
Proof.
  intros A t r r' E E'. destruct (ev_ends _ _ _ E) as (N & X). 
  assert (K : Forall keeps (repeat h N)) by (clear; induction N; constructor; [apply keeps_self | assumption]).
  refine (ev_result _ _ _ _ _ K E' (X (repeat h N) _ K)). rewrite repeat_length. apply le_n.
Qed.

(** The same evaluation with the objects of [h'] *)
Lemma ev_transfer : forall h' (S' : nat -> Prop), keeps h' -> (forall b, S b -> S' b) ->
  forall A (t : LT A) r, ev O h S R t r -> ev O h' S' R t r.
Proof.
  intros h' S' (KS & KR) M A t r E. induction E as
    [A r|A a k r Sa E IH|A a d k r Ra E IH|A a v k r Ra E IH|A B x f r r1 X IHX F IHF|A a i s body r Sa E IH].
  - apply ev_done.
  - apply ev_look; [apply M; exact Sa|]. rewrite (KS a Sa). exact IH.
  - apply ev_pip; [exact Ra|]. rewrite (proj1 (KR a Ra)). exact IH.
  - apply ev_xpath; [exact Ra|]. rewrite (proj2 (KR a Ra)). exact IH.
  - eapply ev_bind; eassumption.
  - apply ev_loop; [apply M; exact Sa|]. rewrite (KS a Sa). exact IH.
Qed.
End Frame.

(** ** Runs of bound evaluations *)

Lemma run_cons : forall O A h hs (t : LT A), lrun O (h :: hs) t = lrun O hs (lstep O h t).
Proof. reflexivity. Qed.
Lemma run_bind : forall O A B (f : res B -> LT A) d hs x, lrun O hs (LBind x f) = LDone d ->
  exists hs1 h1 hs2 r, hs = hs1 ++ h1 :: hs2 /\ lrun O hs1 x = LDone r /\ lrun O hs2 (f r) = LDone d.
Proof.
  intros O A B f d. induction hs as [|h hs IH]; intros x Q; [discriminate Q|].
  rewrite run_cons in Q. cbn [lstep] in Q.
  destruct x as [r| | | | |]; try (apply IH in Q; destruct Q as (hs1 & h1 & hs2 & r' & -> & X & Y);
    exists (h :: hs1), h1, hs2, r'; split; [reflexivity|]; split; [exact X | exact Y]).
  exists [], h, hs, r. split; [reflexivity|]. split; [reflexivity | exact Q].
Qed.

(** ** Objects reached *)

Lemma part_closed : forall h p c a b, part_of h p c a -> refers h a b -> part_of h p c b.
Proof.
  intros h p c a b (x & Q & H) F. exists x. split; [exact Q|]. eapply rt_trans; [exact H | apply rt_step; exact F].
Qed.
Definition asked (c : pval) (r : nat) : Prop := c = PRef r.

Lemma ev_whole : forall O h n c p,
  ev O h (part_of h p c) (asked c) (l_policy_eval O n c p) (o_policy_eval O h n c p).
Proof.
  intros O h n c p. apply ev_policy.
  - apply part_closed.
  - intros a ->. exists a. split; [right; reflexivity | apply rt_refl].
  - intros r Q. exact Q.
  - intros a ->. exists a. split; [left; reflexivity | apply rt_refl].
Qed.

Lemma same_keeps : forall O h h' p c, same_objects h h' p c -> same_collaborators O h h' c ->
  keeps O h (part_of h p c) (asked c) h'.
Proof.
  intros O h h' p c SO (P & X). split.
  - intros b (a & Q & H). exact (SO a b Q H).
  - intros r Q. split; intro; [apply P | apply X]; exact Q.
Qed.

(** ** A list that grows *)
Section Growing.
Variable O : oenv.
Variable a l : nat.
Variable c : pval.

Definition later : heap -> heap -> Prop := appended O l (PRef a) c.
(** what is reached from [v] and from the request *)
Definition below (h : heap) (v : pval) : nat -> Prop := part_of h v c.

Lemma own_below : forall h t items v b, own_list h a c l -> nth_error h l = Some (PTypedList t items) -> In v items ->
  below h v b -> b <> l /\ part_of h (PRef a) c b.
Proof.
  intros h t items v b (W & _ & NC & NI) N I (x & [->| ->] & P).
  - split; [intros ->; exact (NI t items x N I P)|]. exists a. split; [left; reflexivity|].
    eapply rt_trans; [|exact P]. apply rt_trans with l; apply rt_step.
    + destruct W as [(attrs & _ & G)|(attrs & _ & G)]; exact (refers_attribute _ _ _ _ G).
    + exact (refers_item _ _ _ _ _ N I).
  - split; [intros ->; exact (NC x eq_refl P)|]. exists x. split; [right; reflexivity | exact P].
Qed.
Lemma own_target : forall h v b, own_list h a c l -> get_attr h a "target" = Ok v ->
  below h v b -> b <> l /\ part_of h (PRef a) c b.
Proof.
  intros h v b (W & NT & NC & NI) N (x & [->| ->] & P).
  - split; [intros ->; exact (NT x N P)|]. exists a. split; [left; reflexivity|].
    eapply rt_trans; [|exact P]. apply rt_step. exact (refers_attribute _ _ _ _ N).
  - split; [intros ->; exact (NC x eq_refl P)|]. exists x. split; [right; reflexivity | exact P].
Qed.

Lemma keeps_below : forall (S : nat -> Prop) h h', later h h' ->
  (forall b, S b -> b <> l /\ part_of h (PRef a) c b) -> keeps O h S (asked c) h'.
Proof.
  intros S h h' (_ & K & P & X) B. split.
  - intros b Sb. destruct (B b Sb) as (Nl & Pb). exact (K b Pb Nl).
  - intros r Q. split; intro; [apply P | apply X]; exact Q.
Qed.

(** A loop over the growing list is a loop over the list as it is at some moment. *)
Lemma loop_run : forall A (body : A -> pval -> LT (A * bool)),
  (forall h s v, exists r, ev O h (below h v) (asked c) (body s v) r) ->
  forall m hs, length hs <= m -> forall i s d,
  ForallOrdPairs later hs -> Forall (fun h => own_list h a c l) hs ->
  lrun O hs (LLoop l i s body) = LDone d ->
  exists h, In h hs /\ ev O h (fun _ => True) (asked c) (LLoop l i s body) d.
Proof.
  intros A body Hb. induction m as [|m IH]; intros hs Len i s d P W Q.
  - destruct hs; [discriminate Q | cbn in Len; lia].
  - destruct hs as [|h1 hs]; [discriminate Q|]. cbn [length] in Len.
    inversion P as [|? ? P1 P']; subst. inversion W as [|? ? W1 W']; subst.
    rewrite run_cons in Q. cbn [lstep] in Q.
    assert (Here : forall r, next_round (nth_error h1 l) l i s body = LDone r -> d = r /\
      ev O h1 (fun _ => True) (asked c) (LLoop l i s body) r).
    { intros r N. rewrite N, run_done in Q. injection Q as <-. split; [reflexivity|].
      apply ev_loop; [exact I|]. rewrite N. apply ev_done. }
    destruct (nth_error h1 l) as [[k attrs|t items|w|e]|] eqn:N;
      try (destruct (Here _ eq_refl) as (-> & E); exists h1; split; [left; reflexivity | exact E]).
    unfold next_round in Q. destruct (nth_error items i) as [v|] eqn:Ni.
    2:{ cbn [next_round] in Here. rewrite Ni in Here. destruct (Here _ eq_refl) as (-> & E); exists h1; split; [left; reflexivity | exact E]. }
    clear Here. apply run_bind in Q. destruct Q as (hs1 & h2 & hs2 & r & -> & X & Y).
    apply Forall_app in W'. destruct W' as (W1' & W2'). inversion W2' as [|? ? W2 W2'']; subst.
    destruct (Hb h1 s v) as (r1 & E1). pose proof (nth_error_In _ _ Ni) as Iv.
    assert (K : forall h', later h1 h' -> keeps O h1 (below h1 v) (asked c) h').
    { intros h' L. apply keeps_below; [exact L|]. intros b. exact (own_below h1 t items v b W1 N Iv). }
    rewrite Forall_forall in P1.
    assert (R1 : r = r1).
    { refine (ev_result O h1 _ _ hs1 _ _ _ _ _ E1 X). rewrite Forall_forall. intros h' I'. apply K, P1, in_or_app.
      left; exact I'. }
    subst r1.
    assert (Stop : forall r0, lrun O hs2 (LDone r0) = LDone d ->
      (ev O h1 (fun _ => True) (asked c) (LLoop l i s body) r0) ->
      exists h, In h (h1 :: hs1 ++ h2 :: hs2) /\ ev O h (fun _ => True) (asked c) (LLoop l i s body) d).
    { intros r0 Q E. rewrite run_done in Q. injection Q as ->. exists h1. split; [left; reflexivity | exact E]. }
    assert (E1' : ev O h1 (fun _ => True) (asked c) (body s v) r).
    { refine (ev_transfer O h1 _ _ h1 _ (keeps_self O h1 _ _) _ _ _ _ E1). intros; exact I. }
    destruct r as [[s' [|]]|e]; cbn beta iota in Y.
    + refine (Stop _ Y _). apply ev_loop; [exact I|]. rewrite N. unfold next_round. rewrite Ni.
      eapply ev_bind; [exact E1'|]. apply ev_done.
    + assert (P2 : ForallOrdPairs later hs2).
      { clear - P'. induction hs1 as [|x hs1 IHh]; cbn in P'; inversion P'; subst; auto. }
      rewrite app_length in Len. cbn [length] in Len.
      destruct (IH hs2 ltac:(lia) _ _ _ P2 W2'' Y) as (h & Ih & E).
      assert (L : later h1 h) by (apply P1, in_or_app; right; right; exact Ih).
      exists h. split; [right; apply in_or_app; right; right; exact Ih|].
      apply ev_loop; [exact I|].
      destruct L as ((t' & items' & more & N' & Nh) & LK). rewrite N in N'. injection N' as <- <-.
      rewrite Nh. unfold next_round. rewrite nth_error_app1 by (apply nth_error_Some; congruence). rewrite Ni.
      apply ev_bind with (r1 := Ok (s', false)); [|exact E].
      refine (ev_transfer O h1 _ _ h _ (K h _) _ _ _ _ E1); [|intros; exact I].
      split; [|exact LK]. exists t, items, more. split; assumption.
    + refine (Stop _ Y _). apply ev_loop; [exact I|]. rewrite N. unfold next_round. rewrite Ni.
      eapply ev_bind; [exact E1'|]. apply ev_done.
Qed.

Lemma below_closed : forall h v x y, below h v x -> refers h x y -> below h v y.
Proof. intros h v. apply part_closed. Qed.
Lemma below_self : forall h v, seen (below h v) v.
Proof. intros h v x ->. exists x. split; [left; reflexivity | apply rt_refl]. Qed.
Lemma below_context : forall h v, seen (below h v) c.
Proof. intros h v x Q. exists x. split; [right; exact Q | apply rt_refl]. Qed.
Lemma asked_context : forall r, c = PRef r -> asked c r.
Proof. intros r Q. exact Q. Qed.

(** What is looked at when the target of the policy is checked *)
Definition at_target (h : heap) (b : nat) : Prop :=
  b = a \/ exists t, get_attr h a "target" = Ok t /\ below h t b.

Lemma ev_target : forall h, exists r, ev O h (at_target h) (asked c) (l_check_target O c (PRef a)) r.
Proof.
  intro h. assert (G : ev O h (at_target h) (asked c) (l_attr (PRef a) "target") (get_attr h a "target")).
  { apply ev_get. left. reflexivity. }
  unfold l_check_target. destruct (get_attr h a "target") as [t|e] eqn:T.
  - assert (X : exists r, ev O h (at_target h) (asked c) (l_target_match O c t) r).
    { eexists. refine (ev_transfer O h (below h t) _ h _ (keeps_self _ _ _ _) _ _ _ _
        (ev_sections O h (below h t) (asked c) (below_closed h t) c (below_context h t) asked_context t (below_self h t) _ _)).
      intros b B. right. exists t. split; [exact T | exact B]. }
    destruct X as (r & X).
    destruct t as [[]| | | | | |];
      try (eexists; eapply ev_bind; [exact G|]; cbn beta iota; eapply ev_bind; [exact G|]; exact X).
    eexists. eapply ev_bind; [exact G|]. apply ev_done.
  - eexists. eapply ev_bind; [exact G|]. apply ev_done.
Qed.

Lemma at_target_own : forall h h' b, own_list h a c l -> later h h' -> at_target h b -> b <> l /\ part_of h (PRef a) c b.
Proof.
  intros h h' b W L [->|(t & T & B)]; [|exact (own_target h t b W T B)]. split.
  - intros ->. destruct L as ((ty & items & more & N & _) & _). destruct W as ([(attrs & N' & _)|(attrs & N' & _)] & _); congruence.
  - exists a. split; [left; reflexivity | apply rt_refl].
Qed.

(** A combining algorithm is a loop over the list, with an answer after it *)
Definition looping (comb : pval -> LT decision) : Prop :=
  exists (A : Type) (s0 : A) (body : A -> pval -> LT (A * bool)) (fin : A -> LT decision),
    comb (PRef l) = lbind (LLoop l 0 s0 body) fin /\ (forall s, exists r, fin s = LDone r) /\
    (forall h s v, exists r, ev O h (below h v) (asked c) (body s v) r).

Lemma form_rules : forall x f, (forall h v, exists r, ev O h (below h v) (asked c) (f v) r) ->
  looping (l_combine_rules x f).
Proof.
  intros x f Hf.
  destruct x; do 4 eexists; (split; [reflexivity|]); split.
  1,3,5: repeat match goal with |- forall _, _ => intros [[[[] []] []] []] || intros [] end; eexists; reflexivity.
  - intros h [[[e p] q] o] v. destruct (Hf h v) as ([[]|e'] & X);
      try (eexists; eapply ev_bind; [exact X|]; apply ev_done).
    eexists; eapply ev_bind; [exact X|]. cbn beta iota. eapply ev_lbind; [|intros; apply ev_done].
    apply ev_is_deny; [apply below_closed | apply below_self].
  - intros h [[[e p] q] o] v. destruct (Hf h v) as ([[]|e'] & X);
      try (eexists; eapply ev_bind; [exact X|]; apply ev_done).
    eexists; eapply ev_bind; [exact X|]. cbn beta iota. eapply ev_lbind; [|intros; apply ev_done].
    apply ev_is_permit; [apply below_closed | apply below_self].
  - intros h o v. destruct (Hf h v) as ([[]|e'] & X);
      (eexists; eapply ev_bind; [exact X|]; apply ev_done).
Qed.
Lemma form_policies : forall x f, (forall h v, exists r, ev O h (below h v) (asked c) (f v) r) ->
  looping (l_combine_policies x f).
Proof.
  intros x f Hf.
  destruct x; do 4 eexists; (split; [reflexivity|]); split.
  1: intros [[] []]; eexists; reflexivity.
  2: intros [[[] []] []]; eexists; reflexivity.
  3: intros []; eexists; reflexivity.
  - intros h [q o] v. destruct (Hf h v) as ([[]|e'] & X);
      (eexists; eapply ev_bind; [exact X|]; apply ev_done).
  - intros h [[e q] o] v. destruct (Hf h v) as ([[]|e'] & X);
      (eexists; eapply ev_bind; [exact X|]; apply ev_done).
  - intros h o v. destruct (Hf h v) as ([[]|e'] & X);
      (eexists; eapply ev_bind; [exact X|]; apply ev_done).
Qed.

Lemma pairs_app : forall hs1 hs2, ForallOrdPairs later (hs1 ++ hs2) -> ForallOrdPairs later hs2.
Proof. induction hs1 as [|x hs1 IH]; intros hs2 P; [exact P|]. cbn in P. inversion P; subst; auto. Qed.

Section Body.
Variable h1 : heap.
Hypothesis W1 : own_list h1 a c l.
Variables algname listname : string.
Variable comb : comb_alg -> pval -> LT decision.
Hypothesis Hl : get_attr h1 a listname = Ok (PRef l).
Hypothesis Hcomb : forall x, looping (comb x).

Definition inner : LT decision :=
  let+ m := l_check_target O c (PRef a) in
  if negb m then ret NotApplicable
  else
    let+ alg := l_get a algname in
    match alg with
    | PAlg x => let+ rules := l_get a listname in comb x rules
    | _ => raise EAttributeError
    end.

(** The evaluation with the objects at some moment *)
Lemma inner_run : forall hs d, Forall (later h1) hs -> ForallOrdPairs later hs -> Forall (fun h => own_list h a c l) hs ->
  lrun O hs inner = LDone d ->
  exists h, (h = h1 \/ In h hs) /\ ev O h (fun _ => True) (asked c) inner d.
Proof.
  intros hs d L P W Q.
  assert (Step : forall A (t : LT A) r, ev O h1 (at_target h1) (asked c) t r ->
    (forall h, h = h1 \/ later h1 h -> ev O h (fun _ => True) (asked c) t r) /\
    (forall hs' d', (forall h, In h hs' -> later h1 h) -> lrun O hs' t = LDone d' -> d' = r)).
  { intros A t r E. assert (K : forall h, h = h1 \/ later h1 h -> keeps O h1 (at_target h1) (asked c) h).
    { intros h [->|Lh]; [apply keeps_self|]. apply keeps_below; [exact Lh|]. intros b. exact (at_target_own h1 h b W1 Lh). }
    split.
    - intros h Hh. refine (ev_transfer O h1 _ _ h _ (K h Hh) _ _ _ _ E). intros; exact I.
    - intros hs' d' Hs X. refine (ev_result O h1 _ _ hs' _ _ _ _ _ E X). rewrite Forall_forall. intros h Ih.
      apply K. right. exact (Hs h Ih). }
  rewrite Forall_forall in L, W.
  assert (Aa : at_target h1 a) by (left; reflexivity).
  destruct (ev_target h1) as (r1 & E1).
  destruct (Step _ _ _ E1) as (T1 & F1).
  destruct (Step _ _ _ (ev_get O h1 (at_target h1) (asked c) a algname Aa)) as (T2 & F2).
  destruct (Step _ _ _ (ev_get O h1 (at_target h1) (asked c) a listname Aa)) as (T3 & F3).
  unfold inner in Q. apply run_bind in Q. destruct Q as (hsA & hB & hsC & r & -> & X & Y).
  assert (R1 : r = r1) by (apply (F1 hsA); [intros h Ih; apply L, in_or_app; left; exact Ih | exact X]). subst r.
  assert (Now : forall t r0, (ev O h1 (fun _ => True) (asked c) inner r0) -> t = LDone r0 ->
    lrun O hsC t = LDone d ->
    exists h, (h = h1 \/ In h (hsA ++ hB :: hsC)) /\ ev O h (fun _ => True) (asked c) inner d).
  { intros t r0 E -> Q. rewrite run_done in Q. injection Q as ->. exists h1. split; [left; reflexivity | exact E]. }
  destruct r1 as [m|e]; cbn beta iota in Y.
  2:{ refine (Now _ _ _ eq_refl Y). eapply ev_bind; [apply T1; left; reflexivity|]. apply ev_done. }
  destruct (negb m) eqn:M.
  1:{ refine (Now _ _ _ eq_refl Y). eapply ev_bind; [apply T1; left; reflexivity|]. cbn beta iota. rewrite M. apply ev_done. }
  clear Now. apply run_bind in Y. destruct Y as (hsD & hE & hsF & r2 & -> & X2 & Y).
  assert (R2 : r2 = get_attr h1 a algname).
  { apply (F2 hsD); [|exact X2]. intros h Ih. apply L. apply in_or_app; right; right. apply in_or_app; left; exact Ih. }
  subst r2.
  assert (Now : forall t r0, (ev O h1 (fun _ => True) (asked c) inner r0) -> t = LDone r0 ->
    lrun O hsF t = LDone d ->
    exists h, (h = h1 \/ In h (hsA ++ hB :: hsD ++ hE :: hsF)) /\ ev O h (fun _ => True) (asked c) inner d).
  { intros t r0 E -> Q. rewrite run_done in Q. injection Q as ->. exists h1. split; [left; reflexivity | exact E]. }
  destruct (get_attr h1 a algname) as [alg|e] eqn:GA; cbn beta iota in Y.
  2:{ refine (Now _ _ _ eq_refl Y). eapply ev_bind; [apply T1; left; reflexivity|]. cbn beta iota. rewrite M.
      eapply ev_bind; [apply T2; left; reflexivity|]. apply ev_done. }
  destruct alg as [| | |x| | |]; try (refine (Now _ _ _ eq_refl Y); eapply ev_bind; [apply T1; left; reflexivity|]; cbn beta iota;
      rewrite M; eapply ev_bind; [apply T2; left; reflexivity|]; apply ev_done).
  clear Now. apply run_bind in Y. destruct Y as (hsG & hH & hsI & r3 & -> & X3 & Y).
  assert (R3 : r3 = get_attr h1 a listname).
  { apply (F3 hsG); [|exact X3]. intros h Ih. apply L. apply in_or_app; right; right. apply in_or_app; right; right.
    apply in_or_app; left; exact Ih. }
  subst r3. rewrite Hl in *. cbn beta iota in Y.
  destruct (Hcomb x) as (A & s0 & body & fin & Form & Fin & Hb). rewrite Form in Y.
  apply run_bind in Y. destruct Y as (hsJ & hK & hsL & r4 & -> & X4 & Y).
  set (pre := hsA ++ hB :: hsD ++ hE :: hsG ++ hH :: []).
  assert (Q : hsA ++ hB :: hsD ++ hE :: hsG ++ hH :: hsJ ++ hK :: hsL = pre ++ hsJ ++ hK :: hsL).
  { unfold pre. rewrite <- !app_assoc. cbn. rewrite <- !app_assoc. cbn. rewrite <- !app_assoc. reflexivity. }
  rewrite Q in *. clear Q.
  assert (PJ : ForallOrdPairs later hsJ).
  { apply pairs_app in P. clear - P. induction hsJ as [|x hsJ IH]; constructor; cbn in P; inversion P; subst; auto.
    rewrite Forall_app in H1. apply H1. }
  destruct (loop_run A body Hb (length hsJ) hsJ (le_n _) 0 s0 r4 PJ) as (h & Ih & E); [|exact X4|].
  { rewrite Forall_forall. intros h Ih. apply W. apply in_or_app; right; apply in_or_app; left; exact Ih. }
  assert (Lh : later h1 h) by (apply L, in_or_app; right; apply in_or_app; left; exact Ih).
  exists h. split; [right; apply in_or_app; right; apply in_or_app; left; exact Ih|].
  eapply ev_bind; [apply T1; right; exact Lh|]. cbn beta iota. rewrite M.
  eapply ev_bind; [apply T2; right; exact Lh|]. cbn beta iota.
  eapply ev_bind; [apply T3; right; exact Lh|]. cbn beta iota. rewrite Form.
  eapply ev_bind; [exact E|]. destruct r4 as [s|e]; cbn beta iota in Y |- *.
  - destruct (Fin s) as (r5 & F5). rewrite F5, run_done in Y. injection Y as ->. rewrite F5. apply ev_done.
  - rewrite run_done in Y. injection Y as ->. apply ev_done.
Qed.
End Body.

Lemma growing_run : forall n hs d, hs <> [] -> ForallOrdPairs later hs -> Forall (fun h => own_list h a c l) hs ->
  lrun O hs (l_policy_eval O n c (PRef a)) = LDone d ->
  exists h, In h hs /\ d = o_policy_eval O h n c (PRef a).
Proof.
  intros n hs d NE P W Q.
  cut (exists h, In h hs /\ ev O h (fun _ => True) (asked c) (l_policy_eval O n c (PRef a)) d).
  { intros (h & Ih & E). exists h. split; [exact Ih|].
    refine (ev_det O h _ _ _ _ _ _ E _).
    refine (ev_transfer O h _ _ h _ (keeps_self _ _ _ _) _ _ _ _ (ev_whole O h n c (PRef a))). intros; exact I. }
  destruct hs as [|h1 hs]; [congruence|]. destruct n as [|n].
  { cbn [l_policy_eval] in Q. unfold raise in Q. rewrite run_done in Q. injection Q as <-. exists h1.
    split; [left; reflexivity | apply ev_done]. }
  inversion P as [|? ? P1 P']; subst. inversion W as [|? ? W1 W']; subst.
  rewrite run_cons in Q. cbn [l_policy_eval lstep] in Q.
  assert (Sa : forall h, h = h1 \/ In h hs -> nth_error h a = nth_error h1 a).
  { intros h [->|Ih]; [reflexivity|]. rewrite Forall_forall in P1. pose proof (P1 h Ih) as Lh.
    pose proof (at_target_own h1 h a W1 Lh (or_introl eq_refl)) as (Na & Pa). destruct Lh as (_ & K & _). exact (K a Pa Na). }
  assert (Close : forall t, lrun O hs (l_catch t) = LDone d ->
    (forall hs' d', Forall (later h1) hs' -> ForallOrdPairs later hs' -> Forall (fun h => own_list h a c l) hs' ->
       lrun O hs' t = LDone d' -> exists h, (h = h1 \/ In h hs') /\ ev O h (fun _ => True) (asked c) t d') ->
    exists h, (h = h1 \/ In h hs) /\ ev O h (fun _ => True) (asked c) (l_catch t) d).
  { intros t X Y. apply run_bind in X. destruct X as (hs1 & hx & hs2 & r & -> & X & Z).
    rewrite run_done in Z. injection Z as <-.
    destruct (Y hs1 r) as (h & Ih & E).
    - rewrite Forall_app in P1. apply P1.
    - clear - P'. induction hs1 as [|x hs1 IH]; constructor; cbn in P'; inversion P'; subst; auto.
      rewrite Forall_app in H1. apply H1.
    - rewrite Forall_app in W'. apply W'.
    - exact X.
    - exists h. split; [destruct Ih as [->|Ih]; [left; reflexivity | right; apply in_or_app; left; exact Ih]|].
      eapply ev_bind; [exact E|]. apply ev_done. }
  destruct (proj1 W1) as [(attrs & N & G)|(attrs & N & G)]; rewrite N in Q.
  - destruct (Close _ Q) as (h & Ih & E).
    { intros hs' d' L' P'' W'' X.
      apply (inner_run h1 W1 "ruleCombiningAlg" "rules" (fun x => l_combine_rules x (l_rule_eval O n c)) G); try assumption.
      intro x. apply form_rules. intros h v. eexists. apply ev_rule; [apply below_closed | apply below_context | apply asked_context | apply below_self]. }
    exists h. split; [destruct Ih as [->|Ih]; [left; reflexivity | right; exact Ih]|].
    cbn [l_policy_eval]. apply ev_look; [exact I|]. rewrite (Sa h Ih), N. exact E.
  - destruct (Close _ Q) as (h & Ih & E).
    { intros hs' d' L' P'' W'' X.
      apply (inner_run h1 W1 "policyCombiningAlg" "policies" (fun x => l_combine_policies x (l_policy_eval O n c)) G); try assumption.
      intro x. apply form_policies. intros h v. eexists. apply ev_policy; [apply below_closed | apply below_context | apply asked_context | apply below_self]. }
    exists h. split; [destruct Ih as [->|Ih]; [left; reflexivity | right; exact Ih]|].
    cbn [l_policy_eval]. apply ev_look; [exact I|]. rewrite (Sa h Ih), N. exact E.
Qed.
End Growing.
