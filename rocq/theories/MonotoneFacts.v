(** Proofs for C96. *)
From Coq Require Import Lia.
From Verif Require Import Eval FunFacts SpecEval SpecStandard SpecMonotone EvalFacts EvalFacts3 StandardFacts.

(** ** Values that grow *)

Inductive grows : pyval -> pyval -> Prop :=
| grows_same : forall v, grows v v
| grows_true : grows (PNat (NBool false)) (PNat (NBool true))
| grows_bag : forall et l l', incl l l' -> grows (PBag et l) (PBag et l').

Lemma grows_attr : forall a v, grows (PAttr a) v -> v = PAttr a.
Proof. intros a v H. inversion H; reflexivity. Qed.

Lemma grows_as_bool : forall v v' b, grows v v' -> as_bool v = Some b ->
  exists b', as_bool v' = Some b' /\ implb b b' = true.
Proof.
  intros v v' b H Hb. inversion H; subst.
  - exists b. split; [assumption|]. now destruct b.
  - injection Hb as <-. exists true. split; reflexivity.
  - discriminate.
Qed.

Lemma grows_and : forall args args' bs, Forall2 grows args args' ->
  and_check args = Ok bs ->
  exists bs', and_check args' = Ok bs' /\ implb (and_scan bs) (and_scan bs') = true.
Proof.
  intros args args' bs H. revert bs. induction H as [|v v' args args' Hv H IH]; intros bs; simpl.
  - intros [= <-]. exists []. split; reflexivity.
  - destruct (as_bool v) as [b|] eqn:Hb; [|discriminate].
    destruct (grows_as_bool v v' b Hv Hb) as (b' & -> & Hi).
    destruct (and_check args) as [bs0|e]; cbn [bind]; [|discriminate].
    intros [= <-]. destruct (IH bs0 eq_refl) as (bs' & -> & Hs). cbn [bind].
    exists (b' :: bs'). split; [reflexivity|]. simpl.
    destruct b, b'; simpl in *; try discriminate; try assumption; reflexivity.
Qed.

Lemma grows_attrs : forall l args, Forall2 grows (map PAttr l) args -> args = map PAttr l.
Proof.
  induction l as [|a l IH]; intros args H; inversion H; subst; [reflexivity|].
  simpl. f_equal; [now apply grows_attr|auto].
Qed.

(** Functions of attribute values only. *)
Lemma bag_loop_attrs : forall c args bag l, bag_loop c bag args = Ok l ->
  exists as_, args = map PAttr as_.
Proof.
  induction args as [|x args IH]; intros bag l H; simpl in H.
  - exists []. reflexivity.
  - destruct x as [|a| |]; try discriminate.
    destruct (av_isinstance a c); [|discriminate].
    destruct (IH _ _ H) as (as_ & ->). now exists (a :: as_).
Qed.

Lemma concat_rest_attrs : forall args l, concat_rest args = Ok l -> args = map PAttr l.
Proof.
  induction args as [|x args IH]; intros l H; simpl in H.
  - injection H as <-. reflexivity.
  - destruct x as [|a| |]; try discriminate.
    destruct (av_isinstance a StringAV); [|discriminate].
    destruct (concat_rest args) as [l0|] eqn:Hr; [|discriminate].
    injection H as <-. rewrite (IH l0 eq_refl). reflexivity.
Qed.

Definition of_values (f : fn) : bool :=
  match f with
  | FnEqual _ | FnMatch _ | FnBag _ | FnRegexp _ | FnConcat _ => true
  | _ => false
  end.

Lemma values_only : forall F f args v, of_values f = true ->
  fn_eval F f args = Ok v -> exists l, args = map PAttr l.
Proof.
  intros F f args v Hf H. destruct f; try discriminate Hf; cbn [fn_eval] in H.
  - unfold equal_eval in H. destruct args as [|x [|y [|]]]; try discriminate.
    destruct x as [|a| |]; try discriminate. destruct (av_isinstance a c); [|discriminate].
    destruct y as [|b| |]; try discriminate. now exists [a; b].
  - unfold match_eval in H. destruct args as [|x [|y [|]]]; try discriminate.
    destruct x as [|a| |]; try discriminate. destruct (av_isinstance a c); [|discriminate].
    destruct y as [|b| |]; try discriminate. now exists [a; b].
  - unfold bag_eval in H. destruct (bag_loop c [] args) as [l|] eqn:Hl; [|discriminate].
    exact (bag_loop_attrs c args [] l Hl).
  - unfold regexp_eval in H. destruct args as [|x [|y [|]]]; try discriminate.
    destruct x as [|a| |]; try discriminate. destruct (av_isinstance a c); [|discriminate].
    destruct y as [|b| |]; try discriminate. now exists [a; b].
  - unfold concat_eval in H. destruct args as [|x [|y rest]]; try discriminate.
    destruct x as [|a| |]; try discriminate. destruct (av_isinstance a c); [|discriminate].
    destruct (concat_rest (y :: rest)) as [l|] eqn:Hl; [|discriminate].
    rewrite (concat_rest_attrs _ _ Hl). now exists (a :: l).
Qed.

Lemma class_for_name : forall et c, opt_eqb class_eqb et (Some c) = true ->
  exists c1, et = Some c1 /\ ac_name c1 = ac_name c.
Proof.
  intros [c1|] c H; [|discriminate]. exists c1. split; [reflexivity|].
  simpl in H. unfold class_eqb in H. now apply String.eqb_eq.
Qed.

Lemma at_least_one_shape : forall F c args v, fn_eval F (FnAtLeastOne c) args = Ok v ->
  exists c1 c2 l1 l2, args = [PBag (Some c1) l1; PBag (Some c2) l2] /\
    ac_name c1 = ac_name c /\ ac_name c2 = ac_name c.
Proof.
  intros F c args v H. cbn [fn_eval] in H. unfold at_least_one_eval in H.
  destruct args as [|x [|y [|]]]; try discriminate.
  destruct x as [| |et1 l1|]; try discriminate.
  destruct (opt_eqb class_eqb et1 (Some c)) eqn:H1; [|discriminate].
  destruct y as [| |et2 l2|]; try discriminate.
  destruct (opt_eqb class_eqb et2 (Some c)) eqn:H2; [|discriminate].
  destruct (class_for_name _ _ H1) as (c1 & -> & N1).
  destruct (class_for_name _ _ H2) as (c2 & -> & N2).
  exists c1, c2, l1, l2. auto.
Qed.

Lemma grows_bag_inv : forall et l v, grows (PBag et l) v ->
  exists l', v = PBag et l' /\ incl l l'.
Proof.
  intros et l v H. inversion H; subst.
  - exists l. split; [reflexivity|apply incl_refl].
  - eauto.
Qed.

Lemma grows_fn : forall F f args args' v v', plain_function f = true ->
  Forall2 grows args args' ->
  fn_eval F f args = Ok v -> fn_eval F f args' = Ok v' -> grows v v'.
Proof.
  intros F f args args' v v' Hf Ha H H'.
  destruct (of_values f) eqn:Hv.
  { destruct (values_only F f args v Hv H) as (l & ->).
    rewrite (grows_attrs l args' Ha) in H'. rewrite H in H'. injection H' as <-. constructor. }
  destruct f; try discriminate Hv; try discriminate Hf.
  - (* and *)
    cbn [fn_eval] in H, H'. unfold and_eval in H, H'.
    destruct Ha as [|x y args args' Hx Ha].
    { rewrite H in H'. injection H' as <-. constructor. }
    assert (Ha' : Forall2 grows (x :: args) (y :: args')) by (constructor; assumption).
    destruct (and_check (x :: args)) as [bs|] eqn:Hb; [|discriminate].
    destruct (grows_and _ _ _ Ha' Hb) as (bs' & Hb' & Hi). rewrite Hb' in H'.
    cbn [bind] in H, H'. injection H as <-. injection H' as <-.
    unfold py_bool. destruct (and_scan bs), (and_scan bs'); try discriminate; constructor.
  - (* one and only *)
    cbn [fn_eval] in H, H'. unfold one_and_only_eval in H, H'.
    destruct Ha as [|x y args args' Hx Ha]; [discriminate|].
    destruct Ha as [|x2 y2 args args' Hx2 Ha]; [|discriminate].
    destruct x as [| |et l|]; try discriminate.
    destruct (grows_bag_inv _ _ _ Hx) as (l' & -> & Hi).
    destruct (opt_eqb class_eqb et (Some c)); [|discriminate].
    destruct l as [|a [|]]; try discriminate. destruct l' as [|b [|]]; try discriminate.
    injection H as <-. injection H' as <-.
    destruct (Hi a (or_introl eq_refl)) as [->|[]]. constructor.
  - (* at least one member of *)
    destruct (at_least_one_shape F c args v H) as (c1 & c2 & l1 & l2 & -> & N1 & N2).
    inversion Ha as [|x y xs ys Hx Ha1]; subst. inversion Ha1 as [|x2 y2 xs2 ys2 Hx2 Ha2]; subst.
    inversion Ha2; subst.
    destruct (grows_bag_inv _ _ _ Hx) as (l1' & -> & I1).
    destruct (grows_bag_inv _ _ _ Hx2) as (l2' & -> & I2).
    destruct (at_least_one_ok F c c1 c2 l1 l2 N1 N2) as (b & E1 & B1).
    destruct (at_least_one_ok F c c1 c2 l1' l2' N1 N2) as (b' & E2 & B2).
    rewrite E1 in H. rewrite E2 in H'. injection H as <-. injection H' as <-.
    destruct b, b'; try constructor.
    destruct (proj1 B1 eq_refl) as (v1 & v2 & V1 & V2 & V).
    assert (F2 : false = true); [|discriminate F2].
    apply B2. exists v1, v2. auto.
Qed.

(** ** Requests *)

Section Requests.
Variable E : env.
Variables r r' : request.
Hypothesis Hr : rq_ctxHandler r = None.
Hypothesis Hr' : rq_ctxHandler r' = None.
Hypothesis More : holds_more r r'.
Notation c := (CtxRequest r).
Notation c' := (CtxRequest r').

Lemma designator_grows : forall d v v', eval_designator E d c = Ok v ->
  eval_designator E d c' = Ok v' -> grows v v'.
Proof.
  intros d v v' H H'.
  destruct (section_attributes (dg_kind d) r) as [attrs|] eqn:Hs;
    [|rewrite eval_designator_no_section in H by assumption; discriminate].
  destruct (section_attributes (dg_kind d) r') as [attrs'|] eqn:Hs';
    [|rewrite eval_designator_no_section in H' by assumption; discriminate].
  rewrite (eval_designator_plain E d r attrs (fun _ => Hr) Hs) in H.
  rewrite (eval_designator_plain E d r' attrs' (fun _ => Hr') Hs') in H'.
  destruct (instances (class_for E (dg_dataType d)) (wanted d attrs)); [|discriminate].
  destruct (instances (class_for E (dg_dataType d)) (wanted d attrs')); [|discriminate].
  assert (I : incl (wanted d attrs) (wanted d attrs')).
  { intros x Hx.
    apply (requested_in d attrs _ x (wanted_requested d attrs)) in Hx.
    apply (requested_in d attrs' _ x (wanted_requested d attrs')).
    destruct Hx as (a & Ha & Hv & (A1 & A2 & A3) & A4).
    destruct (More (dg_kind d) (at_id a) (at_dataType a) (at_issuer a) x)
      as (l & a' & L & La & L1 & L2 & L3 & L4).
    - exists attrs, a. auto 10.
    - rewrite Hs' in L. injection L as <-. exists a'.
      split; [exact La|]. split; [exact L4|]. split; [|exact A4].
      split; [congruence|]. split; [congruence|].
      destruct A3 as [A3|A3]; [left; exact A3|right; congruence]. }
  unfold check_present in H, H'.
  revert H H'. generalize (wanted d attrs) (wanted d attrs') I.
  intros l l' Hi H H'.
  assert (v = PBag (class_for E (dg_dataType d)) l).
  { destruct l, (dg_mustBePresent d); simpl in H; congruence. }
  assert (v' = PBag (class_for E (dg_dataType d)) l').
  { destruct l', (dg_mustBePresent d); simpl in H'; congruence. }
  subst. now constructor.
Qed.

Lemma expr_grows : forall x v v', positive x = true ->
  eval_expr E c x = Ok v -> eval_expr E c' x = Ok v' -> grows v v'.
Proof.
  induction x as [i f args IH|a|d|s] using EvalFacts.expr_ind'; intros v v' Hp H H'.
  - cbn [eval_expr] in H, H'.
    destruct (mapM (eval_expr E c) args) as [vs|] eqn:Hv; [|discriminate].
    destruct (mapM (eval_expr E c') args) as [vs'|] eqn:Hv'; [|discriminate].
    cbn [bind] in H, H'. destruct f as [f|]; [|discriminate].
    cbn [positive] in Hp. apply andb_prop in Hp. destruct Hp as (Hf & Hp).
    refine (grows_fn (en_fenv E) f vs vs' v v' Hf _ H H').
    clear H H' v v'. revert vs vs' Hv Hv' Hp. induction IH as [|x args Hx IHl IHa];
      intros vs vs' Hv Hv' Hp.
    + injection Hv as <-. injection Hv' as <-. constructor.
    + simpl in Hv, Hv', Hp. apply andb_prop in Hp. destruct Hp as (Hp1 & Hp2).
      destruct (eval_expr E c x) as [w|] eqn:W; [|discriminate].
      destruct (eval_expr E c' x) as [w'|] eqn:W'; [|discriminate].
      cbn [bind] in Hv, Hv'.
      destruct (mapM (eval_expr E c) args) as [ws|] eqn:Ws; [|discriminate].
      destruct (mapM (eval_expr E c') args) as [ws'|] eqn:Ws'; [|discriminate].
      cbn [bind] in Hv, Hv'. injection Hv as <-. injection Hv' as <-.
      constructor; [exact (Hx w w' Hp1 eq_refl eq_refl)|].
      exact (IHa ws ws' eq_refl eq_refl Hp2).
  - injection H as <-. injection H' as <-. constructor.
  - exact (designator_grows d v v' H H').
  - discriminate.
Qed.

(** ** Targets *)

Lemma match_grows : forall m, mt_designator m <> None ->
  (exists et vs, retrieved E c' m = Ok (PBag et vs)) ->
  std_match E c m = Yes -> std_match E c' m = Yes.
Proof.
  intros m Hd (et' & vs' & H') H. unfold std_match in *.
  destruct (retrieved E c m) as [v|] eqn:Hv; [|discriminate].
  destruct v as [| |et vs|]; try discriminate.
  assert (I : incl vs vs').
  { unfold retrieved in Hv, H'. destruct (mt_designator m) as [d|]; [|congruence].
    pose proof (designator_grows d _ _ Hv H') as G.
    destruct (grows_bag_inv _ _ _ G) as (l & [= -> ->] & I). exact I. }
  rewrite H'. unfold some_of in H |- *.
  destruct (existsb is_yes (map (fun v => verdict_of (application E m v)) vs)) eqn:X.
  - apply existsb_exists in X. destruct X as (y & Hy & Y). apply in_map_iff in Hy.
    destruct Hy as (v & <- & Hy).
    rewrite (existsb_true is_yes _ (verdict_of (application E m v))); [reflexivity| |exact Y].
    apply in_map_iff. exists v. split; [reflexivity|auto].
  - destruct (existsb is_unknown _); discriminate.
Qed.

Lemma every_yes : forall l, every_of l = Yes <-> forall x, In x l -> x = Yes.
Proof.
  intros l. unfold every_of. split.
  - intros H x Hx. destruct (existsb is_no l) eqn:N; [discriminate|].
    destruct (existsb is_unknown l) eqn:U; [discriminate|].
    destruct x; [reflexivity| |].
    + rewrite (existsb_true is_no l No Hx eq_refl) in N. discriminate.
    + rewrite (existsb_true is_unknown l Unknown Hx eq_refl) in U. discriminate.
  - intros H. rewrite (existsb_false is_no), (existsb_false is_unknown); [reflexivity| |];
      intros x Hx; rewrite (H x Hx); reflexivity.
Qed.

Lemma some_yes : forall l, some_of l = Yes <-> In Yes l.
Proof.
  intros l. unfold some_of. destruct (existsb is_yes l) eqn:Y.
  - split; [intros _|reflexivity]. apply existsb_exists in Y. destruct Y as (x & Hx & X).
    destruct x; try discriminate. exact Hx.
  - split; [destruct (existsb is_unknown l); discriminate|].
    intros H. rewrite (existsb_true is_yes l Yes H eq_refl) in Y. discriminate.
Qed.

Definition fit (m : matchel) : Prop := mt_designator m <> None /\
  exists et vs, retrieved E c' m = Ok (PBag et vs).

Lemma child_grows : forall ms, (forall m, In m ms -> fit m) ->
  std_child E c ms = Yes -> std_child E c' ms = Yes.
Proof.
  intros ms Hm. unfold std_child. rewrite !every_yes. intros H x Hx.
  apply in_map_iff in Hx. destruct Hx as (m & <- & Hi). destruct (Hm m Hi) as (D & F).
  apply match_grows; auto. apply H. now apply in_map.
Qed.

Lemma section_grows : forall s, (forall m, In m (concat s) -> fit m) ->
  std_section E c s = Yes -> std_section E c' s = Yes.
Proof.
  intros s Hm H. unfold std_section in *. destruct s as [|ch s]; [reflexivity|].
  rewrite some_yes in *. apply in_map_iff in H. destruct H as (ms & H & Hi).
  apply in_map_iff. exists ms. split; [|exact Hi]. apply child_grows; [|exact H].
  intros m Hx. apply Hm. apply in_concat. eauto.
Qed.

Lemma target_grows : forall t,
  (forall t' m, t = Some t' -> In m (matches_of t') -> fit m) ->
  std_target E c t = Yes -> std_target E c' t = Yes.
Proof.
  intros [t|] Hm H; [|reflexivity]. specialize (Hm t). unfold std_target in *.
  cbv zeta in *.
  assert (All : forall s, In s [tg_subjects t; tg_resources t; tg_actions t; tg_environments t] ->
    std_section E c' s = Yes).
  { intros s Hs. apply section_grows.
    - intros m Hi. apply (Hm m eq_refl). unfold matches_of. rewrite !concat_app, !in_app_iff.
      destruct Hs as [<-|[<-|[<-|[<-|[]]]]]; auto.
    - apply (in_map (std_section E c)) in Hs. revert Hs H.
      generalize (map (std_section E c)
        [tg_subjects t; tg_resources t; tg_actions t; tg_environments t]).
      intros l Hs H. destruct (std_section E c s); [reflexivity| |].
      + destruct (existsb is_unknown l); [discriminate|].
        rewrite (existsb_true is_no l No Hs eq_refl) in H. discriminate.
      + rewrite (existsb_true is_unknown l Unknown Hs eq_refl) in H. discriminate. }
  rewrite (existsb_false is_unknown), (existsb_false is_no); [reflexivity| |];
    intros x Hx; apply in_map_iff in Hx; destruct Hx as (s & <- & Hs);
    rewrite (All s Hs); reflexivity.
Qed.

(** ** The evaluator's own target tests *)

Definition grown (b b' : bool) : Prop := b = true -> b' = true.

Lemma mapM_grown : forall {A} (f g : A -> res bool) l bs bs',
  (forall x b b', In x l -> f x = Ok b -> g x = Ok b' -> grown b b') ->
  mapM f l = Ok bs -> mapM g l = Ok bs' -> Forall2 grown bs bs'.
Proof.
  induction l as [|x l IH]; intros bs bs' H Hf Hg; simpl in Hf, Hg.
  - injection Hf as <-. injection Hg as <-. constructor.
  - destruct (f x) as [b|] eqn:F; [|discriminate]. destruct (g x) as [b'|] eqn:G; [|discriminate].
    cbn [bind] in Hf, Hg.
    destruct (mapM f l) as [cs|]; [|discriminate]. destruct (mapM g l) as [cs'|]; [|discriminate].
    cbn [bind] in Hf, Hg. injection Hf as <-. injection Hg as <-.
    constructor; [apply (H x); simpl; auto|].
    apply IH; auto. intros y c0 c0' Hy. apply H. now right.
Qed.

Lemma grown_all : forall bs bs', Forall2 grown bs bs' ->
  grown (forallb (fun b => b) bs) (forallb (fun b => b) bs').
Proof.
  induction 1 as [|b b' bs bs' Hb H IH]; intros X; [reflexivity|].
  simpl in *. apply andb_prop in X. destruct X as (X1 & X2). now rewrite Hb, IH.
Qed.

Lemma grown_some : forall bs bs', Forall2 grown bs bs' ->
  grown (existsb (fun b => b) bs) (existsb (fun b => b) bs').
Proof.
  induction 1 as [|b b' bs bs' Hb H IH]; intros X; [discriminate|].
  simpl in *. destruct b; [now rewrite Hb|]. rewrite (IH X). now destruct b'.
Qed.

Lemma mapM_incl : forall {A B} (f : A -> res B) l l' ys ys', incl l l' ->
  mapM f l = Ok ys -> mapM f l' = Ok ys' -> incl ys ys'.
Proof.
  intros A B f l l' ys ys' I H H'. intros y Hy.
  apply mapM_ok in H. apply mapM_ok in H'.
  assert (X : exists x, In x l /\ f x = Ok y).
  { clear -H Hy. induction H as [|x y0 l ys Hx H IH]; [destruct Hy|].
    destruct Hy as [<-|Hy]; [exists x; split; [now left|exact Hx]|].
    destruct (IH Hy) as (x' & Hx' & E'). exists x'. split; [now right|exact E']. }
  destruct X as (x & Hx & Ex). apply I in Hx.
  clear -H' Hx Ex. induction H' as [|x0 y0 l ys H0 H IH]; [destruct Hx|].
  destruct Hx as [->|Hx]; [left; congruence|right; auto].
Qed.

Lemma test_match_grows : forall m b b', mt_designator m <> None ->
  eval_match E c m = Ok b -> eval_match E c' m = Ok b' -> grown b b'.
Proof.
  intros m b b' Hd H H'. rewrite eval_match_eq in H, H'.
  destruct (retrieved E c m) as [v|] eqn:V; [|discriminate].
  destruct (retrieved E c' m) as [v'|] eqn:V'; [|discriminate].
  cbn [bind] in H, H'.
  destruct (retrieved_bag E c m v V) as (et & vs & ->).
  destruct (retrieved_bag E c' m v' V') as (et' & vs' & ->). cbn [bag_items] in H, H'.
  assert (I : incl vs vs').
  { unfold retrieved in V, V'. destruct (mt_designator m) as [d|]; [|congruence].
    pose proof (designator_grows d _ _ V V') as G.
    destruct (grows_bag_inv _ _ _ G) as (l & [= -> ->] & I). exact I. }
  destruct (mapM (application E m) vs) as [ws|] eqn:W; [|discriminate].
  destruct (mapM (application E m) vs') as [ws'|] eqn:W'; [|discriminate].
  cbn [bind] in H, H'. injection H as <-. injection H' as <-.
  pose proof (mapM_incl _ _ _ _ _ I W W') as J. intros X.
  apply existsb_exists in X. destruct X as (w & Hw & T).
  apply existsb_exists. exists w. auto.
Qed.

Lemma test_target_grows : forall t b b',
  (forall m, In m (matches_of t) -> mt_designator m <> None) ->
  target_match E c t = Ok b -> target_match E c' t = Ok b' -> grown b b'.
Proof.
  intros t b b' Hm H H'. unfold target_match in H, H'.
  destruct (mapM (match_section E c) _) as [bs|] eqn:B in H; [|discriminate].
  destruct (mapM (match_section E c') _) as [bs'|] eqn:B' in H'; [|discriminate].
  cbn [bind] in H, H'. injection H as <-. injection H' as <-.
  apply grown_all. refine (mapM_grown _ _ _ _ _ _ B B').
  intros s s1 s1' Hs S S'.
  assert (Hms : forall m, In m (concat s) -> mt_designator m <> None).
  { intros m Hi. apply Hm. unfold matches_of. rewrite !concat_app, !in_app_iff.
    destruct Hs as [<-|[<-|[<-|[<-|[]]]]]; auto. }
  clear -S S' Hms Hr Hr' More. unfold match_section in S, S'. destruct s as [|ch s].
  { intros _. now injection S'. }
  destruct (section_loop_mapM E c _ _ _ S) as (cs & C & ->).
  destruct (section_loop_mapM E c' _ _ _ S') as (cs' & C' & ->).
  cbn [existsb orb]. apply grown_some. refine (mapM_grown _ _ _ _ _ _ C C').
  intros ms k k' Hms1 K K'. unfold match_child in K, K'.
  destruct (mapM (eval_match E c) ms) as [ks|] eqn:Ks; [|discriminate].
  destruct (mapM (eval_match E c') ms) as [ks'|] eqn:Ks'; [|discriminate].
  cbn [bind] in K, K'. injection K as <-. injection K' as <-.
  apply grown_all. refine (mapM_grown _ _ _ _ _ _ Ks Ks').
  intros m q q' Hq. apply test_match_grows. apply Hms. apply in_concat. eauto.
Qed.

Definition dec (e : effect) : decision :=
  match e with EffPermit => Permit | EffDeny => Deny end.

Lemma rule_grows : forall e rl,
  (forall t' m, rl_target rl = Some t' -> In m (matches_of t') -> fit m) ->
  (forall x, rl_condition rl = Some (Some x) -> positive x = true /\
     exists b, eval_expr E c' x = Ok (PNat (NBool b))) ->
  std_rule E c rl = dec e -> std_rule E c' rl = dec e.
Proof.
  intros e rl Ht Hc H. unfold std_rule in *.
  destruct (std_target E c (rl_target rl)) eqn:T; try (destruct e; discriminate).
  rewrite (target_grows _ Ht T).
  destruct (std_condition E c (rl_condition rl)) eqn:C; try (destruct e; discriminate).
  assert (C' : std_condition E c' (rl_condition rl) = Yes); [|now rewrite C'].
  unfold std_condition in *. destruct (rl_condition rl) as [[x|]|]; [|discriminate|reflexivity].
  destruct (Hc x eq_refl) as (P & b & B). rewrite B.
  destruct (eval_expr E c x) as [v|] eqn:V; [|discriminate].
  pose proof (expr_grows x v _ P V B) as G.
  inversion G; subst; [exact C|discriminate C].
Qed.

(** ** Policies *)

(** All outcomes are [dec e] or NotApplicable *)
Definition ranged (e : effect) (d : decision) : Prop := d = dec e \/ d = NotApplicable.

Lemma ranged_first : forall e ds, (forall d, In d ds -> ranged e d) ->
  std_first ds = dec e <-> In (dec e) ds.
Proof.
  intros e ds. induction ds as [|d ds IH]; intros H.
  - split; [destruct e; discriminate|intros []].
  - destruct (H d (or_introl eq_refl)) as [->| ->].
    + split; [intros _; left; reflexivity|intros _; now destruct e].
    + simpl. rewrite IH by (intros; apply H; now right). split; [auto|].
      intros [X|X]; [destruct e; discriminate|exact X].
Qed.

Lemma first_in : forall d ds, std_first ds = d -> d <> NotApplicable -> In d ds.
Proof.
  intros d. induction ds as [|x ds IH]; intros H N; simpl in H; [congruence|].
  destruct x; try (left; exact H). right. exact (IH H N).
Qed.

Lemma ranged_none : forall e ds (f : decision -> bool), (forall d, In d ds -> ranged e d) ->
  f (dec e) = false -> f NotApplicable = false -> existsb f ds = false.
Proof.
  intros e ds f H F1 F2. apply existsb_false. intros d Hd. destruct (H d Hd) as [-> | ->]; auto.
Qed.

Lemma ranged_rules : forall e alg os, (forall o, In o os -> ranged e (snd o)) ->
  In (dec e) (map snd os) -> std_rules alg os = dec e.
Proof.
  intros e alg os H Hi.
  assert (R : forall d, In d (map snd os) -> ranged e d).
  { intros d Hd. apply in_map_iff in Hd. destruct Hd as (o & <- & Ho). auto. }
  assert (D : existsb might_deny os = false).
  { apply existsb_false. intros [ef d] Ho. destruct (H _ Ho) as [X|X]; simpl in X; subst d;
      destruct e, ef as [[]|]; reflexivity. }
  assert (P : existsb might_permit os = false).
  { apply existsb_false. intros [ef d] Ho. destruct (H _ Ho) as [X|X]; simpl in X; subst d;
      destruct e, ef as [[]|]; reflexivity. }
  destruct alg; cbn [std_rules].
  - rewrite D. destruct e.
    + rewrite (ranged_none EffPermit _ is_deny R eq_refl eq_refl).
      now rewrite (existsb_true is_permit _ _ Hi eq_refl).
    + now rewrite (existsb_true is_deny _ _ Hi eq_refl).
  - rewrite P. destruct e.
    + now rewrite (existsb_true is_permit _ _ Hi eq_refl).
    + rewrite (ranged_none EffDeny _ is_permit R eq_refl eq_refl).
      now rewrite (existsb_true is_deny _ _ Hi eq_refl).
  - now apply ranged_first.
Qed.

Lemma ranged_policies : forall e alg ds, (forall d, In d ds -> ranged e d) ->
  In (dec e) ds -> std_policies alg ds = dec e.
Proof.
  intros e alg ds R Hi. destruct alg; cbn [std_policies].
  - destruct e.
    + rewrite (ranged_none EffPermit _ is_deny R eq_refl eq_refl).
      rewrite (ranged_none EffPermit _ is_indeterminate R eq_refl eq_refl).
      now rewrite (existsb_true is_permit _ _ Hi eq_refl).
    + now rewrite (existsb_true is_deny _ _ Hi eq_refl).
  - destruct e.
    + now rewrite (existsb_true is_permit _ _ Hi eq_refl).
    + rewrite (ranged_none EffDeny _ is_permit R eq_refl eq_refl).
      now rewrite (existsb_true is_deny _ _ Hi eq_refl).
  - now apply ranged_first.
Qed.

Lemma rules_in : forall e alg os, std_rules alg os = dec e -> In (dec e) (map snd os).
Proof.
  intros e alg os H.
  assert (P : existsb is_permit (map snd os) = true -> In Permit (map snd os)).
  { intros X. apply existsb_exists in X. destruct X as (d & Hd & D). now destruct d. }
  assert (D : existsb is_deny (map snd os) = true -> In Deny (map snd os)).
  { intros X. apply existsb_exists in X. destruct X as (d & Hd & Y). now destruct d. }
  destruct alg; cbn [std_rules] in H.
  - destruct (existsb is_deny (map snd os)); [destruct e; [discriminate|auto]|].
    destruct (existsb might_deny os); [destruct e; discriminate|].
    destruct (existsb is_permit (map snd os)); [destruct e; [auto|discriminate]|].
    destruct (existsb is_indeterminate (map snd os)); destruct e; discriminate.
  - destruct (existsb is_permit (map snd os)); [destruct e; [auto|discriminate]|].
    destruct (existsb might_permit os); [destruct e; discriminate|].
    destruct (existsb is_deny (map snd os)); [destruct e; [discriminate|auto]|].
    destruct (existsb is_indeterminate (map snd os)); destruct e; discriminate.
  - apply first_in; [exact H|]. destruct e; discriminate.
Qed.

Lemma policies_in : forall e alg ds, e = EffPermit \/ (forall d, In d ds -> ranged e d) ->
  std_policies alg ds = dec e -> In (dec e) ds.
Proof.
  intros e alg ds He H.
  assert (P : existsb is_permit ds = true -> In Permit ds).
  { intros X. apply existsb_exists in X. destruct X as (d & Hd & D). now destruct d. }
  assert (D : existsb is_deny ds = true -> In Deny ds).
  { intros X. apply existsb_exists in X. destruct X as (d & Hd & Y). now destruct d. }
  destruct alg; cbn [std_policies] in H.
  - destruct (existsb is_deny ds) eqn:X; [destruct e; [discriminate|auto]|].
    destruct (existsb is_indeterminate ds) eqn:Y; cbn [orb] in H.
    + destruct He as [-> | R]; [discriminate|].
      rewrite (ranged_none e ds is_indeterminate R) in Y; [discriminate| |reflexivity].
      now destruct e.
    + destruct (existsb is_permit ds); destruct e; try discriminate; auto.
  - destruct (existsb is_permit ds); [destruct e; [auto|discriminate]|].
    destruct (existsb is_deny ds); [destruct e; [discriminate|auto]|].
    destruct (existsb is_indeterminate ds); destruct e; discriminate.
  - apply first_in; [exact H|]. destruct e; discriminate.
Qed.

(** Without errors, policies of one effect decide that effect or NotApplicable. *)
Lemma policies_ranged : forall e alg ds, (forall d, In d ds -> ranged e d) ->
  ranged e (std_policies alg ds).
Proof.
  intros e alg ds R. destruct alg; cbn [std_policies].
  - rewrite (ranged_none e _ is_indeterminate R) by now destruct e.
    destruct e.
    + rewrite (ranged_none EffPermit _ is_deny R) by reflexivity. cbn [orb].
      destruct (existsb is_permit ds); [left|right]; reflexivity.
    + destruct (existsb is_deny ds); [left; reflexivity|]. cbn [orb].
      rewrite (ranged_none EffDeny _ is_permit R) by reflexivity. right; reflexivity.
  - rewrite (ranged_none e _ is_indeterminate R) by now destruct e.
    destruct e.
    + rewrite (ranged_none EffPermit _ is_deny R) by reflexivity.
      destruct (existsb is_permit ds); [left|right]; reflexivity.
    + rewrite (ranged_none EffDeny _ is_permit R) by reflexivity.
      destruct (existsb is_deny ds); [left|right]; reflexivity.
  - induction ds as [|d ds IH]; [right; reflexivity|].
    destruct (R d (or_introl eq_refl)) as [->| ->].
    + left. now destruct e.
    + apply IH. intros; apply R; now right.
Qed.

Lemma rules_ranged : forall e alg os, (forall o, In o os -> ranged e (snd o)) ->
  ranged e (std_rules alg os).
Proof.
  intros e alg os H.
  destruct (in_dec (fun a b : decision => ltac:(decide equality)) (dec e) (map snd os)) as [I|N].
  - left. now apply ranged_rules.
  - right. assert (Z : forall d, In d (map snd os) -> d = NotApplicable).
    { intros d Hd. pose proof Hd as Hd'. apply in_map_iff in Hd'. destruct Hd' as (o & <- & Ho).
      destruct (H o Ho) as [X|X]; [rewrite X in Hd; contradiction|exact X]. }
    assert (Zb : forall f : decision -> bool, f NotApplicable = false ->
      existsb f (map snd os) = false).
    { intros f F. apply existsb_false. intros d Hd. now rewrite (Z d Hd). }
    assert (D : existsb might_deny os = false /\ existsb might_permit os = false).
    { split; apply existsb_false; intros [ef d] Ho; apply (in_map snd) in Ho; simpl in Ho;
        rewrite (Z d Ho); now destruct ef as [[]|]. }
    destruct D as (D1 & D2). destruct alg; cbn [std_rules].
    + rewrite !Zb, D1 by reflexivity. reflexivity.
    + rewrite !Zb, D2 by reflexivity. reflexivity.
    + revert Z. generalize (map snd os). induction l as [|d l IH]; intros Z; [reflexivity|].
      rewrite (Z d (or_introl eq_refl)). simpl. apply IH. intros; apply Z; now right.
Qed.

End Requests.

Lemma rule_sound_ranged : forall E c e rl, 
  (exists d, rule_eval E c rl = Ok d /\ d <> Indeterminate) -> bool_rule E c rl ->
  rl_effect rl = Some e -> ranged e (std_rule E c rl).
Proof.
  intros E c e rl (d & Hd & Hn) Hb He.
  pose proof (rule_agrees E c rl d Hb Hd Hn) as A.
  destruct (rule_range E c rl) as [(R & X)|[(R & X)|[R|R]]].
  - left. rewrite R. rewrite He in X. injection X as ->. reflexivity.
  - left. rewrite R. rewrite He in X. injection X as ->. reflexivity.
  - congruence.
  - right. exact R.
Qed.

Lemma clean_boolean : forall E c p, without_errors E c p -> boolean_valued E c p.
Proof.
  intros E c p (Hm & Hc & _). split.
  - intros x v Hx H. destruct (Hc x Hx) as (b & B). exists b. congruence.
  - intros m et vs v w Hmw Hv Hi Hw. destruct (Hm m Hmw) as (et' & vs' & V & A).
    rewrite Hv in V. injection V as <- <-. destruct (A v Hi) as (b & B). exists b. congruence.
Qed.

Lemma clean_ranged : forall E c e p, without_errors E c p -> only e p ->
  ranged e (standard E c p).
Proof.
  intros E c e. induction p as [m t alg rules|m t alg ps IH] using policybase_ind'; intros Hw Ho.
  - pose proof Hw as (Hm & Hc & Hr & Ha). destruct alg as [alg|];
      [|exfalso; apply Ha; left; reflexivity].
    destruct (boolean_policy E c m t (Some alg) rules (clean_boolean _ _ _ Hw)) as (_ & Hb).
    assert (R : ranged e (std_rules alg (map (fun r => (rl_effect r, std_rule E c r)) rules))).
    { apply rules_ranged. intros o Hx. apply in_map_iff in Hx. destruct Hx as (r & <- & Hi).
      apply rule_sound_ranged; [|exact (Hb r Hi)|exact (Ho r Hi)].
      destruct (Hr r Hi) as (N1 & N2). apply sound_rule; auto.
      - intros t' m' Ht Hm'. apply Hm. right. exists r, t'. auto.
      - intros x Hx. apply Hc. exists r. auto. }
    destruct (clean_exact E c _ Hw) as (_ & N). cbn [standard] in N |- *.
    destruct (std_target E c t); cbn [targeted] in *; [exact R|right; reflexivity|congruence].
  - destruct (clean_exact E c _ Hw) as (_ & N). pose proof Hw as (_ & _ & _ & Ha).
    destruct alg as [alg|]; [|exfalso; apply Ha; left; reflexivity].
    assert (R : ranged e (std_policies alg (map (standard E c) ps))).
    { apply policies_ranged. intros d Hd. apply in_map_iff in Hd. destruct Hd as (p & <- & Hp).
      rewrite Forall_forall in IH. apply (IH p Hp).
      - exact (clean_set E c m t (Some alg) ps p Hw Hp).
      - intros r Hr. apply Ho. simpl. apply in_flat_map. eauto. }
    cbn [standard] in N |- *.
    destruct (std_target E c t); cbn [targeted] in *; [exact R|right; reflexivity|congruence].
Qed.

Lemma positive_set : forall m t alg ps p, positive_policy (PPolicySet m t alg ps) ->
  In p ps -> positive_policy p.
Proof.
  intros m t alg ps p (Hc & Hm) Hp. split.
  - intros x (r & Hr & Hx). apply Hc. exists r. split; [|exact Hx]. simpl.
    apply in_flat_map. eauto.
  - intros mt Hx. apply Hm. destruct Hx as [(t' & Ht & Hi)|(r & t' & Hr & Ht)].
    + left. exists t'. split; [|exact Hi]. simpl. apply in_or_app. right.
      apply in_flat_map. eauto.
    + right. exists r, t'. split; [|exact Ht]. simpl. apply in_flat_map. eauto.
Qed.

Lemma standard_grows : forall E r r' e, rq_ctxHandler r = None -> rq_ctxHandler r' = None ->
  holds_more r r' ->
  forall p, positive_policy p -> only e p ->
  (e = EffPermit \/ without_errors E (CtxRequest r) p) ->
  without_errors E (CtxRequest r') p ->
  standard E (CtxRequest r) p = dec e -> standard E (CtxRequest r') p = dec e.
Proof.
  intros E r r' e Hr Hr' More.
  induction p as [m t alg rules|m t alg ps IH] using policybase_ind'; intros Hp Ho He Hw H.
  - pose proof Hw as (Wm & Wc & Wr & Wa). pose proof Hp as (Pc & Pm).
    destruct alg as [alg|]; [|exfalso; apply Wa; left; reflexivity].
    assert (Fm : forall mt, match_within mt (PPolicy m t (Some alg) rules) -> fit E r' mt).
    { intros mt Hmt. split; [exact (Pm mt Hmt)|]. destruct (Wm mt Hmt) as (et & vs & V & _). eauto. }
    cbn [standard] in H |- *.
    destruct (std_target E (CtxRequest r) t) eqn:T; cbn [targeted] in H; try (destruct e; discriminate).
    rewrite (target_grows E r r' Hr Hr' More t); [cbn [targeted]| |exact T].
    2:{ intros t' mt -> Hi. apply Fm. left. exists t'. split; [left; reflexivity|exact Hi]. }
    destruct (boolean_policy E (CtxRequest r') m t (Some alg) rules (clean_boolean _ _ _ Hw)) as (_ & Hb).
    apply ranged_rules.
    + intros o Hx. apply in_map_iff in Hx. destruct Hx as (rl & <- & Hi).
      apply rule_sound_ranged; [|exact (Hb rl Hi)|exact (Ho rl Hi)].
      destruct (Wr rl Hi) as (N1 & N2). apply sound_rule; auto.
      * intros t' m' Ht Hm'. apply Wm. right. exists rl, t'. auto.
      * intros x Hx. apply Wc. exists rl. auto.
    + apply rules_in in H. rewrite map_map in H |- *. apply in_map_iff in H.
      destruct H as (rl & Hd & Hi). apply in_map_iff. exists rl. split; [|exact Hi].
      apply (rule_grows E r r' Hr Hr' More e rl); [| |exact Hd].
      * intros t' mt Ht Hm. apply Fm. right. exists rl, t'. auto.
      * intros x Hx. assert (X : condition_within x (PPolicy m t (Some alg) rules)) by (exists rl; auto).
        split; [exact (Pc x X)|exact (Wc x X)].
  - pose proof Hw as (Wm & Wc & Wr & Wa). pose proof Hp as (Pc & Pm).
    destruct alg as [alg|]; [|exfalso; apply Wa; left; reflexivity].
    assert (Oi : forall p, In p ps -> only e p).
    { intros p Hi rl Hx. apply Ho. simpl. apply in_flat_map. eauto. }
    cbn [standard] in H |- *.
    destruct (std_target E (CtxRequest r) t) eqn:T; cbn [targeted] in H; try (destruct e; discriminate).
    rewrite (target_grows E r r' Hr Hr' More t); [cbn [targeted]| |exact T].
    2:{ intros t' mt -> Hi.
        assert (X : match_within mt (PPolicySet m (Some t') (Some alg) ps)).
        { left. exists t'. split; [left; reflexivity|exact Hi]. }
        split; [exact (Pm mt X)|]. destruct (Wm mt X) as (et & vs & V & _). eauto. }
    apply policies_in in H.
    2:{ destruct He as [He|He]; [left; exact He|right]. intros d Hd. apply in_map_iff in Hd.
        destruct Hd as (p & <- & Hi). apply clean_ranged; [|exact (Oi p Hi)].
        exact (clean_set _ _ m t (Some alg) ps p He Hi). }
    apply ranged_policies.
    + intros d Hd. apply in_map_iff in Hd. destruct Hd as (p & <- & Hi).
      apply clean_ranged; [|exact (Oi p Hi)]. exact (clean_set _ _ m t (Some alg) ps p Hw Hi).
    + apply in_map_iff in H. destruct H as (p & Hd & Hi). apply in_map_iff.
      exists p. split; [|exact Hi]. rewrite Forall_forall in IH.
      apply (IH p Hi); [exact (positive_set m t (Some alg) ps p Hp Hi)|exact (Oi p Hi)| | |exact Hd].
      * destruct He as [He|He]; [left; exact He|right; exact (clean_set _ _ m t (Some alg) ps p He Hi)].
      * exact (clean_set _ _ m t (Some alg) ps p Hw Hi).
Qed.

(** ** Checking concrete policies *)

Definition all_matches (p : policybase) : list matchel :=
  flat_map matches_of (own_targets p) ++
  flat_map (fun r => match rl_target r with Some t => matches_of t | None => [] end)
    (rules_within p).

Lemma match_within_all : forall m p, match_within m p -> In m (all_matches p).
Proof.
  intros m p Hw. apply in_or_app.
  destruct Hw as [(t & Ht & Hi)|(r & t & Hr & Ht & Hi)].
  - left. apply in_flat_map. eauto.
  - right. apply in_flat_map. exists r. rewrite Ht. auto.
Qed.

Definition boolean_result (r : res pyval) : bool :=
  match r with Ok (PNat (NBool _)) => true | _ => false end.

Lemma boolean_result_ok : forall r, boolean_result r = true -> exists b, r = Ok (PNat (NBool b)).
Proof. intros [[[]| | |]|]; try discriminate. eauto. Qed.

Definition clean_check (E : env) (c : context) (p : policybase) : bool :=
  forallb (fun m => match retrieved E c m with
                    | Ok (PBag _ vs) => forallb (fun v => boolean_result (application E m v)) vs
                    | _ => false
                    end) (all_matches p) &&
  forallb (fun r => match rl_effect r, rl_condition r with
                    | None, _ | _, Some None => false
                    | _, Some (Some x) => boolean_result (eval_expr E c x)
                    | _, None => true
                    end) (rules_within p) &&
  forallb (fun a => match a with Some _ => true | None => false end) (algorithms_within p).

Lemma clean_check_ok : forall E c p, clean_check E c p = true -> without_errors E c p.
Proof.
  intros E c p H. unfold clean_check in H. apply andb_prop in H. destruct H as (H & Ha).
  apply andb_prop in H. destruct H as (Hm & Hr). rewrite forallb_forall in Hm, Hr, Ha.
  repeat split.
  - intros m Hw. specialize (Hm m (match_within_all m p Hw)). cbv beta in Hm.
    destruct (retrieved E c m) as [[| |et vs|]|]; try discriminate.
    exists et, vs. split; [reflexivity|]. rewrite forallb_forall in Hm.
    intros v Hv. apply boolean_result_ok. auto.
  - intros x (r & Hi & Hx). specialize (Hr r Hi). rewrite Hx in Hr.
    destruct (rl_effect r); [|discriminate]. now apply boolean_result_ok.
  - intros He. specialize (Hr r H). rewrite He in Hr. discriminate.
  - intros He. specialize (Hr r H). rewrite He in Hr. destruct (rl_effect r); discriminate.
  - intros Hi. now specialize (Ha None Hi).
Qed.

Definition positive_check (p : policybase) : bool :=
  forallb (fun m => match mt_designator m with Some _ => true | None => false end)
    (all_matches p) &&
  forallb (fun r => match rl_condition r with Some (Some x) => positive x | _ => true end)
    (rules_within p).

Lemma positive_check_ok : forall p, positive_check p = true -> positive_policy p.
Proof.
  intros p H. apply andb_prop in H. destruct H as (Hm & Hr). rewrite forallb_forall in Hm, Hr.
  split.
  - intros x (r & Hi & Hx). specialize (Hr r Hi). now rewrite Hx in Hr.
  - intros m Hw He. specialize (Hm m (match_within_all m p Hw)). now rewrite He in Hm.
Qed.
