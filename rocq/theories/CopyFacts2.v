(** Copies are independent of the originals; what cannot be copied; when copying
    succeeds. *)
From Verif Require Import ObjectsFacts SpecCopy CopyFacts.
From Coq Require Import Lia.
Import ListNotations.
Local Open Scope list_scope.

Section Facts.
Variable E : copy_env.

Lemma copied_ref_inv : forall R v b, copied E R v (PRef b) -> exists a, v = PRef a /\ R a b.
Proof. intros R v b H. inversion H; subst. eauto. Qed.
Lemma copied_attribute_ref_inv : forall R c k v b, copied_attribute E R c k v (PRef b) ->
  exists a, v = PRef a /\ R a b.
Proof.
  intros R c k v b [H1 H2].
  assert (N : ~ through_text E c k v).
  { intros T. destruct (H1 T) as [x [s [x' [_ [_ [_ X]]]]]]. discriminate. }
  apply (copied_ref_inv _ _ _ (H2 N)).
Qed.
Lemma copied_attribute_ref : forall R c k a w, copied_attribute E R c k (PRef a) w ->
  exists b, w = PRef b /\ R a b.
Proof.
  intros R c k a w [_ H].
  assert (N : ~ through_text E c k (PRef a)) by (intros [_ [_ [_ [x X]]]]; discriminate).
  specialize (H N). inversion H; subst. eauto.
Qed.

Lemma Forall2_in_r : forall {A B} (P : A -> B -> Prop) l r y, Forall2 P l r -> In y r ->
  exists x, In x l /\ P x y.
Proof.
  intros A B P l r y F. induction F; intros []; subst.
  - eexists; split; [now left | eassumption].
  - destruct (IHF H0) as [z [Z1 Z2]]. exists z. split; [now right | exact Z2].
Qed.
Lemma Forall2_in_l : forall {A B} (P : A -> B -> Prop) l r x, Forall2 P l r -> In x l ->
  exists y, In y r /\ P x y.
Proof.
  intros A B P l r x F. induction F; intros []; subst.
  - eexists; split; [now left | eassumption].
  - destruct (IHF H0) as [z [Z1 Z2]]. exists z. split; [now right | exact Z2].
Qed.

Definition kept_back (R : nat -> nat -> Prop) (c : ccls) (attrs attrs' : list (string * pval)) : Prop :=
  forall k w, dict_get k attrs' = Some w ->
  kept c k /\ exists v, dict_get k attrs = Some v /\ copied_attribute E R c k v w.
Definition kept_forth (R : nat -> nat -> Prop) (c : ccls) (attrs attrs' : list (string * pval)) : Prop :=
  forall k v, kept c k -> dict_get k attrs = Some v ->
  exists w, dict_get k attrs' = Some w /\ copied_attribute E R c k v w.
Lemma copy_of_inst_r : forall R o c attrs', copy_of E R o (CInst c attrs') ->
  exists attrs, o = CInst c attrs /\ saved c <> None /\ kept_forth R c attrs attrs' /\
  kept_back R c attrs attrs'.
Proof. intros R o c attrs' H. inversion H; subst. eauto 6. Qed.
Lemma copy_of_inst_l : forall R o' c attrs, copy_of E R (CInst c attrs) o' ->
  exists attrs', o' = CInst c attrs' /\ saved c <> None /\ kept_forth R c attrs attrs' /\
  kept_back R c attrs attrs'.
Proof. intros R o c attrs' H. inversion H; subst. eauto 6. Qed.
Lemma copy_of_list_r : forall R o t items', copy_of E R o (CList t items') ->
  exists items, o = CList t items /\ Forall2 (copied E R) items items'.
Proof. intros R o t items' H. inversion H; subst. eauto. Qed.
Lemma copy_of_list_l : forall R o' t items, copy_of E R (CList t items) o' ->
  exists items', o' = CList t items' /\ Forall2 (copied E R) items items'.
Proof. intros R o t items' H. inversion H; subst. eauto. Qed.

(** ** Independence *)

Lemma reaches_copy : forall h h' R, correspondence E h h' R ->
  forall b y, reaches h' b y -> forall a, R a b -> exists x, R x y.
Proof.
  intros h h' R C b y H. induction H as [b y P|b|b y z H1 IH1 H2 IH2]; intros a Rab.
  - destruct (co_copy _ _ _ _ C _ _ Rab) as [o [o' [H1 [H2 H3]]]]. destruct P as [x c attrs k y N _ G|x t items y N I].
    + rewrite N in H2. inversion H2; subst. destruct (copy_of_inst_r _ _ _ _ H3) as [attrs0 [_ [_ [_ Hb]]]].
      destruct (Hb _ _ G) as [_ [v [_ Cv]]]. destruct (copied_attribute_ref_inv _ _ _ _ _ Cv) as [p [_ Rp]].
      now exists p.
    + rewrite N in H2. inversion H2; subst. destruct (copy_of_list_r _ _ _ _ H3) as [items0 [_ F]].
      destruct (Forall2_in_r _ _ _ _ F I) as [v [_ Cv]]. destruct (copied_ref_inv _ _ _ Cv) as [p [_ Rp]].
      now exists p.
  - now exists a.
  - destruct (IH1 _ Rab) as [x Rx]. now apply (IH2 x).
Qed.

Lemma reaches_original : forall h new, closed h -> forall a x, reaches (h ++ new) a x ->
  a < length h -> x < length h.
Proof.
  intros h new C a x H. induction H as [a x P|a|a x z H1 IH1 H2 IH2]; intros L; auto.
  destruct P as [x c attrs k y N _ G|x t items y N I];
    rewrite nth_error_app1 in N by exact L; specialize (C _ _ N); cbn in C.
  - apply dict_get_in in G. eapply C; eauto.
  - now apply C.
Qed.

(** ** Refusal *)

Lemma belongs_copied : forall h h' R, correspondence E h h' R ->
  forall a x, belongs h a x -> forall b, R a b -> exists y, R x y.
Proof.
  intros h h' R C a x H. induction H as [a x P|a|a x z H1 IH1 H2 IH2]; intros b Rab.
  - destruct (co_copy _ _ _ _ C _ _ Rab) as [o [o' [H1 [H2 H3]]]].
    destruct P as [x c attrs k y N K G|x t items y N I]; rewrite N in H1; inversion H1; subst.
    + destruct (copy_of_inst_l _ _ _ _ H3) as [attrs0 [_ [_ [Hf _]]]]. destruct (Hf _ _ K G) as [w [_ Cw]]. destruct (copied_attribute_ref _ _ _ _ _ Cw) as [q [_ Rq]].
      now exists q.
    + destruct (copy_of_list_l _ _ _ _ H3) as [items0 [_ F]]. destruct (Forall2_in_l _ _ _ _ F I) as [w [_ Cw]]. inversion Cw; subst. eauto.
  - now exists b.
  - destruct (IH1 _ Rab) as [y Ry]. now apply (IH2 y).
Qed.

Lemma refused : forall hw n h a x c attrs, closed h -> a < length h -> belongs h a x ->
  nth_error h x = Some (CInst c attrs) -> saved c = None ->
  exists e, make_copy E hw n h (PRef a) = Raise e.
Proof.
  intros hw n h a x c attrs C L B N S.
  destruct (make_copy E hw n h (PRef a)) as [[h' w]|e] eqn:M; [|now exists e]. exfalso.
  destruct (make_copy_correspondence E _ _ _ _ _ _ C L M) as [_ [R [b [Co [Rab _]]]]].
  destruct (belongs_copied _ _ _ Co _ _ B _ Rab) as [y Ry].
  destruct (co_copy _ _ _ _ Co _ _ Ry) as [o [o' [H1 [H2 H3]]]].
  rewrite N in H1. inversion H1; subst. inversion H3; subst. congruence.
Qed.

(** With protocol 2 and later no list has items. *)
Lemma pickle2_lists : forall n h0, closed h0 -> forall h m v h' m' w,
  rebuild E Pickle2 n h m v = Ok (h', m', w) -> inv h0 h m -> inside h0 v ->
  forall x y, In (x, y) m' -> ~ In (x, y) m -> forall t items, nth_error h0 x = Some (CList t items) -> items = [].
Proof.
  assert (items_none : forall rec t h m items h' m', rebuild_items rec t h m items = Ok (h', m', []) ->
            items = [] /\ h' = h /\ m' = m).
  { intros rec t h m [|v items] h' m' H; cbn in H; [inversion H; auto|].
    binv H r Hr. destruct r as [[h1 m1] w].
    destruct (match t with Some t => item_is h1 w t | None => true end); [|discriminate].
    binv H r2 Hr2. destruct r2 as [[h2 m2] r']. discriminate. }
  induction n as [|n IH]; intros h0 C h m v h' m' w H I Hin x y In1 Nin t items N; [discriminate|].
  cbn [rebuild] in H.
  destruct v as [nv|a|f|al|k|k|x0]; try (inversion H; subst; contradiction);
    try (binv H k' Hk; inversion H; subst; contradiction).
  { destruct nv; try (inversion H; subst; contradiction).
    binv H k' Hk; inversion H; subst; contradiction. }
  pose proof (Hin a eq_refl) as La.
  destruct (memo_get a m) as [b|] eqn:M; [inversion H; subst; contradiction|].
  assert (Hh : nth_error h a = nth_error h0 a) by (apply grows_nth_lt; [apply I | exact La]).
  destruct (nth_error h a) as [[c attrs|t0 items0]|] eqn:Ha; [| |discriminate].
  - symmetry in Hh. pose proof (C _ _ Hh) as Cl. cbn in Cl.
    binv H st Hst. binv H r Hr. destruct r as [[h1 m1] st1]. binv H attrs1 Hs. inversion H; subst.
    assert (In0 : forall k v, In (k, SVal v) st -> inside h0 v).
    { intros k v Hv b ->. pose proof (setstate_saved _ _ _ _ Hs) as Sv.
      destruct (saved c) as [l|] eqn:L; [|congruence].
      destruct (getstate_inv _ _ _ _ _ L Hst) as [names [_ [_ [_ F]]]].
      clear -F Hv Cl. induction F as [|k0 p names st P F IHF]; [destruct Hv|].
      destruct Hv as [e|Hv]; [|auto]. subst p. destruct P as [_ [v [G [[_ X]|[_ [x [s [_ [_ X]]]]]]]]]; cbn in X.
      - inversion X; subst. apply dict_get_in in G. eapply Cl; eauto.
      - discriminate. }
    destruct (Nat.eq_dec x a) as [e|D]; [congruence|].
    assert (Nin' : ~ In (x, y) ((a, length h) :: m)) by (intros [e|X]; [congruence | contradiction]).
    assert (I' : inv h0 (h ++ [CInst c []]) ((a, length h) :: m)) by (now apply inv_enter).
    clear H Hst Hs. revert Hr In0 I' Nin'. generalize (h ++ [CInst c []]). generalize ((a, length h) :: m).
    clear Nin M Ha I. 
    revert st1. induction st as [|[k [v|s]] st IHst]; intros st1 m2 h2 Hr In0 I' Nin'; cbn in Hr.
    + inversion Hr; subst. contradiction.
    + binv Hr r Hr1. destruct r as [[h3 m3] w]. binv Hr r2 Hr2. destruct r2 as [[h4 m4] st4].
      inversion Hr; subst.
      destruct (rebuild_good _ Pickle2 h0 C n _ _ _ _ _ _ Hr1 I' (In0 k v (or_introl eq_refl))) as [S1 _].
      destruct (in_dec (fun p q : nat * nat => ltac:(decide equality; apply Nat.eq_dec)) (x, y) m3) as [I3|N3].
      * eapply (IH h0 C _ _ _ _ _ _ Hr1 I' (In0 k v (or_introl eq_refl))); eauto.
      * eapply IHst; [exact Hr2| |apply S1|exact N3]. intros k' v' X. apply (In0 k' v'). now right.
    + binv Hr r2 Hr2. destruct r2 as [[h4 m4] st4]. inversion Hr; subst.
      eapply IHst; [exact Hr2| |exact I'|exact Nin']. intros k' v' X. apply (In0 k' v'). now right.
  - binv H r Hr. destruct r as [[h1 m1] items1]. destruct items1; [|discriminate].
    inversion H; subst. apply items_none in Hr. destruct Hr as [-> [-> ->]].
    destruct In1 as [e|X]; [|contradiction]. inversion e; subst.
    rewrite <- Hh in N. inversion N; subst. reflexivity.
Qed.

Lemma refused_pickle2 : forall n h a x t items, closed h -> a < length h -> belongs h a x ->
  nth_error h x = Some (CList t items) -> items <> [] ->
  exists e, make_copy E Pickle2 n h (PRef a) = Raise e.
Proof.
  intros n h a x t items C L B N Ne.
  destruct (make_copy E Pickle2 n h (PRef a)) as [[h' w]|e] eqn:M; [|now exists e]. exfalso.
  destruct (make_copy_rebuild _ _ _ _ _ _ _ M) as [m Hm].
  destruct (rebuild_correspondence _ _ _ _ _ _ _ _ C L Hm) as [G [Co [b [Rab e]]]].
  destruct (belongs_copied _ _ _ Co _ _ B _ Rab) as [y Ry].
  assert (I : inv h h []).
  { split; [apply grows_refl|]. split; [constructor|]. split; [constructor|]. intros p q []. }
  assert (In0 : inside h (PRef a)) by (intros c X; inversion X; subst; exact L).
  apply Ne. eapply (pickle2_lists n h C _ _ _ _ _ _ Hm I In0 x y Ry); [intros [] | exact N].
Qed.

(** ** Recursion limit *)

Lemma rebuild_more : forall hw n n' h m v r, n <= n' -> rebuild E hw n h m v = Ok r ->
  rebuild E hw n' h m v = Ok r.
Proof.
  intros hw n. induction n as [|n IH]; intros n' h m v r L H; [discriminate|].
  destruct n' as [|n']; [lia|].
  assert (IH' : forall h m v r, rebuild E hw n h m v = Ok r -> rebuild E hw n' h m v = Ok r)
    by (intros; apply IH; [lia | assumption]).
  assert (St : forall st h m r, rebuild_state (rebuild E hw n) h m st = Ok r ->
                rebuild_state (rebuild E hw n') h m st = Ok r).
  { induction st as [|[k [w|s]] st IHs]; intros h1 m1 r1 H1; cbn in *; [exact H1| |].
    - binv H1 p Hp. rewrite (IH' _ _ _ _ Hp). cbn. destruct p as [[h2 m2] w2].
      binv H1 q Hq. rewrite (IHs _ _ _ Hq). exact H1.
    - binv H1 q Hq. rewrite (IHs _ _ _ Hq). exact H1. }
  assert (Si : forall t items h m r, rebuild_items (rebuild E hw n) t h m items = Ok r ->
                rebuild_items (rebuild E hw n') t h m items = Ok r).
  { intros t; induction items as [|w items IHs]; intros h1 m1 r1 H1; cbn in *; [exact H1|].
    binv H1 p Hp. rewrite (IH' _ _ _ _ Hp). cbn. destruct p as [[h2 m2] w2].
    destruct (match t with Some t => item_is h2 w2 t | None => true end); [|discriminate].
    binv H1 q Hq. rewrite (IHs _ _ _ Hq). exact H1. }
  cbn [rebuild] in *. destruct v as [nv|a|f|al|k|k|x0]; try exact H.
  destruct (memo_get a m); [exact H|].
  destruct (nth_error h a) as [[c attrs|t items]|]; [| |exact H].
  - binv H st Hst. rewrite Hst. cbn [bind]. binv H p Hp. rewrite (St _ _ _ _ Hp). exact H.
  - destruct hw; binv H p Hp; rewrite (Si _ _ _ _ _ Hp); exact H.
Qed.

Lemma dump_more : forall hw n n' h m v r, n <= n' -> dump E hw n h m v = Ok r ->
  dump E hw n' h m v = Ok r.
Proof.
  intros hw n. induction n as [|n IH]; intros n' h m v r L H; [discriminate|].
  destruct n' as [|n']; [lia|].
  assert (IH' : forall m v r, dump E hw n h m v = Ok r -> dump E hw n' h m v = Ok r)
    by (intros; apply IH; [lia | assumption]).
  assert (Sa : forall l m r, dump_all (dump E hw n h) m l = Ok r ->
                dump_all (dump E hw n' h) m l = Ok r).
  { induction l as [|w l IHs]; intros m1 r1 H1; cbn in *; [exact H1|].
    binv H1 p Hp. rewrite (IH' _ _ _ Hp). cbn. now apply IHs. }
  cbn [dump] in *. destruct v as [nv|a|f|al|k|k|x0]; try exact H.
  destruct (existsb (Nat.eqb a) m); [exact H|].
  destruct (nth_error h a) as [[c attrs|t items]|]; [| |exact H].
  - destruct (reducible hw c); [|exact H].
    binv H st Hst. rewrite Hst. cbn [bind]. destruct (importable E c); [|exact H]. now apply Sa.
  - destruct hw; try (now apply Sa). binv H p Hp. rewrite (Sa _ _ _ Hp). exact H.
Qed.

Lemma make_copy_more : forall hw n n' h v r, n <= n' -> make_copy E hw n h v = Ok r ->
  make_copy E hw n' h v = Ok r.
Proof.
  intros hw n n' h v r L H. destruct hw; cbn in *.
  - binv H p Hp. rewrite (rebuild_more _ _ _ _ _ _ _ L Hp). exact H.
  - binv H d Hd. rewrite (dump_more _ _ _ _ _ _ _ L Hd). cbn [bind]. binv H p Hp.
    rewrite (rebuild_more _ _ _ _ _ _ _ L Hp). exact H.
  - binv H d Hd. rewrite (dump_more _ _ _ _ _ _ _ L Hd). cbn [bind]. binv H p Hp.
    rewrite (rebuild_more _ _ _ _ _ _ _ L Hp). exact H.
Qed.

(** ** Success *)

Section Success.
Variable how : how.
Variable h0 : cheap.
Hypothesis C0 : closed h0.
Hypothesis OE : obliging E.
(** the objects that are visited *)
Variable P : nat -> Prop.
Hypothesis P_fit : forall x, P x -> exists o, nth_error h0 x = Some o /\ fit E how h0 o.
Hypothesis P_part : forall x y, P x -> part is_saved h0 x y -> P y.

Definition same_kind (o o' : cobject) : Prop :=
  match o, o' with
  | CInst c _, CInst c' _ => c = c'
  | CList t _, CList t' _ => t = t'
  | _, _ => False
  end.
Definition kinds (h : cheap) (m : memo) : Prop :=
  forall x y, rel m x y -> exists o o', nth_error h0 x = Some o /\ nth_error h y = Some o' /\ same_kind o o'.

Lemma kinds_step : forall h m h' m', step E h0 h m h' m' -> kinds h m -> kinds h' m'.
Proof.
  intros h m h' m' [G [[new [-> Hn]] _]] K x y R. apply in_app_or in R. destruct R as [R|R].
  - destruct (Hn x y R) as [_ [o [o' [H1 [H2 H3]]]]]. exists o, o'. split; [exact H1|]. split; [exact H2|].
    destruct H3; reflexivity.
  - destruct (K x y R) as [o [o' [H1 [H2 H3]]]]. exists o, o'. split; [exact H1|].
    split; [eapply grows_nth; eauto | exact H3].
Qed.
Lemma kinds_enter : forall h m a o o', kinds h m -> nth_error h0 a = Some o -> same_kind o o' ->
  kinds (h ++ [o']) ((a, length h) :: m).
Proof.
  intros h m a o o' K H S x y [e|R].
  - inversion e; subst. exists o, o'. split; [exact H|]. split; [|exact S].
    rewrite nth_error_app2, Nat.sub_diag; [reflexivity | lia].
  - destruct (K x y R) as [p [p' [H1 [H2 H3]]]]. exists p, p'. split; [exact H1|]. split; [|exact H3].
    eapply grows_nth; [apply grows_app | exact H2].
Qed.

Lemma cobject_is_kind : forall o o' t, same_kind o o' -> cobject_is o t = cobject_is o' t.
Proof.
  intros [c a|u i] [c' a'|u' i'] t H; cbn in H; try contradiction; subst.
  - destruct t as [t|]; [|reflexivity]. destruct c'; reflexivity.
  - reflexivity.
Qed.
Lemma item_is_copied : forall h m v w t, kinds h m -> copied E (rel m) v w ->
  item_is h0 v t = item_is h w t.
Proof.
  intros h m v w t K C. destruct C; try reflexivity.
  - destruct (K _ _ H) as [o [o' [H1 [H2 H3]]]]. cbn. rewrite H1, H2. now apply cobject_is_kind.
Qed.

Lemma typed_item_is : forall h v t, item_is h v t = true <-> typed_item h v t.
Proof.
  intros h v t. split.
  - destruct v as [nv|a|f|al|k|k|x]; cbn [item_is].
    2: { destruct (nth_error h a) as [[c attrs|u items]|] eqn:N; [| |discriminate].
      - destruct t as [t|].
        + assert (A : t = TAny -> typed_item h (PRef a) (EltType t)).
          { intros ->. apply ti_any. intros b [= <-]. congruence. }
          destruct c as [c|c| | | | | |d]; cbn [cobject_is]; destruct t; intros H; try discriminate H;
            try (apply A; reflexivity); cbn [object_is] in H;
            try (eapply ti_value; eassumption); try (eapply ti_effect; eassumption);
            try (eapply ti_expression; [eassumption|]; right; right; right; eexists; reflexivity).
          * apply pcls_eqb_eq in H. subst. eapply ti_class; eassumption.
          * destruct c; try discriminate H. eapply ti_designator; eassumption.
          * eapply ti_expression; [eassumption|]. destruct c; try discriminate H; eauto.
          * eapply ti_policy; [eassumption|]. destruct c; try discriminate H; auto.
        + destruct c; try discriminate. intros _. eapply ti_result; eassumption.
      - destruct t as [t|]; [|discriminate]. cbn [cobject_is]. destruct t; try discriminate; intros _.
        all: first [eapply ti_list; eassumption|apply ti_any; intros b [= <-]; congruence]. }
    all: destruct t as [t|]; [|discriminate]; destruct t; cbn [isinstance]; try discriminate;
      try (intros _; apply ti_any; intros b e; discriminate e); try (intros _; constructor).
    all: destruct nv; try discriminate; intros _; constructor.
  - intros H. destruct H; cbn [item_is isinstance];
      repeat match goal with N : nth_error h _ = Some _ |- _ => rewrite N; clear N end; try reflexivity.
    + destruct v as [nv|a|f|al|k|k|x]; cbn [item_is isinstance]; try (destruct nv; reflexivity); try reflexivity.
      destruct (nth_error h a) as [[[]|]|] eqn:N; try reflexivity. destruct (H a eq_refl N).
    + cbn. apply pcls_eqb_eq. reflexivity.
    + destruct H0 as [[k ->]|[->|[->|[k ->]]]]; reflexivity.
    + destruct H0 as [->| ->]; reflexivity.
Qed.

Lemma save_total : forall names attrs, (forall k, In k names -> dict_get k attrs <> None) ->
  exists st, save names attrs = Ok st.
Proof.
  induction names as [|k names IH]; intros attrs H; [now exists []|].
  destruct (IH attrs (fun k' I => H k' (or_intror I))) as [st Hst].
  assert (X : save (k :: names) attrs =
     (let* p := (let* v := slot attrs k in Ok (k, SVal v)) in let* r := save names attrs in Ok (p :: r)))
    by reflexivity.
  rewrite X, Hst. unfold slot.
  destruct (dict_get k attrs) as [v|] eqn:G; [|exfalso; apply (H k); [now left | exact G]].
  eexists; reflexivity.
Qed.

Lemma getstate_total : forall c attrs l, saved c = Some l ->
  (c = CCore KPdp \/ forall k, In k l -> dict_get k attrs <> None) ->
  exists st, getstate E c attrs = Ok st.
Proof.
  intros c attrs l S [->|H]; [eexists; reflexivity|].
  assert (two : forall n1 n2, (forall k, In k (n1 ++ n2) -> dict_get k attrs <> None) ->
     exists st, (let* d := save n1 attrs in let* s := save n2 attrs in Ok (d ++ s)) = Ok st).
  { intros n1 n2 A. destruct (save_total n1 attrs) as [d Hd]; [intros; apply A, in_or_app; now left|].
    destruct (save_total n2 attrs) as [s Hs]; [intros; apply A, in_or_app; now right|].
    rewrite Hd. cbn [bind]. rewrite Hs. eexists; reflexivity. }
  assert (ctx : context_getstate attrs = core_getstate attrs).
  { unfold context_getstate. destruct (core_getstate attrs) as [d|e]; [|reflexivity].
    cbn. now rewrite app_nil_r. }
  destruct c as [[]| | | | | | |]; unfold saved in S; try discriminate; injection S as <-;
    unfold getstate.
  - apply save_total, H.
  - unfold request_child_getstate. rewrite ctx. apply (two common). exact H.
  - change (forall k, In k (common ++ ["attributes"; "resourceContent"]%string) -> dict_get k attrs <> None) in H.
    unfold resource_getstate.
    destruct (two common ["attributes"%string]) as [d Hd].
    { intros k I. apply H. apply in_app_or in I. apply in_or_app. destruct I as [I|[I|[]]]; [now left|].
      right. now left. }
    unfold request_child_getstate. rewrite ctx. change (core_getstate attrs) with (save common attrs).
    rewrite Hd. cbn [bind]. unfold slot.
    destruct (dict_get "resourceContent" attrs) as [v|] eqn:G.
    2:{ exfalso. apply (H "resourceContent"%string); [|exact G]. apply in_or_app. right. right. now left. }
    cbn [bind]. destruct OE as [_ [_ [_ [_ [T _]]]]].
    unfold serialise_if_element. destruct v; try (eexists; reflexivity).
    destruct (ce_lxml E); [|eexists; reflexivity]. destruct (T x) as [s Hs]. rewrite Hs.
    eexists; reflexivity.
  - unfold request_child_getstate. rewrite ctx. apply (two common). exact H.
  - unfold request_child_getstate. rewrite ctx. apply (two common). exact H.
  - unfold request_getstate. rewrite ctx. apply (two common). exact H.
  - eexists; reflexivity.
  - change (forall k, In k (common ++ ["dataType"; "value"]%string) -> dict_get k attrs <> None) in H.
    unfold value_getstate, expression_getstate.
    destruct (two common ["dataType"%string]) as [d Hd].
    { intros k I. apply H. apply in_app_or in I. apply in_or_app. destruct I as [I|[I|[]]]; [now left|].
      right. now left. }
    change (core_getstate attrs) with (save common attrs). rewrite Hd. cbn [bind].
    destruct (save_total ["value"%string] attrs) as [s Hs].
    { intros k [<-|[]]. apply H. apply in_or_app. right. right. now left. }
    rewrite Hs. eexists; reflexivity.
  - apply save_total, H.
  - unfold response_getstate. rewrite ctx. apply (two common). exact H.
  - unfold result_getstate. rewrite ctx. apply (two common). exact H.
  - rewrite ctx. apply save_total, H.
  - rewrite ctx. apply save_total, H.
  - apply save_total, H.
Qed.

Lemma setstate_total : forall c st, saved c <> None -> exists attrs, setstate E c st = Ok attrs.
Proof.
  assert (T : forall st, exists attrs, setstate_slots E st = Ok attrs).
  { unfold setstate_slots. induction st as [|[k [v|s]] st [r Hr]]; [now exists []| |]; cbn.
    - rewrite Hr. eexists; reflexivity.
    - destruct OE as [_ [_ [_ [_ [_ Q]]]]]. destruct (Q s) as [x Hx]. rewrite Hx. cbn. rewrite Hr.
      eexists; reflexivity. }
  intros [[]| | | | | | |] st S; cbn in *; try congruence; try apply T; eexists; reflexivity.
Qed.

Lemma pigeon : forall (l : list nat) N, NoDup l -> (forall x, In x l -> x < N) -> length l <= N.
Proof.
  intros l N ND B. rewrite <- (seq_length N 0). apply NoDup_incl_length; [exact ND|].
  intros x I. apply in_seq. specialize (B x I). lia.
Qed.

Lemma memo_bound : forall h m a, inv h0 h m -> a < length h0 -> memo_get a m = None ->
  S (length m) <= length h0.
Proof.
  intros h m a [_ [N1 [_ B]]] La M.
  change (S (length m)) with (length ((a, 0) :: m)). rewrite <- (map_length fst).
  apply pigeon.
  - cbn. constructor; [now apply memo_get_none | exact N1].
  - intros x [<-|I]; [exact La|]. apply in_map_iff in I. destruct I as [[p q] [e I]]. cbn in e; subst.
    apply (B _ _ I).
Qed.

Definition expected (v : pval) : Prop := forall a, v = PRef a -> P a.
Lemma expected_inside : forall v, expected v -> inside h0 v.
Proof.
  intros v H a e. destruct (P_fit _ (H a e)) as [o [Ho _]]. apply nth_error_Some. congruence.
Qed.

(** the depth that is needed: two levels for each object that is not in the memo yet *)
Definition enough (n : nat) (m : memo) (v : pval) : Prop :=
  (2 * (length h0 - length m) + 2 <= n) \/
  (~ is_list h0 v /\ 2 * (length h0 - length m) + 1 <= n).

Definition succeeds (n : nat) : Prop :=
  forall h m v, inv h0 h m -> kinds h m -> expected v -> enough n m v ->
  exists h' m' w, rebuild E how n h m v = Ok (h', m', w).

Lemma state_succeeds : forall n, succeeds n -> forall st h m, inv h0 h m -> kinds h m ->
  (forall k v, In (k, SVal v) st -> expected v) -> 2 * (length h0 - length m) + 2 <= n ->
  exists h' m' st', rebuild_state (rebuild E how n) h m st = Ok (h', m', st').
Proof.
  intros n Hn st; induction st as [|[k [v|s]] st IH]; intros h m I K X L; cbn.
  - eauto.
  - assert (Xv : expected v) by (apply (X k v); now left).
    destruct (Hn h m v I K Xv (or_introl L)) as [h1 [m1 [w H1]]].
    rewrite H1. cbn [bind].
    destruct (rebuild_good _ _ _ C0 _ _ _ _ _ _ _ H1 I (expected_inside _ Xv)) as [S _].
    assert (L1 : length m <= length m1).
    { destruct S as [_ [[new [-> _]] _]]. rewrite app_length. lia. }
    destruct (IH h1 m1) as [h2 [m2 [st2 H2]]]; [apply S | eapply kinds_step; eauto
      | intros k' v' I'; apply (X k' v'); now right | lia|].
    rewrite H2. cbn [bind]. eauto.
  - destruct (IH h m I K) as [h2 [m2 [st2 H2]]]; [intros k' v' I'; apply (X k' v'); now right | lia|].
    rewrite H2. cbn [bind]. eauto.
Qed.

Lemma items_succeed : forall n t, succeeds n -> forall items h m, inv h0 h m -> kinds h m ->
  (forall v, In v items -> expected v /\ (forall N, length m <= length N -> enough n N v) /\
     match t with Some t => item_is h0 v t = true | None => True end) ->
  exists h' m' items', rebuild_items (rebuild E how n) t h m items = Ok (h', m', items').
Proof.
  intros n t Hn items; induction items as [|v items IH]; intros h m I K X; cbn.
  - eauto.
  - destruct (X v (or_introl eq_refl)) as [Xv [En Ty]].
    destruct (Hn h m v I K Xv (En m (le_n _))) as [h1 [m1 [w H1]]].
    rewrite H1. cbn [bind].
    destruct (rebuild_good _ _ _ C0 _ _ _ _ _ _ _ H1 I (expected_inside _ Xv)) as [S Cp].
    assert (K1 : kinds h1 m1) by (eapply kinds_step; eauto).
    assert (L1 : length m <= length m1).
    { destruct S as [_ [[new [-> _]] _]]. rewrite app_length. lia. }
    destruct (IH h1 m1) as [h2 [m2 [st2 H2]]]; [apply S | exact K1
      | intros v' I'; destruct (X v' (or_intror I')) as [A1 [A2 A3]]; split; [exact A1|]; split; 
          [intros N LN; apply A2; lia | exact A3]|].
    assert (Ty' : match t with Some t0 => item_is h1 w t0 | None => true end = true).
    { destruct t as [t|]; [|reflexivity]. rewrite <- (item_is_copied _ _ _ _ t K1 Cp). exact Ty. }
    rewrite Ty'. rewrite H2. cbn [bind]. eauto.
Qed.

Lemma rebuild_succeeds : forall n, succeeds n.
Proof.
  induction n as [|n IH]; intros h m v I K X En.
  { exfalso. destruct En as [H|[_ H]]; lia. }
  cbn [rebuild].
  destruct OE as [O1 [O2 [O3 [O4 _]]]].
  destruct v as [nv|a|f|al|k|k|x]; eauto.
  - destruct nv; eauto. destruct (O3 ty n0) as [k' Hk]. rewrite Hk. cbn [bind]. eauto.
  - destruct (memo_get a m) as [b|] eqn:M; [eauto|].
    pose proof (X a eq_refl) as Pa. destruct (P_fit _ Pa) as [o [Ho Fit]].
    assert (La : a < length h0) by (apply nth_error_Some; congruence).
    assert (Hh : nth_error h a = Some o).
    { rewrite (grows_nth_lt h0 h a); [exact Ho | apply I | exact La]. }
    pose proof (memo_bound _ _ _ I La M) as MB.
    rewrite Hh. destruct o as [c attrs|t items].
    + cbn in Fit. destruct Fit as [[l [Sv At]] _].
      destruct (getstate_total _ _ _ Sv At) as [st Hst]. rewrite Hst. cbn [bind].
      assert (Xs : forall k v, In (k, SVal v) st -> expected v).
      { intros k v Iv b ->.
        destruct (getstate_inv _ _ _ _ _ Sv Hst) as [names [_ [In1 [_ F]]]].
        apply (P_part a b Pa).
        assert (exists k', In k' l /\ dict_get k' attrs = Some (PRef b)) as [k' [Ik Gk]].
        { clear -F Iv In1. induction F as [|k0 p names st Q F IHF]; [destruct Iv|].
          destruct Iv as [e|Iv].
          - subst p. destruct Q as [_ [v [G [[_ Y]|[_ [x [s [_ [_ Y]]]]]]]]]; cbn in Y; [|discriminate].
            inversion Y; subst. exists k0. split; [apply In1; now left | exact G].
          - apply IHF; [exact Iv|]. intros k' Ik. apply In1. now right. }
        eapply part_attribute; eauto. exists l. auto. }
      assert (L2 : 2 * (length h0 - length ((a, length h) :: m)) + 2 <= n).
      { cbn [length]. destruct En as [En|[_ En]]; lia. }
      destruct (state_succeeds n IH st (h ++ [CInst c []]) ((a, length h) :: m)
                  (inv_enter _ _ _ _ _ I La M)
                  (kinds_enter _ _ _ _ (CInst c []) K Ho eq_refl) Xs L2) as [h1 [m1 [st1 H1]]].
      rewrite H1. cbn [bind].
      destruct (setstate_total c st1) as [attrs1 H2]; [congruence|]. rewrite H2. cbn [bind]. eauto.
    + clear O1 O2 O3 O4.
      assert (Xi : forall v, In v items -> expected v).
      { intros v Iv b ->. apply (P_part a b Pa). eapply part_item; eauto. }
      assert (Ls : is_list h0 (PRef a)) by (exists a, t, items; auto).
      assert (En2 : 2 * (length h0 - length m) + 2 <= S n) by (destruct En as [En|[NL _]]; [lia | contradiction]).
      cbn in Fit. assert (W : how = Deep \/ how = Pickle2 \/ how = Pickle01)
        by (clear; destruct how; auto).
      remember (rebuild E how n) as rb eqn:Rb.
      destruct W as [W|[W|W]]; rewrite W in Fit |- *; subst rb.
      * destruct (items_succeed n (Some t) IH items (h ++ [CList t []]) ((a, length h) :: m)
                  (inv_enter _ _ _ _ _ I La M)
                  (kinds_enter _ _ _ _ (CList t []) K Ho eq_refl)) as [h1 [m1 [items1 H1]]].
        { intros v Iv. split; [now apply Xi|]. split; [|now apply typed_item_is, Fit].
          intros N LN. left. cbn [length] in LN. lia. }
        rewrite H1. cbn [bind]. eauto.
      * subst items. cbn. eauto.
      * destruct (items_succeed n None IH items h m I K) as [h1 [m1 [items1 H1]]].
        { intros v Iv. split; [now apply Xi|]. split; [|exact Logic.I].
          intros N LN. right. split; [now apply Fit | lia]. }
        rewrite H1. cbn [bind]. destruct (memo_get a m1); eauto.
  - destruct (O1 k) as [k' Hk]. rewrite Hk. cbn [bind]. eauto.
  - destruct (O2 k) as [k' Hk]. rewrite Hk. cbn [bind]. eauto.
  - destruct (O4 x) as [k' Hk]. rewrite Hk. cbn [bind]. eauto.
Qed.
End Success.
End Facts.
