(** When copies are made, and when they are refused. *)
From Verif Require Import CopyFacts CopyFacts2.
From Verif Require Export SpecCopy.
From Coq Require Import Lia.
Local Open Scope list_scope.

(** ** Counting the objects that are not saved yet *)

Definition left (h : cheap) (m : list nat) : nat :=
  length (filter (fun x => negb (existsb (Nat.eqb x) m)) (seq 0 (length h))).

Lemma existsb_eqb : forall x m, existsb (Nat.eqb x) m = true <-> In x m.
Proof.
  intros x m. rewrite existsb_exists. split.
  - intros [y [I e]]. apply Nat.eqb_eq in e. now subst.
  - intros I. exists x. split; [exact I | apply Nat.eqb_refl].
Qed.

Lemma filter_le : forall (f g : nat -> bool) l, (forall x, f x = true -> g x = true) ->
  length (filter f l) <= length (filter g l).
Proof.
  intros f g l H. induction l as [|x l IH]; cbn; [lia|].
  destruct (f x) eqn:F; [rewrite (H x F); cbn; lia|]. destruct (g x); cbn; lia.
Qed.
Lemma filter_lt : forall (f g : nat -> bool) l a, (forall x, f x = true -> g x = true) ->
  In a l -> f a = false -> g a = true -> S (length (filter f l)) <= length (filter g l).
Proof.
  intros f g l a H. induction l as [|x l IH]; intros I F G; [destruct I|]. destruct I as [->|I]; cbn.
  - rewrite F, G. cbn. pose proof (filter_le f g l H). lia.
  - specialize (IH I F G). destruct (f x) eqn:Fx; [rewrite (H x Fx); cbn; lia|].
    destruct (g x); cbn; lia.
Qed.

Lemma left_incl : forall h m m', incl m m' -> left h m' <= left h m.
Proof.
  intros h m m' I. apply filter_le. intros x H. apply negb_true_iff in H. apply negb_true_iff.
  destruct (existsb (Nat.eqb x) m) eqn:B; [|reflexivity].
  apply existsb_eqb in B. apply I in B. apply existsb_eqb in B. congruence.
Qed.
Lemma left_new : forall h m a, a < length h -> ~ In a m -> S (left h (a :: m)) <= left h m.
Proof.
  intros h m a L N. unfold left. apply filter_lt with a.
  - intros x H. apply negb_true_iff in H. apply negb_true_iff. cbn in H.
    apply orb_false_iff in H. apply H.
  - apply in_seq. lia.
  - cbn. rewrite Nat.eqb_refl. reflexivity.
  - apply negb_true_iff. destruct (existsb (Nat.eqb a) m) eqn:B; [|reflexivity].
    apply existsb_eqb in B. contradiction.
Qed.
Lemma left_nil : forall h, left h [] = length h.
Proof.
  intros h. unfold left. rewrite <- (seq_length (length h) 0) at 2. f_equal.
  generalize (seq 0 (length h)). induction l as [|x l IH]; cbn in *; [reflexivity | now rewrite IH].
Qed.

Section Facts.
Variable E : copy_env.

(** ** pickle.dumps succeeds *)

Section Dump.
Variable hw : how.
Variable h0 : cheap.
Hypothesis NotDeep : hw <> Deep.
Hypothesis OE : obliging E.
Variable P : nat -> Prop.
Hypothesis P_fit : forall x, P x -> exists o, nth_error h0 x = Some o /\ fit E hw h0 o.
Hypothesis P_part : forall x y, P x -> part is_saved h0 x y -> P y.

Definition dump_enough (n : nat) (m : list nat) (v : pval) : Prop :=
  (2 * left h0 m + 2 <= n) \/ (~ is_list h0 v /\ 2 * left h0 m + 1 <= n).

Definition dumps (n : nat) : Prop :=
  forall m v, expected P v -> dump_enough n m v ->
  exists m', dump E hw n h0 m v = Ok m' /\ incl m m'.

Lemma dump_all_succeeds : forall n, dumps n -> forall l m,
  (forall v, In v l -> expected P v /\ (forall N, incl m N -> dump_enough n N v)) ->
  exists m', dump_all (dump E hw n h0) m l = Ok m' /\ incl m m'.
Proof.
  intros n Hn l; induction l as [|v l IH]; intros m X; cbn.
  - exists m. split; [reflexivity | apply incl_refl].
  - destruct (X v (or_introl eq_refl)) as [Xv En].
    destruct (Hn m v Xv (En m (incl_refl _))) as [m1 [H1 I1]]. rewrite H1. cbn [bind].
    destruct (IH m1) as [m2 [H2 I2]].
    { intros w Iw. destruct (X w (or_intror Iw)) as [Xw Ew]. split; [exact Xw|].
      intros N IN. apply Ew. eapply incl_tran; eauto. }
    exists m2. split; [exact H2 | eapply incl_tran; eauto].
Qed.

Lemma dump_succeeds : forall n, dumps n.
Proof.
  induction n as [|n IH]; intros m v X En.
  { exfalso. destruct En as [H|[_ H]]; lia. }
  pose proof OE as [O1 [O2 [O3 [O4 _]]]].
  assert (D : forall m : list nat, exists m', Ok m = Ok m' /\ incl m m')
    by (intros m0; exists m0; split; [reflexivity | apply incl_refl]).
  cbn [dump].
  destruct v as [nv|a|f|al|k|k|x]; try apply D.
  - destruct nv; try apply D. destruct (O3 ty n0) as [k' Hk]. rewrite Hk. apply D.
  - destruct (existsb (Nat.eqb a) m) eqn:B; [apply D|].
    assert (NI : ~ In a m) by (rewrite <- existsb_eqb; congruence).
    pose proof (X a eq_refl) as Pa. destruct (P_fit _ Pa) as [o [Ho Fit]].
    assert (La : a < length h0) by (apply nth_error_Some; congruence).
    pose proof (left_new h0 m a La NI) as LN.
    rewrite Ho. destruct o as [c attrs|t items].
    + cbn in Fit. destruct Fit as [[l [Sv At]] Fi].
      assert (Rd : reducible hw c = true).
      { destruct hw; [congruence | reflexivity |]. destruct Fi as [_ Fi].
        destruct c as [[]| | | | | | |]; try reflexivity. congruence. }
      assert (Im : importable E c = true).
      { destruct c as [|c| | | | | |]; try reflexivity. exfalso.
        destruct hw; [congruence | now apply (Fi c) | now apply (proj1 Fi c)]. }
      rewrite Rd. destruct (getstate_total E OE _ _ _ Sv At) as [st Hst]. rewrite Hst. cbn [bind].
      rewrite Im.
      destruct (dump_all_succeeds n IH (state_values st) (a :: m)) as [m' [H' I']].
      { intros v Iv. split.
        - intros b ->. apply (P_part a b Pa).
          destruct (getstate_inv _ _ _ _ _ Sv Hst) as [names [_ [In1 [_ F]]]].
          unfold state_values in Iv. apply in_flat_map in Iv. destruct Iv as [[k0 [w|s]] [Ik Iw]];
            cbn in Iw; [|destruct Iw]. destruct Iw as [->|[]].
          assert (exists k', In k' l /\ dict_get k' attrs = Some (PRef b)) as [k' [Ik' Gk]].
          { clear -F Ik In1. induction F as [|k1 p names st Q F IHF]; [destruct Ik|].
            destruct Ik as [e|Ik].
            - subst p. destruct Q as [_ [v [G [[_ Y]|[_ [x [s [_ [_ Y]]]]]]]]]; cbn in Y; [|discriminate].
              inversion Y; subst. exists k1. split; [apply In1; now left | exact G].
            - apply IHF; [exact Ik|]. intros k' Ik'. apply In1. now right. }
          eapply part_attribute; eauto. exists l. auto.
        - intros N IN. left. pose proof (left_incl h0 _ _ IN). destruct En as [En|[_ En]]; lia. }
      exists m'. split; [exact H'|]. intros y Iy. apply I'. now right.
    + assert (Xi : forall v, In v items -> expected P v).
      { intros v Iv b ->. apply (P_part a b Pa). eapply part_item; eauto. }
      assert (Ls : is_list h0 (PRef a)) by (exists a, t, items; auto).
      assert (En2 : 2 * left h0 m + 2 <= S n) by (destruct En as [En|[NL _]]; [lia | contradiction]).
      cbn in Fit. assert (W : hw = Pickle2 \/ hw = Pickle01)
        by (clear -NotDeep; destruct hw; [congruence|auto|auto]).
      remember (dump E hw n h0) as rb eqn:Rb.
      destruct W as [W|W]; rewrite W in Fit |- *; subst rb.
      * subst items. cbn. exists (a :: m). split; [reflexivity|]. intros y Iy; now right.
      * destruct (dump_all_succeeds n IH items m) as [m' [H' I']].
        { intros v Iv. split; [now apply Xi|]. intros N IN. right. split; [now apply Fit|].
          pose proof (left_incl h0 _ _ IN). lia. }
        rewrite H'. cbn [bind]. exists (a :: m'). split; [reflexivity|].
        intros y Iy. right. now apply I'.
  - destruct (O1 k) as [k' Hk]. rewrite Hk. apply D.
  - destruct (O2 k) as [k' Hk]. rewrite Hk. apply D.
  - destruct (O4 x) as [k' Hk]. rewrite Hk. apply D.
Qed.
End Dump.

Lemma make_copy_succeeds : forall hw n h a, closed h -> obliging E -> a < length h ->
  (forall x o, visited h a x -> nth_error h x = Some o -> fit E hw h o) ->
  2 * length h + 2 <= n ->
  exists h' b, make_copy E hw n h (PRef a) = Ok (h', PRef b).
Proof.
  intros hw n h a C OE L F Ln.
  assert (Pf : forall x, x < length h /\ visited h a x -> exists o, nth_error h x = Some o /\ fit E hw h o).
  { intros x [Lx V]. destruct (nth_error h x) as [o|] eqn:N.
    - exists o. split; [reflexivity|]. now apply (F x).
    - apply nth_error_None in N. lia. }
  assert (Pp : forall x y, x < length h /\ visited h a x -> part is_saved h x y -> y < length h /\ visited h a y).
  { intros x y [Lx V] Q. split.
    - destruct Q as [x c attrs k y N _ G|x t items y N I]; specialize (C _ _ N); cbn in C.
      + apply (C k). now apply dict_get_in.
      + now apply C.
    - eapply rt_trans; [exact V | now apply rt_step]. }
  assert (Xp : expected (fun x => x < length h /\ visited h a x) (PRef a)).
  { intros b e. inversion e; subst. split; [exact L | apply rt_refl]. }
  assert (I : inv h h []).
  { split; [apply grows_refl|]. split; [constructor|]. split; [constructor|]. intros p q []. }
  assert (K : kinds h h []) by (intros x y []).
  destruct (rebuild_succeeds E hw h C OE _ Pf Pp n h [] (PRef a) I K Xp) as [h' [m' [w H]]].
  { left. cbn. lia. }
  assert (exists b, w = PRef b) as [b ->].
  { destruct (rebuild_correspondence _ _ _ _ _ _ _ _ C L H) as [_ [_ [b [_ ->]]]]. now exists b. }
  assert (Dm : hw <> Deep -> exists m', dump E hw n h [] (PRef a) = Ok m').
  { intros ND. destruct (dump_succeeds hw h ND OE _ Pf Pp n [] (PRef a) Xp) as [m1 [H1 _]]; [|now exists m1].
    left. rewrite left_nil. lia. }
  exists h', b. destruct hw; cbn.
  - rewrite H. reflexivity.
  - destruct Dm as [m1 H1]; [discriminate|]. rewrite H1. cbn. rewrite H. reflexivity.
  - destruct Dm as [m1 H1]; [discriminate|]. rewrite H1. cbn. rewrite H. reflexivity.
Qed.

(** ** copy.copy *)

Definition identity_env : copy_env :=
  mkCopyEnv (ce_lxml E) (fun k => Ok k) (fun k => Ok k) (fun _ k => Ok k) (fun x => Ok x)
    (ce_tostring E) (ce_parse E) (ce_importable E).

Lemma copied_identity : forall v, copied identity_env eq v v.
Proof. intros [[]|a|f|al|k|k|x]; constructor; reflexivity. Qed.
Lemma copied_identity_inv : forall v w, copied identity_env eq v w -> w = v.
Proof.
  intros v w H. destruct H; try reflexivity; cbn in *; congruence.
Qed.
Lemma shared_identity : forall c k v w, copied_attribute identity_env eq c k v w ->
  shared_attribute E c k v w.
Proof.
  intros c k v w [H1 H2]. split.
  - exact H1.
  - intros N. apply copied_identity_inv, H2, N.
Qed.

Lemma append_all_inv : forall h t items items', append_all h t items = Ok items' -> items' = items.
Proof.
  intros h t items; induction items as [|v items IH]; intros items' H; cbn in H; [congruence|].
  destruct (item_is h v t); [|discriminate]. binv H r Hr. rewrite (IH _ Hr) in H. congruence.
Qed.
Lemma append_all_total : forall h t items, (forall v, In v items -> item_is h v t = true) ->
  append_all h t items = Ok items.
Proof.
  intros h t items; induction items as [|v items IH]; intros H; cbn; [reflexivity|].
  rewrite (H v (or_introl eq_refl)), IH; [reflexivity|]. intros; apply H; now right.
Qed.

Lemma shallow_ok : forall h a h' b, shallow_copy E h a = Ok (h', b) ->
  b = length h /\ exists o o', nth_error h a = Some o /\ h' = h ++ [o'] /\ shallow_of E o o'.
Proof.
  intros h a h' b H. unfold shallow_copy in H.
  destruct (nth_error h a) as [[c attrs|t items]|] eqn:N; [| |discriminate].
  - binv H st Hst. binv H attrs1 H1. inversion H; subst; clear H. split; [reflexivity|].
    exists (CInst c attrs), (CInst c attrs1). split; [reflexivity|]. split; [reflexivity|].
    assert (C : copy_of identity_env eq (CInst c attrs) (CInst c attrs1)).
    { apply (instance_copy identity_env eq c attrs st st attrs1); [exact Hst | | exact H1].
      clear. induction st as [|[k [v|s]] st IH]; constructor; try assumption; split; cbn; auto.
      apply copied_identity. }
    inversion C as [c0 a0 a1 Sv C1 C2 e1 e2|]; subst. constructor; [exact Sv| |].
    + intros k v K G. destruct (C1 k v K G) as [w [Gw Cw]]. exists w. split; [exact Gw|].
      now apply shared_identity.
    + intros k w G. destruct (C2 k w G) as [K [v [Gv Cv]]]. split; [exact K|]. exists v.
      split; [exact Gv | now apply shared_identity].
  - binv H items1 H1. inversion H; subst; clear H. apply append_all_inv in H1. subst.
    split; [reflexivity|]. exists (CList t items), (CList t items). split; [reflexivity|].
    split; [reflexivity | constructor].
Qed.

Lemma shallow_succeeds : forall h a o, obliging E -> nth_error h a = Some o -> fit_shallow h o ->
  exists h' b, shallow_copy E h a = Ok (h', b).
Proof.
  intros h a o OE N F. unfold shallow_copy. rewrite N. destruct o as [c attrs|t items]; cbn in F.
  - destruct F as [l [Sv At]]. destruct (getstate_total E OE _ _ _ Sv At) as [st Hst]. rewrite Hst.
    cbn [bind]. destruct (setstate_total E OE c st) as [attrs1 H1]; [congruence|]. rewrite H1.
    do 2 eexists. reflexivity.
  - rewrite (append_all_total _ _ _ (fun v Iv => proj2 (typed_item_is _ _ _) (F v Iv))). do 2 eexists. reflexivity.
Qed.

(** ** Policies *)

Lemma setstate_refused : forall c st, saved c = None -> setstate E c st = Raise EAttributeError.
Proof. intros [[]| | | | | | |] st H; cbn in *; congruence || reflexivity. Qed.

Lemma save_cases : forall names attrs, save names attrs = Raise EAttributeError \/
  exists st, save names attrs = Ok st /\
    forall k s, In (k, s) st -> In k names /\ exists v, s = SVal v /\ dict_get k attrs = Some v.
Proof.
  intros names attrs; induction names as [|k names IH].
  - right. exists []. split; [reflexivity | intros k s []].
  - assert (X : save (k :: names) attrs =
      (let* p := (let* v := slot attrs k in Ok (k, SVal v)) in let* r := save names attrs in Ok (p :: r)))
      by reflexivity.
    rewrite X. unfold slot. destruct (dict_get k attrs) as [v|] eqn:G; cbn; [|now left].
    destruct IH as [->|[st [-> H]]]; [now left|]. right. exists ((k, SVal v) :: st).
    split; [reflexivity|]. intros k' s [e|I].
    + inversion e; subst. split; [now left|]. exists v. auto.
    + destruct (H k' s I). split; [now right | assumption].
Qed.

Definition policy_names (c : ccls) : list string := 
  match c with CCore KAttribute => ["attributeValues"; "dataType"; "attributeId"; "issuer"]%string
  | _ => (common ++ ["dataType"%string]) end.

Lemma getstate_cases : forall c attrs, saved c = None ->
  getstate E c attrs = Raise EAttributeError \/
  exists st, getstate E c attrs = Ok st /\
    forall k s, In (k, s) st -> In k (policy_names c) /\ exists v, s = SVal v /\ dict_get k attrs = Some v.
Proof.
  intros c attrs S.
  assert (A : core_getstate attrs = Raise EAttributeError \/ exists st, core_getstate attrs = Ok st /\
    forall k s, In (k, s) st -> In k (common ++ ["dataType"%string]) /\ exists v, s = SVal v /\ dict_get k attrs = Some v).
  { destruct (save_cases common attrs) as [H|[st [H F]]]; [now left|]. right. exists st. split; [exact H|].
    intros k s I. destruct (F k s I). split; [apply in_or_app; now left | assumption]. }
  assert (B : expression_getstate attrs = Raise EAttributeError \/ exists st, expression_getstate attrs = Ok st /\
    forall k s, In (k, s) st -> In k (common ++ ["dataType"%string]) /\ exists v, s = SVal v /\ dict_get k attrs = Some v).
  { unfold expression_getstate. destruct A as [->|[st [-> F]]]; [now left|]. cbn [bind].
    destruct (save_cases ["dataType"%string] attrs) as [->|[s [-> F2]]]; [now left|]. cbn [bind]. right.
    eexists. split; [reflexivity|]. intros k x I. apply in_app_or in I. destruct I as [I|I]; [now apply F|].
    destruct (F2 _ _ I). split; [apply in_or_app; now right | assumption]. }
  destruct c as [[]| | | | | | |]; unfold saved in S; try discriminate; unfold getstate, policy_names;
    try exact A; try exact B. apply save_cases.
Qed.

Lemma rebuild_plain : forall hw n h m v, plain v -> rebuild E hw (S n) h m v = Ok (h, m, v).
Proof.
  intros hw n h m v [nv [-> N]]. cbn. destruct nv; try reflexivity. exfalso. eapply N; reflexivity.
Qed.
Lemma dump_plain : forall hw n h m v, plain v -> dump E hw (S n) h m v = Ok m.
Proof.
  intros hw n h m v [nv [-> N]]. cbn. destruct nv; try reflexivity. exfalso. eapply N; reflexivity.
Qed.

Lemma policy_refused : forall hw n h a c attrs, nth_error h a = Some (CInst c attrs) -> saved c = None ->
  (forall k v, In k (policy_names c) -> dict_get k attrs = Some v -> plain v) ->
  make_copy E hw (S (S n)) h (PRef a) = Raise EAttributeError.
Proof.
  intros hw n h a c attrs N S Pl.
  assert (Rb : forall hw, rebuild E hw (Datatypes.S (Datatypes.S n)) h [] (PRef a) = Raise EAttributeError).
  { intros w. remember (Datatypes.S n) as n1 eqn:En1. cbn [rebuild memo_get]. rewrite N.
    destruct (getstate_cases c attrs S) as [->|[st [-> F]]]; [reflexivity|]. cbn [bind].
    assert (St : forall st h m, (forall k s, In (k, s) st -> exists v, s = SVal v /\ plain v) ->
              rebuild_state (rebuild E w n1) h m st = Ok (h, m, st)).
    { clear -En1. intros st. induction st as [|[k [v|s]] st IH]; intros h m H; [reflexivity| |].
      - cbn [rebuild_state]. destruct (H k (SVal v) (or_introl eq_refl)) as [v' [e Pv]].
        inversion e; subst v'. rewrite En1, rebuild_plain by exact Pv. rewrite <- En1. cbn [bind].
        rewrite IH; [reflexivity|]. intros; eapply H; right; eauto.
      - destruct (H k (SSerialised s) (or_introl eq_refl)) as [v' [e _]]. discriminate. }
    rewrite St.
    - cbn [bind]. rewrite setstate_refused by exact S. reflexivity.
    - intros k s I. destruct (F k s I) as [K [v [-> G]]]. exists v. split; [reflexivity|]. eapply Pl; eauto. }
  assert (Dm : forall hw, dump E hw (Datatypes.S (Datatypes.S n)) h [] (PRef a) = Raise EAttributeError \/
                     exists m, dump E hw (Datatypes.S (Datatypes.S n)) h [] (PRef a) = Ok m).
  { intros w. remember (Datatypes.S n) as n1 eqn:En1. cbn [dump existsb]. rewrite N.
    assert (Rd : reducible w c = true) by (destruct w; destruct c as [[]| | | | | | |]; reflexivity || discriminate S).
    assert (Im : importable E c = true) by (destruct c as [[]| | | | | | |]; reflexivity || discriminate S).
    rewrite Rd, Im.
    destruct (getstate_cases c attrs S) as [->|[st [-> F]]]; [now left|]. cbn [bind]. right.
    assert (St : forall l m, (forall v, In v l -> plain v) -> dump_all (dump E w n1 h) m l = Ok m).
    { clear -En1. intros l. induction l as [|v l IH]; intros m H; [reflexivity|].
      cbn [dump_all]. rewrite En1, dump_plain by (apply H; now left). rewrite <- En1. cbn [bind]. 
      apply IH. intros; apply H; now right. }
    rewrite St; [eauto|]. intros v Iv. unfold state_values in Iv. apply in_flat_map in Iv.
    destruct Iv as [[k s] [Ik Iv]]. destruct (F k s Ik) as [K [v' [-> G]]]. cbn in Iv.
    destruct Iv as [->|[]]. eapply Pl; eauto. }
  destruct hw; unfold make_copy.
  - rewrite Rb. reflexivity.
  - destruct (Dm Pickle2) as [->|[m ->]]; [reflexivity|]. cbn [bind]. rewrite Rb. reflexivity.
  - destruct (Dm Pickle01) as [->|[m ->]]; [reflexivity|]. cbn [bind]. rewrite Rb. reflexivity.
Qed.

Lemma shallow_refused : forall h a c attrs, nth_error h a = Some (CInst c attrs) -> saved c = None ->
  shallow_copy E h a = Raise EAttributeError.
Proof.
  intros h a c attrs N S. unfold shallow_copy. rewrite N.
  destruct (getstate_cases c attrs S) as [->|[st [-> _]]]; [reflexivity|]. cbn [bind].
  rewrite setstate_refused by exact S. reflexivity.
Qed.

(** ** Responses *)

Lemma reads_copy : forall h h' R x y c k a, correspondence E h h' R -> R x y -> of_class h x c -> kept c k ->
  reads h x k (PRef a) -> exists b, R a b /\ reads h' y k (PRef b).
Proof.
  intros h h' R x y c k a Co Rxy [attrs Hx] K [c0 [attrs0 [Hx0 G]]].
  rewrite Hx in Hx0. inversion Hx0; subst c0 attrs0.
  destruct (co_copy _ _ _ _ Co _ _ Rxy) as [o [o' [H1 [H2 H3]]]]. rewrite Hx in H1. inversion H1; subst o.
  destruct (copy_of_inst_l _ _ _ _ _ H3) as [attrs' [-> [_ [F _]]]].
  destruct (F _ _ K G) as [w [Gw Cw]]. destruct (copied_attribute_ref _ _ _ _ _ _ Cw) as [b [-> Rab]].
  exists b. split; [exact Rab|]. exists c, attrs'. auto.
Qed.
Lemma class_copy : forall h h' R x y c, correspondence E h h' R -> R x y ->
  (of_class h x c <-> of_class h' y c).
Proof.
  intros h h' R x y c Co Rxy. destruct (co_copy _ _ _ _ Co _ _ Rxy) as [o [o' [H1 [H2 H3]]]]. split.
  - intros [attrs Hx]. rewrite Hx in H1. inversion H1; subst.
    destruct (copy_of_inst_l _ _ _ _ _ H3) as [attrs' [-> _]]. now exists attrs'.
  - intros [attrs Hx]. rewrite Hx in H2. inversion H2; subst.
    destruct (copy_of_inst_r _ _ _ _ _ H3) as [attrs' [-> _]]. now exists attrs'.
Qed.
Lemma reads_back : forall h h' R x y k w, correspondence E h h' R -> R x y -> reads h' y k w ->
  exists c v, of_class h x c /\ kept c k /\ reads h x k v /\ copied_attribute E R c k v w.
Proof.
  intros h h' R x y k w Co Rxy [c [attrs [Hy G]]].
  destruct (co_copy _ _ _ _ Co _ _ Rxy) as [o [o' [H1 [H2 H3]]]]. rewrite Hy in H2. inversion H2; subst o'.
  destruct (copy_of_inst_r _ _ _ _ _ H3) as [attrs' [-> [_ [_ B]]]].
  destruct (B _ _ G) as [K [v [Gv Cv]]]. exists c, v. split; [now exists attrs'|]. split; [exact K|].
  split; [exists c, attrs'; auto | exact Cv].
Qed.
Lemma reads_string : forall h h' R x y c k s, correspondence E h h' R -> R x y -> of_class h x c -> kept c k ->
  (reads h x k (PNat (NStr s)) <-> reads h' y k (PNat (NStr s))).
Proof.
  intros h h' R x y c k s Co Rxy [attrs Hx] K. split.
  - intros [c0 [attrs0 [Hx0 G]]]. rewrite Hx in Hx0. inversion Hx0; subst c0 attrs0.
    destruct (co_copy _ _ _ _ Co _ _ Rxy) as [o [o' [H1 [H2 H3]]]]. rewrite Hx in H1. inversion H1; subst o.
    destruct (copy_of_inst_l _ _ _ _ _ H3) as [attrs' [-> [_ [F _]]]].
    destruct (F _ _ K G) as [w [Gw [_ Cw]]].
    assert (copied E R (PNat (NStr s)) w) as Cv by (apply Cw; intros [_ [_ [_ [z Z]]]]; discriminate).
    inversion Cv; subst. exists c, attrs'. auto.
  - intros Rd. destruct (reads_back _ _ _ _ _ _ _ Co Rxy Rd) as [c0 [v [_ [_ [Rv [C1 C2]]]]]].
    assert (copied E R v (PNat (NStr s))) as Cv.
    { apply C2. intros T. destruct (C1 T) as [z1 [z2 [z3 [_ [_ [_ Z]]]]]]. discriminate. }
    inversion Cv; subst. exact Rv.
Qed.

Lemma kept_decision : kept CResult "decision".
Proof. split; [intros [] | eexists; split; [reflexivity|]]. apply in_or_app. right. right. now left. Qed.
Lemma kept_status : kept CResult "status".
Proof. split; [intros [] | eexists; split; [reflexivity|]]. apply in_or_app. right. right. right. now left. Qed.
Lemma kept_resource : kept CResult "resourceId".
Proof. split; [intros [] | eexists; split; [reflexivity|]]. apply in_or_app. right. now left. Qed.
Lemma kept_results : kept CResponse "results".
Proof. split; [intros [] | eexists; split; [reflexivity|]]. apply in_or_app. right. now left. Qed.
Lemma kept_value : forall d, kept (CDecision d) "value".
Proof. intros d. split; [intros [] | eexists; split; [reflexivity|]]. now left. Qed.

Lemma decides_copy : forall h h' R r r', correspondence E h h' R -> R r r' -> of_class h r CResult ->
  forall s, decides h r s <-> decides h' r' s.
Proof.
  intros h h' R r r' Co Rr Cr s. split.
  - intros [d [k [H1 [H2 H3]]]].
    destruct (reads_copy _ _ _ _ _ _ _ _ Co Rr Cr kept_decision H1) as [d' [Rd H1']].
    exists d', k. split; [exact H1'|]. split; [now apply (class_copy _ _ _ _ _ _ Co Rd)|].
    now apply (reads_string _ _ _ _ _ _ _ s Co Rd H2 (kept_value k)).
  - intros [d' [k [H1 [H2 H3]]]].
    destruct (reads_back _ _ _ _ _ _ _ Co Rr H1) as [c0 [v [_ [_ [H1' Cv]]]]].
    destruct (copied_attribute_ref_inv _ _ _ _ _ _ Cv) as [d [-> Rd]].
    apply (class_copy _ _ _ _ _ _ Co Rd) in H2.
    exists d, k. split; [exact H1'|]. split; [exact H2|].
    now apply (reads_string _ _ _ _ _ _ _ s Co Rd H2 (kept_value k)).
Qed.

Lemma Forall2_refs : forall R l items, Forall2 (copied E R) (map PRef l) items ->
  exists l', items = map PRef l' /\ Forall2 R l l'.
Proof.
  intros R l; induction l as [|x l IH]; intros items F; inversion F; subst.
  - exists []. split; [reflexivity | constructor].
  - destruct (IH _ H3) as [l2 [-> F']]. inversion H1; subst. exists (b :: l2).
    split; [reflexivity | now constructor].
Qed.

Lemma results_copy : forall h h' R a b l, correspondence E h h' R -> R a b -> results h a l ->
  exists l', results h' b l' /\ Forall2 R l l'.
Proof.
  intros h h' R a b l Co Rab [Ca [x [Hx Hl]]].
  destruct (reads_copy _ _ _ _ _ _ _ _ Co Rab Ca kept_results Hx) as [y [Rxy Hy]].
  destruct (co_copy _ _ _ _ Co _ _ Rxy) as [o [o' [H1 [H2 H3]]]]. rewrite Hl in H1. inversion H1; subst o.
  destruct (copy_of_list_l _ _ _ _ _ H3) as [items [-> F]].
  destruct (Forall2_refs _ _ _ F) as [l' [-> F']]. exists l'. split; [|exact F'].
  split; [now apply (class_copy _ _ _ _ _ _ Co Rab)|]. exists y. auto.
Qed.

Lemma status_copy : forall h h' R r r' st, correspondence E h h' R -> R r r' -> of_class h r CResult ->
  reads h r "status" (PRef st) -> of_class h st CStatus ->
  exists st', reads h' r' "status" (PRef st') /\ of_class h' st' CStatus /\
    forall k v, reads h' st' k v -> In k common.
Proof.
  intros h h' R r r' st Co Rr Cr H Cs.
  destruct (reads_copy _ _ _ _ _ _ _ _ Co Rr Cr kept_status H) as [st' [Rs H']].
  exists st'. split; [exact H'|]. split; [now apply (class_copy _ _ _ _ _ _ Co Rs)|].
  intros k v Rd. destruct (reads_back _ _ _ _ _ _ _ Co Rs Rd) as [c [w [Cc [[_ [l [Sl I]]] _]]]].
  destruct Cs as [attrs Hs]. destruct Cc as [attrs' Hs']. rewrite Hs in Hs'. inversion Hs'; subst.
  cbn in Sl. inversion Sl; subst. exact I.
Qed.
End Facts.
