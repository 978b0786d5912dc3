(** Copies correspond to their originals. *)
From Verif Require Import SpecCopy.
From Coq Require Import Lia.
Import ListNotations.
Local Open Scope list_scope.

Lemma bind_inv : forall {A B} (x : res A) (f : A -> res B) b,
  bind x f = Ok b -> exists a, x = Ok a /\ f a = Ok b.
Proof. intros A B [a|e] f b H; [exists a; split; [reflexivity | exact H] | discriminate]. Qed.

Ltac binv H a Ha := apply bind_inv in H; destruct H as [a [Ha H]]; cbv beta in H.

Lemma mapM_inv : forall {A B} (f : A -> res B) l r, mapM f l = Ok r ->
  Forall2 (fun x y => f x = Ok y) l r.
Proof.
  intros A B f l; induction l as [|x l IH]; intros r H; cbn in H.
  - inversion H. constructor.
  - binv H y Hy. binv H ys Hys. inversion H. constructor; [exact Hy | apply IH, Hys].
Qed.

Lemma Forall2_impl : forall {A B} (P Q : A -> B -> Prop) l r,
  (forall x y, P x y -> Q x y) -> Forall2 P l r -> Forall2 Q l r.
Proof. intros A B P Q l r S H. induction H; constructor; auto. Qed.

(** ** Heaps *)

Definition grows (h h' : cheap) : Prop := exists e, h' = h ++ e.

Lemma grows_refl : forall h, grows h h.
Proof. intros h. exists []. now rewrite app_nil_r. Qed.
Lemma grows_trans : forall a b c, grows a b -> grows b c -> grows a c.
Proof. intros a b c [e ->] [f ->]. exists (e ++ f). now rewrite app_assoc. Qed.
Lemma grows_app : forall h e, grows h (h ++ e).
Proof. intros h e. now exists e. Qed.
Lemma grows_length : forall h h', grows h h' -> length h <= length h'.
Proof. intros h h' [e ->]. rewrite app_length. lia. Qed.
Lemma grows_nth : forall h h' a o, grows h h' -> nth_error h a = Some o -> nth_error h' a = Some o.
Proof.
  intros h h' a o [e ->] H. rewrite nth_error_app1; [exact H|].
  apply nth_error_Some. now rewrite H.
Qed.
Lemma grows_nth_lt : forall h h' a, grows h h' -> a < length h -> nth_error h' a = nth_error h a.
Proof. intros h h' a [e ->] H. now apply nth_error_app1. Qed.

Lemma replace_nth_length : forall {A} n (x : A) l, length (replace_nth n x l) = length l.
Proof. intros A n x l; revert n; induction l as [|y l IH]; intros [|n]; cbn; auto. Qed.
Lemma replace_nth_same : forall {A} n (x : A) l, n < length l ->
  nth_error (replace_nth n x l) n = Some x.
Proof.
  intros A n x l; revert n; induction l as [|y l IH]; intros [|n] H; cbn in *; try lia; auto.
  apply IH. lia.
Qed.
Lemma replace_nth_other : forall {A} n (x : A) l i, i <> n ->
  nth_error (replace_nth n x l) i = nth_error l i.
Proof.
  intros A n x l; revert n; induction l as [|y l IH]; intros [|n] [|i] H; cbn; auto; try congruence.
Qed.
Lemma replace_nth_app : forall {A} (l e : list A) x, 
  replace_nth (length l) x (l ++ e) = l ++ replace_nth 0 x e.
Proof. intros A l e x; induction l as [|y l IH]; cbn; [reflexivity | now f_equal]. Qed.
Lemma grows_replace : forall h o h' x, grows (h ++ [o]) h' -> 
  grows h (replace_nth (length h) x h').
Proof.
  intros h o h' x [e ->]. rewrite <- app_assoc, replace_nth_app. eexists; reflexivity.
Qed.

(** ** The memo *)

Definition rel (m : memo) (x y : nat) : Prop := In (x, y) m.

Lemma memo_get_in : forall m a b, memo_get a m = Some b -> rel m a b.
Proof.
  induction m as [|[x y] m IH]; cbn; [discriminate|]. intros a b H.
  destruct (Nat.eqb_spec a x) as [e|N].
  - inversion H. left; congruence.
  - right. now apply IH.
Qed.
Lemma memo_get_none : forall m a, memo_get a m = None -> ~ In a (map fst m).
Proof.
  induction m as [|[x y] m IH]; cbn; intros a H; [tauto|].
  destruct (Nat.eqb_spec a x) as [e|N]; [discriminate|].
  intros [e|I]; [congruence | exact (IH _ H I)].
Qed.

Section Facts.
Variable E : copy_env.

Lemma copied_mono : forall (R R' : nat -> nat -> Prop) v w,
  (forall x y, R x y -> R' x y) -> copied E R v w -> copied E R' v w.
Proof. intros R R' v w S H. destruct H; try (constructor; auto); auto. Qed.
Lemma copied_attribute_mono : forall (R R' : nat -> nat -> Prop) c k v w,
  (forall x y, R x y -> R' x y) -> copied_attribute E R c k v w -> copied_attribute E R' c k v w.
Proof.
  intros R R' c k v w S [H1 H2]. split; [exact H1|]. intros N. eapply copied_mono; eauto.
Qed.
Lemma copy_of_mono : forall (R R' : nat -> nat -> Prop) o o',
  (forall x y, R x y -> R' x y) -> copy_of E R o o' -> copy_of E R' o o'.
Proof.
  intros R R' o o' S H. destruct H as [c attrs attrs' Hs H1 H2|t i i' H].
  - constructor; [exact Hs| |].
    + intros k v K G. destruct (H1 k v K G) as [w [Hw Hc]]. exists w. split; [exact Hw|].
      eapply copied_attribute_mono; eauto.
    + intros k w G. destruct (H2 k w G) as [K [v [Hv Hc]]]. split; [exact K|]. exists v. 
      split; [exact Hv|]. eapply copied_attribute_mono; eauto.
  - constructor. eapply Forall2_impl; [|exact H]. intros; eapply copied_mono; eauto.
Qed.

(** ** States *)

(** The entry of the state for attribute [k]. *)
Definition entry (c : ccls) (attrs : list (string * pval)) (k : string) (p : string * sval) : Prop :=
  fst p = k /\ exists v, dict_get k attrs = Some v /\
  ((~ through_text E c k v /\ snd p = SVal v) \/
   (through_text E c k v /\ exists x s, v = PXml x /\ ce_tostring E x = Ok s /\ snd p = SSerialised s)).

Lemma save_inv : forall c names attrs st, (c <> CCore KCtxResource \/ ~ In "resourceContent"%string names) ->
  save names attrs = Ok st -> Forall2 (entry c attrs) names st.
Proof.
  intros c names attrs st N H. apply mapM_inv in H.
  induction H as [|k p names st H _ IH]; [constructor|]. constructor.
  - binv H v Hv. inversion H; subst. cbn. split; [reflexivity|]. 
    unfold slot in Hv. destruct (dict_get k attrs) as [v'|] eqn:G; [|discriminate].
    inversion Hv; subst. exists v. split; [reflexivity|]. left. split; [|reflexivity].
    intros [_ [-> [-> _]]]. destruct N as [N|N]; [congruence|]. apply N; left; reflexivity.
  - apply IH. destruct N as [N|N]; [now left | right; intros Hin; apply N; now right].
Qed.

Ltac distinct := cbn [common app]; repeat constructor;
  let H := fresh in intros H; cbn [In] in H; repeat (destruct H as [H|H]; [discriminate H|]);
  destruct H.

Lemma getstate_inv : forall c attrs l st, saved c = Some l -> getstate E c attrs = Ok st ->
  exists names, NoDup names /\ (forall k, In k names -> In k l) /\
    (forall k v, In k l -> dict_get k attrs = Some v -> In k names) /\
    Forall2 (entry c attrs) names st.
Proof.
  assert (two : forall c names1 names2 attrs st,
    (c <> CCore KCtxResource \/ ~ In "resourceContent"%string (names1 ++ names2)) ->
    (let* d := save names1 attrs in let* s := save names2 attrs in Ok (d ++ s)) = Ok st ->
    Forall2 (entry c attrs) (names1 ++ names2) st).
  { intros c n1 n2 attrs st N H. binv H d Hd. binv H s Hs. inversion H; subst.
    apply Forall2_app; eapply save_inv; eauto.
    - destruct N as [N|N]; [now left | right; intros I; apply N, in_or_app; now left].
    - destruct N as [N|N]; [now left | right; intros I; apply N, in_or_app; now right]. }
  assert (ctx : forall attrs, context_getstate attrs = core_getstate attrs).
  { intros attrs. unfold context_getstate. destruct (core_getstate attrs) as [d|e]; [|reflexivity].
    cbn. now rewrite app_nil_r. }
  assert (whole : forall c attrs l st, NoDup l -> Forall2 (entry c attrs) l st ->
    exists names, NoDup names /\ (forall k, In k names -> In k l) /\
    (forall k v, In k l -> dict_get k attrs = Some v -> In k names) /\
    Forall2 (entry c attrs) names st).
  { intros c attrs l st N F. exists l. auto. }
  assert (child : forall c attrs st,
    (c <> CCore KCtxResource \/ ~ In "resourceContent"%string (common ++ ["attributes"%string])) ->
    request_child_getstate attrs = Ok st ->
    Forall2 (entry c attrs) (common ++ ["attributes"%string]) st).
  { intros c attrs st N H. unfold request_child_getstate in H. rewrite ctx in H.
    now apply two. }
  intros c attrs l st S H.
  assert (nd : match c with CCore KPdp => True | _ => NoDup l end).
  { clear -S. destruct c as [[]| | | | | | |]; try exact I; unfold saved in S; try discriminate;
      injection S as <-; distinct. }
  destruct c as [[]| | | | | | |]; unfold saved in S; try discriminate; injection S as <-;
    unfold getstate in H.
  - apply whole; [exact nd|]. apply save_inv; [left; discriminate | exact H].
  - apply whole; [exact nd|]. apply child; [left; discriminate | exact H].
  - apply whole; [exact nd|]. unfold resource_getstate in H.
    binv H d Hd. binv H v Hv. binv H s Hs. inversion H; subst.
    change (Forall2 (entry (CCore KCtxResource) attrs)
              ((common ++ ["attributes"%string]) ++ ["resourceContent"%string])
              (d ++ [("resourceContent"%string, s)])).
    apply Forall2_app.
    + apply child; [|exact Hd]. right. cbn. intuition discriminate.
    + constructor; [|constructor]. split; [reflexivity|].
      unfold slot in Hv. destruct (dict_get "resourceContent" attrs) as [v'|] eqn:G; [|discriminate].
      inversion Hv; subst. exists v. split; [reflexivity|].
      unfold serialise_if_element in Hs.
      destruct v; try (inversion Hs; subst; left; split; [|reflexivity];
        intros [_ [_ [_ [x Hx]]]]; discriminate).
      destruct (ce_lxml E) eqn:L.
      * binv Hs t Ht. inversion Hs; subst. right. split; [|exists x, t; auto].
        split; [exact L|]. split; [reflexivity|]. split; [reflexivity|]. now exists x.
      * inversion Hs; subst. left. split; [|reflexivity]. intros [L' _]. congruence.
  - apply whole; [exact nd|]. apply child; [left; discriminate | exact H].
  - apply whole; [exact nd|]. apply child; [left; discriminate | exact H].
  - apply whole; [exact nd|]. unfold request_getstate in H. rewrite ctx in H.
    assert (N : (CCore KRequest) <> CCore KCtxResource) by discriminate;
    pose proof (two _ common _ _ _ (or_introl N) H) as F; exact F.
  - unfold pdp_getstate in H. inversion H; subst. destruct (dict_get "policy" attrs) as [v|] eqn:G.
    + exists ["policy"%string]. repeat split; auto.
      * repeat constructor; cbn; tauto.
      * constructor; [|constructor]. split; [reflexivity|]. exists v. split; [exact G|].
        left. split; [|reflexivity]. intros [_ [X _]]. discriminate.
    + exists []. repeat split; auto.
      * constructor.
      * intros k [].
      * intros k v [<-|[]] X. congruence.
  - apply whole; [exact nd|]. unfold value_getstate, expression_getstate in H.
    binv H d Hd. binv H s Hs. inversion H; subst.
    change (Forall2 (entry (CValue c) attrs) ((common ++ ["dataType"%string]) ++ ["value"%string]) (d ++ s)).
    apply Forall2_app.
    + assert (N : (CValue c) <> CCore KCtxResource) by discriminate;
    pose proof (two _ common _ _ _ (or_introl N) Hd) as F; exact F.
    + apply save_inv; [left; discriminate | exact Hs].
  - apply whole; [exact nd|]. apply save_inv; [left; discriminate | exact H].
  - apply whole; [exact nd|]. unfold response_getstate in H. rewrite ctx in H.
    assert (N : CResponse <> CCore KCtxResource) by discriminate;
    pose proof (two _ common _ _ _ (or_introl N) H) as F; exact F.
  - apply whole; [exact nd|]. unfold result_getstate in H. rewrite ctx in H.
    assert (N : CResult <> CCore KCtxResource) by discriminate;
    pose proof (two _ common _ _ _ (or_introl N) H) as F; exact F.
  - apply whole; [exact nd|]. rewrite ctx in H.
    apply save_inv; [left; discriminate | exact H].
  - apply whole; [exact nd|]. rewrite ctx in H.
    apply save_inv; [left; discriminate | exact H].
  - apply whole; [exact nd|]. apply save_inv; [left; discriminate | exact H].
Qed.

Lemma setstate_saved : forall c st attrs, setstate E c st = Ok attrs -> saved c <> None.
Proof. intros [[]| | | | | | |] st attrs H; cbn in *; discriminate. Qed.

Lemma dict_get_in : forall {V} k (d : list (string * V)) v, dict_get k d = Some v -> In (k, v) d.
Proof.
  intros V k d; induction d as [|[k' v'] d IH]; cbn; intros v H; [discriminate|].
  destruct (String.eqb_spec k k') as [e|N].
  - left. congruence.
  - right. now apply IH.
Qed.

Lemma lookup_names : forall (P : string -> pval -> Prop) names attrs, NoDup names ->
  Forall2 (fun k q => fst q = k /\ P k (snd q)) names attrs ->
  (forall k, In k names -> exists w, dict_get k attrs = Some w /\ P k w) /\
  (forall k w, dict_get k attrs = Some w -> In k names /\ P k w).
Proof.
  intros P names attrs N F. induction F as [|k0 [k1 w1] names attrs [e H] F IH].
  - split; [intros k [] | intros k w X; discriminate].
  - cbn in e, H. subst k1. inversion N as [|? ? N1 N2]; subst. destruct (IH N2) as [A B]. split.
    + intros k I. cbn. destruct (String.eqb_spec k k0) as [e|D].
      * subst k. exists w1. auto.
      * destruct I as [I|I]; [congruence|]. auto.
    + intros k w G. cbn in G. destruct (String.eqb_spec k k0) as [e|D].
      * subst k. inversion G; subst. split; [now left | exact H].
      * destruct (B k w G). split; [now right | assumption].
Qed.

Definition srel (R : nat -> nat -> Prop) (p q : string * sval) : Prop :=
  fst q = fst p /\
  match snd p, snd q with
  | SVal v, SVal w => copied E R v w
  | SSerialised s, SSerialised s' => s' = s
  | _, _ => False
  end.

Lemma setstate_cases : forall c st attrs, setstate E c st = Ok attrs ->
  (forgetful c /\ attrs = []) \/ (~ forgetful c /\ setstate_slots E st = Ok attrs).
Proof.
  intros [[]| | | | | | |] st attrs H; cbn in *; try discriminate; 
    try (right; split; [tauto | exact H]); left; (split; [exact I | congruence]).
Qed.

Lemma instance_copy : forall R c attrs st st1 attrs1, getstate E c attrs = Ok st ->
  Forall2 (srel R) st st1 -> setstate E c st1 = Ok attrs1 ->
  copy_of E R (CInst c attrs) (CInst c attrs1).
Proof.
  intros R c attrs st st1 attrs1 G F S.
  pose proof (setstate_saved _ _ _ S) as Sv.
  destruct (saved c) as [l|] eqn:L; [|congruence].
  destruct (setstate_cases _ _ _ S) as [[Fg ->]|[Fg S']].
  - constructor; [congruence| |].
    + intros k v [K _]. contradiction.
    + intros k w X. discriminate.
  - destruct (getstate_inv _ _ _ _ L G) as [names [ND [In1 [In2 F0]]]].
    apply mapM_inv in S'.
    assert (F1 : Forall2 (fun k q => fst q = k /\ (exists v, dict_get k attrs = Some v /\
               copied_attribute E R c k v (snd q))) names attrs1).
    { clear -F0 F S'. revert st1 attrs1 F S'.
      induction F0 as [|k p names st H F0 IH]; intros st1 attrs1 F S'; inversion F; subst;
        inversion S'; subst; constructor; [|eapply IH; eauto].
      destruct H as [e [v [Hv H]]]. destruct H2 as [e1 H2].
      cbv beta in H3. binv H3 w Hw. inversion H3; subst; clear H3. cbn [fst snd].
      split; [congruence|]. exists v. split; [congruence|].
      destruct H as [[NT Hs]|[T [x [t [Hx [Ht Hs]]]]]]; rewrite Hs in H2.
      - destruct (snd y) as [w'|]; [|contradiction]. cbn in Hw. inversion Hw; subst.
        split; [intros X; contradiction | intros _; exact H2].
      - destruct (snd y) as [|t']; [contradiction|]. subst t'. cbn in Hw. binv Hw x' Hx'.
        inversion Hw; subst. split; [intros _; exists x, t, x'; auto | intros X; contradiction]. }
    destruct (lookup_names (fun k w => exists v, dict_get k attrs = Some v /\ copied_attribute E R c k v w)
                _ _ ND F1) as [A B].
    constructor; [congruence| |].
    + intros k v [_ [l' [L' I]]] Gv. assert (l' = l) by congruence; subst l'.
      destruct (A k (In2 _ _ I Gv)) as [w [Hw [v' [Hv' C]]]]. exists w. split; [exact Hw|]. congruence.
    + intros k w Gw. destruct (B k w Gw) as [I [v [Hv C]]]. split.
      * split; [exact Fg|]. exists l. auto.
      * exists v. auto.
Qed.

(** ** The invariant *)

Section Rebuild.
Variable how : how.
Variable h0 : cheap.
Hypothesis closed0 : closed h0.

Definition complete (h : cheap) (R : nat -> nat -> Prop) (x y : nat) : Prop :=
  exists o o', nth_error h0 x = Some o /\ nth_error h y = Some o' /\ copy_of E R o o'.

Definition inv (h : cheap) (m : memo) : Prop :=
  grows h0 h /\ NoDup (map fst m) /\ NoDup (map snd m) /\
  (forall x y, rel m x y -> x < length h0 /\ length h0 <= y < length h).

Definition step (h : cheap) (m : memo) (h' : cheap) (m' : memo) : Prop :=
  grows h h' /\
  (exists new, m' = new ++ m /\
     forall x y, In (x, y) new -> length h <= y /\ complete h' (rel m') x y) /\
  inv h' m'.

Lemma complete_mono : forall h h' (R R' : nat -> nat -> Prop) x y, grows h h' ->
  (forall a b, R a b -> R' a b) -> complete h R x y -> complete h' R' x y.
Proof.
  intros h h' R R' x y G S [o [o' [H1 [H2 H3]]]]. exists o, o'. split; [exact H1|].
  split; [eapply grows_nth; eauto | eapply copy_of_mono; eauto].
Qed.

Lemma step_refl : forall h m, inv h m -> step h m h m.
Proof.
  intros h m I. split; [apply grows_refl|]. split; [|exact I]. exists []. split; [reflexivity|].
  intros x y [].
Qed.
Lemma step_trans : forall h m h1 m1 h2 m2, step h m h1 m1 -> step h1 m1 h2 m2 -> step h m h2 m2.
Proof.
  intros h m h1 m1 h2 m2 [G1 [[n1 [-> N1]] I1]] [G2 [[n2 [-> N2]] I2]].
  split; [eapply grows_trans; eauto|]. split; [|exact I2].
  exists (n2 ++ n1). split; [now rewrite app_assoc|].
  intros x y H. apply in_app_or in H. destruct H as [H|H].
  - destruct (N2 x y H) as [L C]. split; [apply grows_length in G1; lia | exact C].
  - destruct (N1 x y H) as [L C]. split; [exact L|].
    eapply complete_mono; [exact G2| |exact C]. intros a b R. apply in_or_app. now right.
Qed.
Lemma step_rel : forall h m h' m' x y, step h m h' m' -> rel m x y -> rel m' x y.
Proof. intros h m h' m' x y [_ [[n [-> _]] _]] R. apply in_or_app. now right. Qed.

Definition inside (v : pval) : Prop := forall a, v = PRef a -> a < length h0.

Definition good (rec : cheap -> memo -> pval -> res (cheap * memo * pval)) : Prop :=
  forall h m v h' m' w, rec h m v = Ok (h', m', w) -> inv h m -> inside v ->
  step h m h' m' /\ copied E (rel m') v w.

Lemma rebuild_state_ok : forall rec, good rec -> forall st h m h' m' st',
  rebuild_state rec h m st = Ok (h', m', st') -> inv h m ->
  (forall k v, In (k, SVal v) st -> inside v) ->
  step h m h' m' /\ Forall2 (srel (rel m')) st st'.
Proof.
  intros rec Hrec st; induction st as [|[k [v|s]] st IH]; intros h m h' m' st' H I In0; cbn in H.
  - inversion H; subst. split; [now apply step_refl | constructor].
  - binv H r Hr. destruct r as [[h1 m1] w]. binv H r2 Hr2. destruct r2 as [[h2 m2] st2].
    inversion H; subst.
    destruct (Hrec _ _ _ _ _ _ Hr I (In0 k v (or_introl eq_refl))) as [S1 C1].
    destruct (IH _ _ _ _ _ Hr2 (proj2 (proj2 S1)) (fun k' v' X => In0 k' v' (or_intror X))) as [S2 F2].
    split; [eapply step_trans; eauto|]. constructor; [|exact F2].
    split; [reflexivity|]. cbn. eapply copied_mono; [|exact C1]. intros; eapply step_rel; eauto.
  - binv H r2 Hr2. destruct r2 as [[h2 m2] st2]. inversion H; subst.
    destruct (IH _ _ _ _ _ Hr2 I (fun k' v' X => In0 k' v' (or_intror X))) as [S2 F2].
    split; [exact S2|]. constructor; [|exact F2]. now split.
Qed.

Lemma rebuild_items_ok : forall rec t, good rec -> forall items h m h' m' items',
  rebuild_items rec t h m items = Ok (h', m', items') -> inv h m ->
  (forall v, In v items -> inside v) ->
  step h m h' m' /\ Forall2 (copied E (rel m')) items items'.
Proof.
  intros rec t Hrec items; induction items as [|v items IH]; intros h m h' m' items' H I In0; cbn in H.
  - inversion H; subst. split; [now apply step_refl | constructor].
  - binv H r Hr. destruct r as [[h1 m1] w].
    destruct (match t with Some t => item_is h1 w t | None => true end); [|discriminate].
    binv H r2 Hr2. destruct r2 as [[h2 m2] items2]. inversion H; subst.
    destruct (Hrec _ _ _ _ _ _ Hr I (In0 v (or_introl eq_refl))) as [S1 C1].
    destruct (IH _ _ _ _ _ Hr2 (proj2 (proj2 S1)) (fun v' X => In0 v' (or_intror X))) as [S2 F2].
    split; [eapply step_trans; eauto|]. constructor; [|exact F2].
    eapply copied_mono; [|exact C1]. intros; eapply step_rel; eauto.
Qed.

(** A new object is entered in the memo ... *)
Lemma inv_enter : forall h m a o, inv h m -> a < length h0 -> memo_get a m = None ->
  inv (h ++ [o]) ((a, length h) :: m).
Proof.
  intros h m a o [G [N1 [N2 B]]] La Ha.
  split; [eapply grows_trans; [exact G | apply grows_app]|].
  split; [cbn; constructor; [now apply memo_get_none | exact N1]|].
  split.
  - cbn. constructor; [|exact N2]. intros I. apply in_map_iff in I. destruct I as [[x y] [e I]].
    cbn in e; subst y. destruct (B _ _ I). lia.
  - intros x y [e|I].
    + inversion e; subst. split; [exact La|]. rewrite app_length. cbn. apply grows_length in G. lia.
    + destruct (B _ _ I). rewrite app_length. cbn. lia.
Qed.

(** ... and completed. *)
Lemma step_finish : forall h m a o h1 m1 o1 o', inv h m ->
  nth_error h0 a = Some o ->
  step (h ++ [o1]) ((a, length h) :: m) h1 m1 -> copy_of E (rel m1) o o' ->
  step h m (replace_nth (length h) o' h1) m1.
Proof.
  intros h m a o h1 m1 o1 o' I Ho [G [[new [-> Hn]] [I0 [I1 [I2 I3]]]]] C.
  assert (L : length h < length h1).
  { apply grows_length in G. rewrite app_length in G. cbn in G. lia. }
  split; [eapply grows_replace; exact G|]. split.
  - exists (new ++ [(a, length h)]). split; [now rewrite <- app_assoc|].
    intros x y H. apply in_app_or in H. destruct H as [H|[e|[]]].
    + destruct (Hn x y H) as [Ly [p [p' [P1 [P2 P3]]]]]. rewrite app_length in Ly. cbn in Ly.
      split; [lia|]. exists p, p'. split; [exact P1|]. split; [|exact P3].
      rewrite replace_nth_other; [exact P2 | lia].
    + inversion e; subst. split; [lia|]. exists o, o'. split; [exact Ho|]. split; [|exact C].
      now apply replace_nth_same.
  - split; [|split; [exact I1 | split; [exact I2|]]].
    + destruct I as [G0 _]. eapply grows_trans; [exact G0 | eapply grows_replace; exact G].
    + intros x y R. rewrite replace_nth_length. now apply I3.
Qed.

Lemma rebuild_good : forall n, good (rebuild E how n).
Proof.
  induction n as [|n IH]; intros h m v h' m' w H I Hin; [discriminate|].
  cbn [rebuild] in H.
  destruct v as [nv|a|f|al|k|k|x].
  - destruct nv; try (inversion H; subst; split; [now apply step_refl | constructor]).
    binv H k' Hk. inversion H; subst. split; [now apply step_refl | now constructor].
  - pose proof (Hin a eq_refl) as La.
    destruct (memo_get a m) as [b|] eqn:M.
    { inversion H; subst. split; [now apply step_refl | constructor; now apply memo_get_in]. }
    assert (Hh : nth_error h a = nth_error h0 a) by (apply grows_nth_lt; [apply I | exact La]).
    destruct (nth_error h a) as [[c attrs|t items]|] eqn:Ha; [| |discriminate].
    + symmetry in Hh. pose proof (closed0 _ _ Hh) as Cl. cbn in Cl.
      binv H st Hst. binv H r Hr. destruct r as [[h1 m1] st1]. binv H attrs1 Hs. inversion H; subst.
      assert (In0 : forall k v, In (k, SVal v) st -> inside v).
      { intros k v Hv b ->. pose proof (setstate_saved _ _ _ Hs) as Sv.
        destruct (saved c) as [l|] eqn:L; [|congruence].
        destruct (getstate_inv _ _ _ _ L Hst) as [names [_ [_ [_ F]]]].
        clear -F Hv Cl. induction F as [|k0 p names st P F IHF]; [destruct Hv|].
        destruct Hv as [e|Hv]; [|auto]. subst p. destruct P as [_ [v [G [[_ X]|[_ [x [s [_ [_ X]]]]]]]]]; cbn in X.
        - inversion X; subst. apply dict_get_in in G. eapply Cl; eauto.
        - discriminate. }
      destruct (rebuild_state_ok _ IH _ _ _ _ _ _ Hr (inv_enter _ _ _ _ I La M) In0) as [S F].
      assert (C : copy_of E (rel m') (CInst c attrs) (CInst c attrs1)) by (eapply instance_copy; eauto).
      split; [eapply step_finish; eauto|]. constructor.
      eapply step_rel; [exact S|]. now left.
    + symmetry in Hh. pose proof (closed0 _ _ Hh) as Cl. cbn in Cl.
      assert (In0 : forall v, In v items -> inside v) by (intros v Hv b ->; now apply Cl).
      destruct how.
      * binv H r Hr. destruct r as [[h1 m1] items1]. inversion H; subst.
        destruct (rebuild_items_ok _ _ IH _ _ _ _ _ _ Hr (inv_enter _ _ _ _ I La M) In0) as [S F].
        split; [eapply step_finish; eauto; now constructor|]. constructor.
        eapply step_rel; [exact S|]. now left.
      * binv H r Hr. destruct r as [[h1 m1] items1].
        destruct (rebuild_items_ok _ _ IH _ _ _ _ _ _ Hr (inv_enter _ _ _ _ I La M) In0) as [S F].
        destruct items1; [|discriminate]. inversion H; subst. inversion F; subst.
        cbn in Hr. inversion Hr; subst.
        split; [|constructor; now left].
        assert (Hrep : h ++ [CList t []] = replace_nth (length h) (CList t []) (h ++ [CList t []])).
        { rewrite replace_nth_app. reflexivity. }
        rewrite Hrep. eapply step_finish; eauto. constructor. constructor.
      * binv H r Hr. destruct r as [[h1 m1] items1].
        destruct (rebuild_items_ok _ _ IH _ _ _ _ _ _ Hr I In0) as [S F].
        destruct (memo_get a m1) as [b|] eqn:M1; inversion H; subst.
        { split; [exact S | constructor; now apply memo_get_in]. }
        assert (I1 : inv h1 m1) by apply S.
        assert (S2 : step h1 m1 (h1 ++ [CList t items1]) ((a, length h1) :: m1)).
        { split; [apply grows_app|]. split; [|now apply inv_enter].
          exists [(a, length h1)]. split; [reflexivity|]. intros x y [e|[]]. inversion e; subst.
          split; [lia|]. exists (CList t items), (CList t items1). split; [exact Hh|].
          split.
          - rewrite nth_error_app2, Nat.sub_diag; [reflexivity | lia].
          - constructor. eapply Forall2_impl; [|exact F]. intros p q X. eapply copied_mono; [|exact X].
            intros; now right. }
        split; [eapply step_trans; eauto|]. constructor. now left.
  - inversion H; subst; split; [now apply step_refl | constructor].
  - inversion H; subst; split; [now apply step_refl | constructor].
  - binv H k' Hk. inversion H; subst. split; [now apply step_refl | now constructor].
  - binv H k' Hk. inversion H; subst. split; [now apply step_refl | now constructor].
  - binv H k' Hk. inversion H; subst. split; [now apply step_refl | now constructor].
Qed.
End Rebuild.

Lemma NoDup_fst : forall (m : memo) x y y', NoDup (map fst m) -> rel m x y -> rel m x y' -> y = y'.
Proof.
  induction m as [|[p q] m IH]; intros x y y' N H H'; [destruct H|].
  cbn in N. inversion N as [|? ? N1 N2]; subst. destruct H as [e|H], H' as [e'|H'].
  - congruence.
  - inversion e; subst. exfalso. apply N1. apply in_map_iff. now exists (x, y').
  - inversion e'; subst. exfalso. apply N1. apply in_map_iff. now exists (x, y).
  - eapply IH; eauto.
Qed.
Lemma NoDup_snd : forall (m : memo) x x' y, NoDup (map snd m) -> rel m x y -> rel m x' y -> x = x'.
Proof.
  induction m as [|[p q] m IH]; intros x x' y N H H'; [destruct H|].
  cbn in N. inversion N as [|? ? N1 N2]; subst. destruct H as [e|H], H' as [e'|H'].
  - congruence.
  - inversion e; subst. exfalso. apply N1. apply in_map_iff. now exists (x', y).
  - inversion e'; subst. exfalso. apply N1. apply in_map_iff. now exists (x, y).
  - eapply IH; eauto.
Qed.

Lemma make_copy_rebuild : forall hw n h v h' w, make_copy E hw n h v = Ok (h', w) ->
  exists m, rebuild E hw n h [] v = Ok (h', m, w).
Proof.
  intros hw n h v h' w H. destruct hw; cbn in H.
  - binv H r Hr. destruct r as [[h1 m1] w1]. inversion H; subst. now exists m1.
  - binv H d Hd. binv H r Hr. destruct r as [[h1 m1] w1]. inversion H; subst. now exists m1.
  - binv H d Hd. binv H r Hr. destruct r as [[h1 m1] w1]. inversion H; subst. now exists m1.
Qed.

Lemma rebuild_correspondence : forall hw n h a h' m w, closed h -> a < length h ->
  rebuild E hw n h [] (PRef a) = Ok (h', m, w) ->
  (exists new, h' = h ++ new) /\ correspondence E h h' (rel m) /\ exists b, rel m a b /\ w = PRef b.
Proof.
  intros hw n h a h' m w C L Hm.
  assert (I : inv h h []).
  { split; [apply grows_refl|]. split; [constructor|]. split; [constructor|]. intros x y []. }
  assert (In0 : inside h (PRef a)) by (intros b e; inversion e; subst; exact L).
  destruct (rebuild_good hw h C n _ _ _ _ _ _ Hm I In0) as [[G [[new [-> Hn]] [I0 [I1 [I2 I3]]]]] Cp].
  split; [exact G|].
  rewrite app_nil_r in *.
  inversion Cp as [x b Rab| | | | | | | | | | | | |]; subst.
  split; [|exists b; auto]. constructor.
  - intros x y R. destruct (I3 x y R). lia.
  - intros x y R. apply (Hn x y R).
  - intros x y y' R R'. eapply NoDup_fst; eauto.
  - intros x x' y R R'. eapply NoDup_snd; eauto.
Qed.

Lemma make_copy_correspondence : forall hw n h a h' w, closed h -> a < length h ->
  make_copy E hw n h (PRef a) = Ok (h', w) ->
  (exists new, h' = h ++ new) /\
  exists R b, correspondence E h h' R /\ R a b /\ w = PRef b.
Proof.
  intros hw n h a h' w C L H. destruct (make_copy_rebuild _ _ _ _ _ _ H) as [m Hm].
  destruct (rebuild_correspondence _ _ _ _ _ _ _ C L Hm) as [G [Co [b [Rab e]]]].
  split; [exact G|]. exists (rel m), b. auto.
Qed.
End Facts.
