(** Proofs about effects and decisions (C90). *)
From Coq Require Import Lia.
From Verif Require Import Vocab SpecVocab.

Lemma str_in_In : forall s l, str_in s l = true <-> In s l.
Proof.
  intros s l. unfold str_in. rewrite existsb_exists. split.
  - intros (x & H & E). apply String.eqb_eq in E. subst. exact H.
  - intro H. exists s. split; [exact H|apply String.eqb_refl].
Qed.

Lemma str_in_notin : forall s l, ~ In s l -> str_in s l = false.
Proof.
  intros s l H. destruct (str_in s l) eqn:E; [|reflexivity]. apply str_in_In in E. tauto.
Qed.

Lemma same_family_iff : forall a b, same_family a b = true <-> a = b.
Proof. intros [] []; split; intro H; first [reflexivity|discriminate]. Qed.

Lemma text_of_some : forall f objs x s, text_of f objs x = Some s <-> stands_for objs f x s.
Proof.
  intros f objs x s. split.
  - destruct x as [v|i]; cbn.
    + destruct v; intro H; inversion H; constructor.
    + destruct (nth_error objs i) as [[c v]|] eqn:E; [|discriminate].
      destruct (same_family (vc_family c) f) eqn:F; [|discriminate].
      intro H. inversion H. subst. apply same_family_iff in F. econstructor; eassumption.
  - intros [s0|i c v E F]; cbn; [reflexivity|]. rewrite E.
    apply same_family_iff in F. rewrite F. reflexivity.
Qed.

Lemma text_of_none : forall f objs x,
  text_of f objs x = None <-> forall s, ~ stands_for objs f x s.
Proof.
  intros f objs x. split.
  - intros H s S. apply text_of_some in S. congruence.
  - intro H. destruct (text_of f objs x) as [s|] eqn:E; [|reflexivity].
    apply text_of_some in E. destruct (H _ E).
Qed.

Lemma stands_for_fun : forall objs f x s t, stands_for objs f x s -> stands_for objs f x t -> s = t.
Proof. intros objs f x s t A B. apply text_of_some in A. apply text_of_some in B. congruence. Qed.

Lemma checked_ok : forall c objs x s, checked c objs x = Ok s <-> taken objs c x s.
Proof.
  intros c objs x s. unfold checked, taken. rewrite <- str_in_In, <- text_of_some.
  destruct (text_of _ objs x) as [t|].
  - destruct (str_in t (vc_types c)) eqn:E; split.
    + intro H. inversion H. subst. auto.
    + intros [H _]. inversion H. subst. reflexivity.
    + discriminate.
    + intros [H K]. inversion H. congruence.
  - split; [discriminate|]. intros [H _]. discriminate.
Qed.

Lemma checked_cases : forall c objs x,
  (exists s, taken objs c x s /\ checked c objs x = Ok s) \/
  (exists s, stands_for objs (vc_family c) x s /\ ~ In s (vc_types c) /\ checked c objs x = Raise EAttributeError) \/
  ((forall s, ~ stands_for objs (vc_family c) x s) /\ checked c objs x = Raise ETypeError).
Proof.
  intros c objs x. unfold checked, taken.
  destruct (text_of (vc_family c) objs x) as [s|] eqn:E.
  - apply text_of_some in E. destruct (str_in s (vc_types c)) eqn:F.
    + left. apply str_in_In in F. eauto.
    + right; left. exists s. split; [exact E|]. split; [|reflexivity].
      intro H. apply str_in_In in H. congruence.
  - right; right. split; [exact (proj1 (text_of_none _ _ _) E)|reflexivity].
Qed.

Lemma equals_cases : forall c v objs x,
  (exists s, taken objs c x s /\ equals c v objs x = Ok (String.eqb v s)) \/
  (exists s, stands_for objs (vc_family c) x s /\ ~ In s (vc_types c) /\ equals c v objs x = Raise EAttributeError) \/
  ((forall s, ~ stands_for objs (vc_family c) x s) /\ equals c v objs x = Raise EUnboundLocalError).
Proof.
  intros c v objs x. unfold equals, taken.
  destruct (text_of (vc_family c) objs x) as [s|] eqn:E.
  - apply text_of_some in E. destruct (str_in s (vc_types c)) eqn:F.
    + left. apply str_in_In in F. eauto.
    + right; left. exists s. split; [exact E|]. split; [|reflexivity].
      intro H. apply str_in_In in H. congruence.
  - right; right. split; [exact (proj1 (text_of_none _ _ _) E)|reflexivity].
Qed.

Lemma put_spec : forall i v objs, differ_at i v objs (put i v objs).
Proof.
  intros i v objs. split.
  - revert objs. induction i as [|i IH]; intros [|[c0 w0] r] c w H; cbn in *; try discriminate.
    + inversion H. reflexivity.
    + apply IH with w. exact H.
  - revert objs. induction i as [|i IH]; intros [|[c0 w0] r] [|j] Hj; cbn; try reflexivity; try lia.
    apply IH. lia.
Qed.

Lemma put_length : forall i v objs, length (put i v objs) = length objs.
Proof.
  induction i as [|i IH]; intros v [|[c w] r]; cbn; try reflexivity. rewrite IH. reflexivity.
Qed.

(** Every step keeps the objects but the one assigned to, and adds at most one. *)
Lemma vstep_frame : forall objs o r objs', vstep objs o = Some (r, objs') ->
  (exists i x c w s, o = VSet i x /\ r = Ok VDone /\ nth_error objs i = Some (c, w) /\
     taken objs c x s /\ objs' = put i s objs) \/
  (objs' = objs /\ forall k, r <> Ok (VObject k)) \/
  (exists c s, objs' = (objs ++ [(c, s)])%list /\ r = Ok (VObject (length objs)) /\
     ((exists x, o = VNew c x /\ initial c objs x = Ok s) \/
      (exists i, o = VCopy i /\ nth_error objs i = Some (c, s)))).
Proof.
  intros objs o r objs' H. destruct o; cbn in H; unfold on_object in H.
  - destruct (initial c objs x) as [s|e] eqn:E; inversion H; subst.
    + right; right. exists c, s. split; [reflexivity|]. split; [reflexivity|]. left. eauto.
    + right; left. split; [reflexivity|discriminate].
  - destruct (nth_error objs i) as [[c w]|] eqn:E; [|discriminate].
    destruct (checked c objs x) as [s|e] eqn:F; inversion H; subst.
    + left. apply checked_ok in F. exists i, x, c, w, s. auto.
    + right; left. split; [reflexivity|discriminate].
  - destruct (nth_error objs i) as [[c w]|] eqn:E; [|discriminate]. inversion H; subst.
    right; right. exists c, w. split; [reflexivity|]. split; [reflexivity|]. right. eauto.
  - destruct (py_equal objs x y) as [[b|e]|]; inversion H; subst; right; left; (split; [reflexivity|discriminate]).
  - destruct (py_unequal objs x y) as [[b|e]|]; inversion H; subst; right; left; (split; [reflexivity|discriminate]).
  - destruct (nth_error objs i) as [[c w]|] eqn:E; [|discriminate].
    destruct (py_in objs i l) as [b|e]; inversion H; subst; right; left; (split; [reflexivity|discriminate]).
  - destruct (nth_error objs i) as [[c w]|] eqn:E; [|discriminate]. inversion H; subst.
    right; left. split; [reflexivity|discriminate].
  - destruct (nth_error objs i) as [[c w]|] eqn:E; [|discriminate]. inversion H; subst.
    right; left. split; [reflexivity|discriminate].
  - destruct (nth_error objs i) as [[c w]|] eqn:E; [|discriminate]. inversion H; subst.
    right; left. split; [reflexivity|discriminate].
Qed.

(** ** Invariants *)
Definition in_words (objs : vobjects) : Prop :=
  forall i c v, nth_error objs i = Some (c, v) -> In v (vc_types c).

Lemma initial_taken : forall c objs x s, initial c objs x = Ok s -> In s (vc_types c).
Proof.
  intros c objs x s H. unfold initial in H.
  destruct (vc_fixed c); destruct x; try discriminate;
    try (apply checked_ok in H; exact (proj2 H)).
  destruct (vc_family c); try discriminate; apply checked_ok in H; exact (proj2 H).
Qed.

Lemma nth_error_snoc : forall {A} (l : list A) x i y,
  nth_error (l ++ [x])%list i = Some y -> nth_error l i = Some y \/ (i = length l /\ y = x).
Proof.
  intros A l x i y H. destruct (Nat.lt_ge_cases i (length l)) as [L|G].
  - rewrite nth_error_app1 in H by exact L. left. exact H.
  - rewrite nth_error_app2 in H by exact G. right.
    destruct (i - length l) as [|n] eqn:E; cbn in H.
    + inversion H. split; [lia|reflexivity].
    + destruct n; discriminate.
Qed.

Lemma nth_error_grow : forall {A} (l m : list A) i y,
  nth_error l i = Some y -> nth_error (l ++ m)%list i = Some y.
Proof.
  intros A l m i y H. rewrite nth_error_app1; [exact H|]. apply nth_error_Some. congruence.
Qed.

Lemma vstep_words : forall objs o r objs', vstep objs o = Some (r, objs') -> in_words objs -> in_words objs'.
Proof.
  intros objs o r objs' H W.
  destruct (vstep_frame _ _ _ _ H) as [(i & x & c & w & s & _ & _ & E & [_ T] & P)|[[P _]|(c & s & P & _ & D)]]; subst objs'.
  - intros j d v J. destruct (put_spec i s objs) as [P1 P2].
    destruct (Nat.eq_dec j i) as [->|N].
    + rewrite (P1 _ _ E) in J. inversion J. subst. exact T.
    + rewrite (P2 _ N) in J. exact (W _ _ _ J).
  - exact W.
  - intros j d v J. apply nth_error_snoc in J. destruct J as [J|[_ J]]; [exact (W _ _ _ J)|].
    inversion J; subst. destruct D as [(x & _ & I)|(i & _ & I)]; [exact (initial_taken _ _ _ _ I)|exact (W _ _ _ I)].
Qed.

Lemma vrun_words : forall ops objs, in_words objs -> in_words (vrun ops objs).
Proof.
  induction ops as [|o ops IH]; intros objs W; [exact W|]. cbn. apply IH.
  destruct (vstep objs o) as [[r objs']|] eqn:E; [|exact W]. exact (vstep_words _ _ _ _ E W).
Qed.

Lemma in_words_nil : in_words [].
Proof. intros [|i] c v H; discriminate. Qed.

Lemma vrun_app : forall a b objs, vrun (a ++ b) objs = vrun b (vrun a objs).
Proof. intros. apply fold_left_app. Qed.
Lemma vrun_cons : forall o b objs,
  vrun (o :: b) objs = vrun b (match vstep objs o with Some (_, objs') => objs' | None => objs end).
Proof. reflexivity. Qed.
Lemma vrun_nil : forall objs, vrun [] objs = objs.
Proof. reflexivity. Qed.

(** One step and the value of one object. *)
Lemma vstep_value : forall objs o i c v, nth_error objs i = Some (c, v) ->
  let objs' := match vstep objs o with Some (_, objs') => objs' | None => objs end in
  (exists x s, o = VSet i x /\ taken objs c x s /\ nth_error objs' i = Some (c, s)) \/
  ((forall x s, o = VSet i x -> ~ taken objs c x s) /\ nth_error objs' i = Some (c, v)).
Proof.
  intros objs o i c v E objs'. subst objs'.
  assert (D : (exists x, o = VSet i x) \/ (forall x, o <> VSet i x)).
  { destruct o; try (right; discriminate).
    destruct (Nat.eq_dec i0 i) as [->|N]; [left; eauto|right; congruence]. }
  destruct D as [[x ->]|D].
  - cbn. unfold on_object. rewrite E.
    destruct (checked_cases c objs x) as [(s & T & K)|[(s & T & N & K)|(N & K)]]; rewrite K.
    + left. exists x, s. split; [reflexivity|]. split; [exact T|]. exact (proj1 (put_spec i s objs) _ _ E).
    + right. split; [|exact E]. intros y t H [T1 T2]. inversion H; subst y.
      rewrite (stands_for_fun _ _ _ _ _ T T1) in N. tauto.
    + right. split; [|exact E]. intros y t H [T1 T2]. inversion H; subst y. exact (N _ T1).
  - right. split; [intros x s H; destruct (D _ H)|].
    destruct (vstep objs o) as [[r objs']|] eqn:S; [|exact E].
    destruct (vstep_frame _ _ _ _ S) as [(j & x & d & w & s & -> & _ & J & T & P)|[[P N]|(d & s & P & _)]]; subst objs'.
    + rewrite (proj2 (put_spec j s objs)); [exact E|]. intros ->. exact (D x eq_refl).
    + exact E.
    + apply nth_error_grow. exact E.
Qed.

Lemma vrun_value : forall ops objs i c v, nth_error objs i = Some (c, v) ->
  exists w, nth_error (vrun ops objs) i = Some (c, w) /\
  ((w = v /\ forall before x after s, ops = (before ++ VSet i x :: after)%list ->
      ~ taken (vrun before objs) c x s) \/
   (exists before x after, ops = (before ++ VSet i x :: after)%list /\
      taken (vrun before objs) c x w /\
      forall between y rest s, after = (between ++ VSet i y :: rest)%list ->
        ~ taken (vrun (before ++ VSet i x :: between) objs) c y s)).
Proof.
  induction ops as [|o ops IH] using rev_ind; intros objs i c v E.
  - exists v. split; [exact E|]. left. split; [reflexivity|].
    intros [|b before] x after s H; discriminate.
  - destruct (IH objs i c v E) as (w & W & C). rewrite vrun_app, vrun_cons, vrun_nil.
    destruct (vstep_value _ o _ _ _ W) as [(x & s & -> & T & N)|[D N]].
    + exists s. split; [exact N|]. right. exists ops, x, []. split; [reflexivity|]. split; [exact T|].
      intros [|b between] y rest t H; discriminate.
    + exists w. split; [exact N|]. destruct C as [[-> C]|(before & x & after & -> & T & C)].
      * left. split; [reflexivity|]. intros before x after s H.
        destruct after as [|a after] using rev_ind.
        -- apply app_inj_tail in H. destruct H as [-> ->]. apply D. reflexivity.
        -- clear IHafter. rewrite app_comm_cons, app_assoc in H. apply app_inj_tail in H. destruct H as [-> _].
           eapply C. reflexivity.
      * right. exists before, x, (after ++ [o])%list. split; [rewrite <- app_assoc; reflexivity|].
        split; [exact T|]. intros between y rest s H.
        destruct rest as [|a rest] using rev_ind.
        -- apply app_inj_tail in H. destruct H as [-> ->]. apply D. reflexivity.
        -- clear IHrest. rewrite app_comm_cons, app_assoc in H. apply app_inj_tail in H. destruct H as [-> _].
           eapply C. reflexivity.
Qed.

(** ** Comparison *)
Lemma equals_taken : forall c v objs x s, taken objs c x s -> equals c v objs x = Ok (String.eqb v s).
Proof.
  intros c v objs x s [T I]. apply text_of_some in T. apply str_in_In in I.
  unfold equals. rewrite T, I. reflexivity.
Qed.

Lemma py_equal_words : forall objs i j c d v w, in_words objs ->
  nth_error objs i = Some (c, v) -> nth_error objs j = Some (d, w) -> same_words c d ->
  py_equal objs (VRef i) (VRef j) = Some (Ok (String.eqb v w)).
Proof.
  intros objs i j c d v w W Hi Hj [F S]. unfold py_equal. rewrite Hi, Hj.
  destruct (derived_from d c).
  - rewrite (equals_taken d w objs (VRef i) v); [rewrite String.eqb_sym; reflexivity|].
    split; [econstructor; eassumption|]. apply S. exact (W _ _ _ Hi).
  - rewrite (equals_taken c v objs (VRef j) w); [reflexivity|].
    split; [econstructor; [eassumption|congruence]|]. apply S. exact (W _ _ _ Hj).
Qed.

Lemma same_words_sym : forall c d, same_words c d -> same_words d c.
Proof. intros c d [F S]. split; [congruence|]. intro s. split; apply S. Qed.
Lemma same_words_refl : forall c, same_words c c.
Proof. intro c. split; [reflexivity|]. tauto. Qed.

Lemma told_apart_skip : forall objs i c v y l, in_words objs ->
  nth_error objs i = Some (c, v) -> told_apart objs c v y -> py_in objs i (y :: l) = py_in objs i l.
Proof.
  intros objs i c v y l W Hi [(s & -> & I & N)|(j & d & w & -> & J & S & N)]; cbn [py_in].
  - unfold py_equal. rewrite Hi. cbv iota zeta.
    rewrite (equals_taken c v objs _ s) by (split; [constructor|exact I]).
    rewrite (proj2 (String.eqb_neq v s)); [reflexivity|congruence].
  - destruct (Nat.eqb_spec j i) as [->|Nj]; [congruence|].
    rewrite (py_equal_words objs j i d c w v W J Hi (same_words_sym _ _ S)).
    rewrite (proj2 (String.eqb_neq w v) N). reflexivity.
Qed.

Lemma told_apart_all : forall objs i c v pre l, in_words objs ->
  nth_error objs i = Some (c, v) -> (forall y, In y pre -> told_apart objs c v y) ->
  py_in objs i (pre ++ l)%list = py_in objs i l.
Proof.
  intros objs i c v pre l W Hi. induction pre as [|y pre IH]; intro A; [reflexivity|].
  cbn [app]. rewrite (told_apart_skip _ _ _ _ _ _ W Hi (A y (or_introl eq_refl))).
  apply IH. intros z Hz. apply A. right. exact Hz.
Qed.
