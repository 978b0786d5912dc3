(** Lemmas about XPath selection. *)
From Verif Require Import XPathSelect SpecXPath ReadFacts.
From Coq Require Import Lia.
Local Open Scope list_scope.

(** ** Positions *)
Definition pn : Type := (list nat * node)%type.
Definition put (i : nat) (q : pn) : pn := (i :: fst q, snd q).

Fixpoint kidsp (i : nat) (l : list node) : list (nat * node) :=
  match l with [] => [] | k :: r => (i, k) :: kidsp (S i) r end.
Fixpoint belowp (n : node) : list pn :=
  match n with
  | Elem _ _ _ kids =>
      (fix go i l := match l with
                     | [] => []
                     | k :: r => (([i], k) :: map (put i) (belowp k)) ++ go (S i) r
                     end) 0 kids
  | Comment _ => []
  end.
Definition belowl : nat -> list node -> list pn :=
  fix go i l := match l with
                | [] => []
                | k :: r => (([i], k) :: map (put i) (belowp k)) ++ go (S i) r
                end.

Lemma belowp_elem : forall t a x kids, belowp (Elem t a x kids) = belowl 0 kids.
Proof. reflexivity. Qed.

Lemma map_snd_put : forall i l, map snd (map (put i) l) = map snd l.
Proof. intros i l. rewrite map_map. apply map_ext. intros [q m]. reflexivity. Qed.

Lemma below_snd : forall n, map snd (belowp n) = below n.
Proof.
  induction n as [t|tag a t kids IH] using node_ind'; [reflexivity|].
  rewrite belowp_elem. cbn [below]. generalize 0. induction IH as [|k kids Hk _ IH2]; intros i; [reflexivity|].
  cbn [belowl flat_map]. rewrite map_app. cbn [map snd]. rewrite map_snd_put, Hk. f_equal. f_equal. apply IH2.
Qed.

Lemma kidsp_snd : forall l i, map snd (kidsp i l) = l.
Proof. induction l as [|k l IH]; intros i; cbn [kidsp map snd]; [reflexivity|]. rewrite IH. reflexivity. Qed.
Lemma kidsp_in : forall l i j k, In (j, k) (kidsp i l) <-> i <= j /\ nth_error l (j - i) = Some k.
Proof.
  induction l as [|x l IH]; intros i j k; cbn [kidsp].
  - split; [intros []|]. intros [_ H]. destruct (j - i); discriminate.
  - cbn [In]. rewrite IH. split.
    + intros [H|[H1 H2]].
      * assert (i = j /\ x = k) as [-> ->] by (split; congruence). rewrite Nat.sub_diag. split; [lia|reflexivity].
      * split; [lia|]. replace (j - i) with (S (j - S i)) by lia. exact H2.
    + intros [H1 H2]. destruct (Nat.eq_dec i j) as [<-|N].
      * rewrite Nat.sub_diag in H2. cbn in H2. left. congruence.
      * right. split; [lia|]. replace (j - i) with (S (j - S i)) in H2 by lia. exact H2.
Qed.

Lemma belowp_in : forall n q m, In (q, m) (belowp n) <-> q <> [] /\ place n q = Some m.
Proof.
  induction n as [t|tag a t kids IH] using node_ind'; intros q m.
  - cbn [belowp]. split; [intros []|]. intros [H1 H2]. destruct q; [congruence|discriminate].
  - rewrite belowp_elem.
    assert (G : forall i, In (q, m) (belowl i kids) <->
      exists j r k, q = j :: r /\ i <= j /\ nth_error kids (j - i) = Some k /\ place k r = Some m).
    { induction IH as [|k kids Hk _ IH2]; intros i; cbn [belowl].
      - split; [intros []|]. intros (j & r & k & _ & _ & H & _). destruct (j - i); discriminate.
      - change (In (q, m) ((([i], k) :: map (put i) (belowp k)) ++ belowl (S i) kids) <->
          exists j r k0, q = j :: r /\ i <= j /\ nth_error (k :: kids) (j - i) = Some k0 /\ place k0 r = Some m).
        rewrite in_app_iff, IH2. cbn [In]. rewrite in_map_iff. split.
        + intros [[H|([q' m'] & H1 & H2)]|(j & r & k' & -> & H1 & H2 & H3)].
          * exists i, [], k. assert (q = [i] /\ k = m) as [-> ->] by (split; congruence).
            rewrite Nat.sub_diag. repeat split; auto.
          * apply Hk in H2. destruct H2 as [_ H2]. unfold put in H1. cbn [fst snd] in H1.
            assert (q = i :: q' /\ m' = m) as [-> ->] by (split; congruence).
            exists i, q', k. rewrite Nat.sub_diag. repeat split; auto.
          * exists j, r, k'. replace (j - i) with (S (j - S i)) by lia. repeat split; auto. lia.
        + intros (j & r & k' & -> & H1 & H2 & H3). destruct (Nat.eq_dec i j) as [<-|N].
          * rewrite Nat.sub_diag in H2. cbn in H2. assert (k' = k) as -> by congruence. left.
            destruct r as [|r0 r]; [left; cbn in H3; congruence|]. right. exists (r0 :: r, m).
            split; [reflexivity|]. apply Hk. split; [discriminate|exact H3].
          * right. exists j, r, k'. replace (j - i) with (S (j - S i)) in H2 by lia. repeat split; auto. lia. }
    rewrite G. split.
    + intros (j & r & k & -> & _ & H1 & H2). split; [discriminate|]. cbn [place].
      rewrite Nat.sub_0_r in H1. rewrite H1. exact H2.
    + intros [H1 H2]. destruct q as [|j r]; [congruence|]. cbn [place] in H2.
      destruct (nth_error kids j) as [k|] eqn:E; [|discriminate]. exists j, r, k.
      rewrite Nat.sub_0_r. repeat split; auto. lia.
Qed.

Lemma belowp_nodup : forall n, NoDup (map fst (belowp n)).
Proof.
  induction n as [t|tag a t kids IH] using node_ind'; [constructor|].
  rewrite belowp_elem. generalize 0.
  assert (B : forall i l q, In q (map fst (belowl i l)) -> exists j r, q = j :: r /\ i <= j).
  { intros i l. revert i. induction l as [|k l IHl]; intros i q; [intros []|].
    cbn [belowl]. rewrite map_app, in_app_iff. cbn [map fst In]. intros [[<-|H]|H].
    - exists i, []. auto.
    - rewrite in_map_iff in H. destruct H as ([q' m'] & <- & H). apply in_map_iff in H.
      destruct H as ([q'' m''] & H & _). unfold put in H. cbn [fst snd] in *. exists i, q''.
      split; [congruence|lia].
    - apply IHl in H. destruct H as (j & r & -> & H). exists j, r. split; [reflexivity|lia]. }
  induction IH as [|k kids Hk _ IH2]; intros i; [constructor|].
  cbn [belowl]. rewrite map_app. cbn [map fst app]. constructor.
  - rewrite in_app_iff. intros [H|H].
    + rewrite in_map_iff in H. destruct H as ([q' m'] & H1 & H). apply in_map_iff in H.
      destruct H as ([q'' m''] & H & H2). unfold put in H. cbn [fst snd] in *.
      apply belowp_in in H2. destruct H2 as [H2 _]. apply H2. congruence.
    + apply B in H. destruct H as (j & r & H & H'). assert (j = i) by congruence. lia.
  - assert (N : NoDup (map fst (map (put i) (belowp k)))).
    { replace (map fst (map (put i) (belowp k))) with (map (cons i) (map fst (belowp k))).
      - apply FinFun.Injective_map_NoDup; [intros x y E; congruence|exact Hk].
      - rewrite !map_map. apply map_ext. intros [q m]. reflexivity. }
    assert (D : forall q, In q (map fst (map (put i) (belowp k))) -> ~ In q (map fst (belowl (S i) kids))).
    { intros q H1 H2. apply B in H2. destruct H2 as (j & r & -> & H2).
      rewrite map_map, in_map_iff in H1. destruct H1 as ([q' m'] & H1 & _). unfold put in H1. cbn [fst] in H1.
      assert (i = j) by congruence. lia. }
    clear B Hk. specialize (IH2 (S i)). revert N D IH2. generalize (map fst (belowl (S i) kids)).
    intros l2. induction (map fst (map (put i) (belowp k))) as [|q l1 IHl]; intros N D N2; [exact N2|].
    cbn [app]. inversion N; subst. constructor.
    + rewrite in_app_iff. intros [H|H]; [contradiction|]. apply (D q); [left; reflexivity|exact H].
    + apply IHl; auto. intros q' H. apply D. right. exact H.
Qed.

(** Steps over nodes with their places *)
Definition stepp (st : sstep) (l : list pn) : list pn :=
  match st with
  | SSelf => l
  | SChild t => flat_map (fun q => map (fun k => ((fst q ++ [fst k])%list, snd k))
                                     (filter (fun k => tag_is t (snd k)) (kidsp 0 (kids_of (snd q))))) l
  | SDesc t => flat_map (fun q => map (fun k => ((fst q ++ fst k)%list, snd k))
                                    (filter (fun k => tag_is t (snd k)) (belowp (snd q)))) l
  end.
Fixpoint stepsp (steps : list sstep) (l : list pn) : list pn :=
  match steps with [] => l | st :: rest => stepsp rest (stepp st l) end.

Lemma filter_snd : forall A (f : node -> bool) (l : list (A * node)),
  map snd (filter (fun k => f (snd k)) l) = filter f (map snd l).
Proof.
  intros A f. induction l as [|[q m] l IH]; [reflexivity|]. cbn [filter map snd].
  destruct (f m); cbn [map snd]; rewrite IH; reflexivity.
Qed.
Lemma stepp_snd : forall st l, map snd (stepp st l) = run_step st (map snd l).
Proof.
  intros st l. destruct st as [|t|t]; [reflexivity| |]; cbn [stepp run_step];
    induction l as [|[q m] l IH]; try reflexivity; cbn [flat_map map snd fst]; rewrite map_app, map_map, IH;
    f_equal; cbn [snd].
  - rewrite <- (kidsp_snd (kids_of m) 0) at 2. rewrite <- filter_snd. reflexivity.
  - rewrite <- below_snd, <- filter_snd. reflexivity.
Qed.
Lemma stepsp_snd : forall steps l, map snd (stepsp steps l) = run_steps steps (map snd l).
Proof.
  induction steps as [|st rest IH]; intros l; [reflexivity|]. cbn [stepsp run_steps].
  rewrite IH, stepp_snd. reflexivity.
Qed.

Definition step_of (s : axis * option string) : sstep :=
  match s with (Child, t) => SChild t | (Descendant, t) => SDesc t end.

Lemma place_app : forall p n q, place n (p ++ q) = match place n p with Some m => place m q | None => None end.
Proof.
  induction p as [|i p IH]; intros n q; [reflexivity|]. cbn [app place]. destruct n as [t a x kids|t]; [|reflexivity].
  destruct (nth_error kids i); [apply IH|reflexivity].
Qed.
Definition node_tag (k : node) : option string := match k with Elem t _ _ _ => Some t | Comment _ => None end.
Lemma tag_accepts : forall t n, tag_is t n = true <-> accepts t (node_tag n).
Proof.
  intros [t|] n; cbn; [|tauto]. destruct n as [t' a x kids|x]; cbn; [|split; discriminate].
  rewrite String.eqb_eq. split; congruence.
Qed.

(** Members after one step, relative to where it starts *)
Lemma stepp_in : forall s l q m, In (q, m) (stepp (step_of s) l) <->
  exists q0 n0 r, In (q0, n0) l /\ q = (q0 ++ r)%list /\ r <> [] /\ place n0 r = Some m /\
    accepts (snd s) (node_tag m) /\ (fst s = Child -> length r = 1).
Proof.
  intros [[] t] l q m; cbn [step_of stepp fst snd]; rewrite in_flat_map; split.
  - intros ([q0 n0] & H1 & H2). cbn [fst snd] in H2. apply in_map_iff in H2. destruct H2 as ([j k] & E & H2).
    cbn [fst snd] in E. apply filter_In in H2. destruct H2 as [H2 H3]. cbn [snd] in H3.
    apply kidsp_in in H2. destruct H2 as [_ H2]. rewrite Nat.sub_0_r in H2.
    assert (q = (q0 ++ [j])%list /\ k = m) as [-> ->] by (split; congruence).
    exists q0, n0, [j]. split; [exact H1|]. split; [reflexivity|]. split; [discriminate|]. split.
    + destruct n0 as [t' a x kids|x]; cbn [kids_of] in H2; [cbn [place]; rewrite H2; reflexivity|].
      destruct j; discriminate.
    + split; [apply tag_accepts, H3|reflexivity].
  - intros (q0 & n0 & r & H1 & -> & H2 & H3 & H4 & H5). specialize (H5 eq_refl).
    destruct r as [|j [|]]; try discriminate. exists (q0, n0). split; [exact H1|]. cbn [fst snd].
    apply in_map_iff. exists (j, m). split; [reflexivity|]. apply filter_In. split; [|apply tag_accepts, H4].
    apply kidsp_in. split; [lia|]. rewrite Nat.sub_0_r. destruct n0 as [t' a x kids|x]; [|discriminate].
    cbn [place kids_of] in *. destruct (nth_error kids j); congruence.
  - intros ([q0 n0] & H1 & H2). cbn [fst snd] in H2. apply in_map_iff in H2. destruct H2 as ([r k] & E & H2).
    cbn [fst snd] in E. apply filter_In in H2. destruct H2 as [H2 H3]. cbn [snd] in H3.
    apply belowp_in in H2. destruct H2 as [H2 H4].
    assert (q = (q0 ++ r)%list /\ k = m) as [-> ->] by (split; congruence).
    exists q0, n0, r. repeat split; auto; [apply tag_accepts, H3|discriminate].
  - intros (q0 & n0 & r & H1 & -> & H2 & H3 & H4 & _). exists (q0, n0). split; [exact H1|]. cbn [fst snd].
    apply in_map_iff. exists (r, m). split; [reflexivity|]. apply filter_In. split; [|apply tag_accepts, H4].
    apply belowp_in. auto.
Qed.

Lemma tags_app : forall p n q m, place n p = Some m -> tags_to n (p ++ q) = (tags_to n p ++ tags_to m q)%list.
Proof.
  induction p as [|i p IH]; intros n q m H; cbn [place] in H.
  - assert (n = m) as -> by congruence. reflexivity.
  - destruct n as [t a x kids|t]; [|discriminate]. cbn [app tags_to].
    destruct (nth_error kids i) as [k|]; [|discriminate]. cbn [app]. f_equal. apply IH, H.
Qed.
(** The tag of a place is the last on the way *)
Lemma tags_last : forall r n m, r <> [] -> place n r = Some m ->
  exists between, tags_to n r = (between ++ [node_tag m])%list /\ length between = pred (length r).
Proof.
  induction r as [|i r IH]; intros n m H P; [congruence|]. cbn [place tags_to] in *.
  destruct n as [t a x kids|t]; [|discriminate]. destruct (nth_error kids i) as [k|]; [|discriminate].
  destruct r as [|j r].
  - cbn in P. assert (k = m) as -> by congruence. exists []. split; reflexivity.
  - destruct (IH k m) as (b & E & L); [discriminate|exact P|]. rewrite E.
    exists ((match k with Elem t0 _ _ _ => Some t0 | Comment _ => None end) :: b). split; [reflexivity|].
    cbn [length pred] in *. lia.
Qed.

Lemma tags_length : forall r n m, place n r = Some m -> length (tags_to n r) = length r.
Proof.
  induction r as [|i r IH]; intros n m P; [reflexivity|]. cbn [place tags_to] in *.
  destruct n as [t a x kids|t]; [|discriminate]. destruct (nth_error kids i) as [k|]; [|discriminate].
  cbn [length]. f_equal. eapply IH; eauto.
Qed.

Lemma stepsp_in : forall p l q m, In (q, m) (stepsp (map step_of p) l) <->
  exists q0 n0 r, In (q0, n0) l /\ q = (q0 ++ r)%list /\ place n0 r = Some m /\ leads p (tags_to n0 r).
Proof.
  induction p as [|s p IH]; intros l q m; cbn [map stepsp].
  - split.
    + intros H. exists q, m, []. rewrite app_nil_r. repeat split; auto. constructor.
    + intros (q0 & n0 & r & H1 & -> & H2 & H3). assert (E : tags_to n0 r = []) by (inversion H3; congruence).
      assert (r = []) as ->.
      { destruct r as [|i r]; [reflexivity|]. apply tags_length in H2. rewrite E in H2. discriminate. }
      rewrite app_nil_r. cbn in H2. congruence.
  - rewrite IH. split.
    + intros (q1 & n1 & r1 & H1 & -> & H2 & H3). apply stepp_in in H1.
      destruct H1 as (q0 & n0 & r0 & A & -> & B & C & D & E).
      exists q0, n0, (r0 ++ r1)%list. split; [exact A|]. split; [rewrite app_assoc; reflexivity|].
      split; [rewrite place_app, C; exact H2|]. rewrite (tags_app _ _ _ _ C).
      destruct (tags_last r0 n0 n1 B C) as (b & F & G). rewrite F, <- app_assoc. cbn [app].
      destruct s as [[] t]; cbn [fst snd] in *.
      * specialize (E eq_refl). rewrite E in G. destruct b; [|discriminate]. constructor; assumption.
      * constructor; assumption.
    + intros (q0 & n0 & r & A & -> & B & C).
      assert (K : exists r0 r1, r = (r0 ++ r1)%list /\ r0 <> [] /\ leads p (skipn (length r0) (tags_to n0 r)) /\
                 (exists b tag, firstn (length r0) (tags_to n0 r) = (b ++ [tag])%list /\ accepts (snd s) tag) /\
                 (fst s = Child -> length r0 = 1)).
      { pose proof (tags_length _ _ _ B) as L. inversion C as [|t p' tag tags Ha Hl E1 E2|t p' b tag tags Ha Hl E1 E2]; subst.
        - destruct r as [|i r]; [rewrite <- E2 in L; discriminate|]. exists [i], r. cbn [fst snd length app skipn firstn].
          split; [reflexivity|]. split; [discriminate|]. split; [exact Hl|]. split; [|reflexivity].
          exists [], tag. split; [reflexivity|exact Ha].
        - exists (firstn (S (length b)) r), (skipn (S (length b)) r). rewrite firstn_skipn.
          assert (M : length (firstn (S (length b)) r) = S (length b)).
          { rewrite firstn_length. rewrite <- E2, app_length in L. cbn [length] in L. lia. }
          rewrite M. split; [reflexivity|]. split; [intros X; rewrite X in M; discriminate|].
          cbn [fst snd]. split; [|split; [|discriminate]].
          + change (tag :: tags) with ([tag] ++ tags)%list. rewrite app_assoc.
            rewrite skipn_app. rewrite skipn_all2 by (rewrite app_length; cbn [length]; lia).
            rewrite app_length. cbn [length app]. replace (S (length b) - (length b + 1)) with 0 by lia. exact Hl.
          + exists b, tag. split; [|exact Ha].
            change (tag :: tags) with ([tag] ++ tags)%list. rewrite app_assoc.
            rewrite firstn_app. rewrite firstn_all2 by (rewrite app_length; cbn [length]; lia).
            rewrite app_length. cbn [length]. replace (S (length b) - (length b + 1)) with 0 by lia.
            cbn [firstn]. rewrite app_nil_r. reflexivity. }
      destruct K as (r0 & r1 & -> & K1 & K2 & (b & tag & K3 & K4) & K5).
      rewrite place_app in B. destruct (place n0 r0) as [n1|] eqn:P; [|discriminate].
      rewrite (tags_app _ _ _ _ P) in *. pose proof (tags_length _ _ _ P) as L.
      rewrite skipn_app, skipn_all2 in K2 by lia. rewrite firstn_app, firstn_all2 in K3 by lia.
      rewrite L, Nat.sub_diag in *. cbn [skipn firstn app] in *. rewrite app_nil_r in K3.
      destruct (tags_last r0 n0 n1 K1 P) as (b' & F & _). rewrite F in K3.
      apply app_inj_tail in K3. destruct K3 as [_ <-].
      exists (q0 ++ r0)%list, n1, r1. split; [|split; [rewrite app_assoc; reflexivity|split; assumption]].
      apply stepp_in. exists q0, n0, r0. repeat split; auto.
Qed.

(** ** No place twice *)
Lemma nodup_flat : forall A B C (g : B -> C) (f : A -> list B) (l : list A),
  NoDup l -> (forall x, In x l -> NoDup (map g (f x))) ->
  (forall x y b c, In x l -> In y l -> In b (f x) -> In c (f y) -> g b = g c -> x = y) ->
  NoDup (map g (flat_map f l)).
Proof.
  intros A B C g f l Hl. induction Hl as [|x l Hx Hl IH]; intros H1 H2; [constructor|].
  cbn [flat_map]. rewrite map_app.
  assert (D : forall c, In c (map g (f x)) -> ~ In c (map g (flat_map f l))).
  { intros c K1 K2. apply in_map_iff in K1, K2. destruct K1 as (b & E1 & K1), K2 as (b' & E2 & K2).
    apply in_flat_map in K2. destruct K2 as (y & Hy & K2).
    assert (x = y) by (eapply H2; [left; reflexivity|right; exact Hy|exact K1|exact K2|congruence]).
    subst y. contradiction. }
  assert (N : NoDup (map g (flat_map f l))).
  { apply IH; [intros y Hy; apply H1; right; exact Hy|].
    intros y z b c Hy Hz. apply H2; right; assumption. }
  specialize (H1 x (or_introl eq_refl)). revert D H1. induction (map g (f x)) as [|c cs IHc]; intros D H1; [exact N|].
  cbn [app]. inversion H1; subst. constructor.
  - rewrite in_app_iff. intros [K|K]; [contradiction|]. apply (D c); [left; reflexivity|exact K].
  - apply IHc; [|assumption]. intros c' K. apply D. right. exact K.
Qed.

Lemma nodup_filter_fst : forall A B (f : A * B -> bool) l, NoDup (map fst l) -> NoDup (map fst (filter f l)).
Proof.
  intros A B f. induction l as [|x l IH]; intros H; [constructor|]. cbn [map filter] in *.
  inversion H; subst. destruct (f x); [|auto]. cbn [map]. constructor; [|auto].
  intros K. apply in_map_iff in K. destruct K as (y & E & K). apply filter_In in K. apply H2. rewrite <- E.
  apply in_map, K.
Qed.
Lemma nodup_fst : forall A B (l : list (A * B)), NoDup (map fst l) -> NoDup l.
Proof. intros A B l H. apply NoDup_map_inv in H. exact H. Qed.
Lemma fst_inj : forall A B (l : list (A * B)) x y, NoDup (map fst l) -> In x l -> In y l -> fst x = fst y -> x = y.
Proof.
  intros A B. induction l as [|z l IH]; intros x y N Hx Hy E; [contradiction|]. cbn [map] in N. inversion N; subst.
  destruct Hx as [<-|Hx], Hy as [<-|Hy]; auto.
  - exfalso. apply H1. rewrite E. apply in_map, Hy.
  - exfalso. apply H1. rewrite <- E. apply in_map, Hx.
Qed.
Lemma kidsp_nodup : forall l i, NoDup (map fst (kidsp i l)).
Proof.
  induction l as [|k l IH]; intros i; [constructor|]. cbn [kidsp map fst]. constructor; [|apply IH].
  intros H. apply in_map_iff in H. destruct H as ([j k'] & E & H). apply kidsp_in in H. cbn in E. lia.
Qed.

Lemma child_nodup : forall t l, NoDup (map fst l) -> NoDup (map fst (stepp (SChild t) l)).
Proof.
  intros t l N. cbn [stepp]. apply nodup_flat.
  - apply nodup_fst, N.
  - intros [q n] H. rewrite map_map. cbn [fst snd].
    pose proof (nodup_filter_fst _ _ (fun k => tag_is t (snd k)) _ (kidsp_nodup (kids_of n) 0)) as K.
    apply (FinFun.Injective_map_NoDup (f := fun i => (q ++ [i])%list)) in K.
    + rewrite map_map in K. exact K.
    + intros x y E. apply app_inj_tail in E. apply E.
  - intros [q n] [q' n'] b c H1 H2 H3 H4 E. apply in_map_iff in H3, H4.
    destruct H3 as (k & <- & _), H4 as (k' & <- & _). cbn [fst snd] in E. apply app_inj_tail in E.
    apply (fst_inj _ _ l); auto. apply E.
Qed.
Lemma desc_nodup : forall t d l, NoDup (map fst l) -> (forall q n, In (q, n) l -> length q = d) ->
  NoDup (map fst (stepp (SDesc t) l)).
Proof.
  intros t d l N L. cbn [stepp]. apply nodup_flat.
  - apply nodup_fst, N.
  - intros [q n] H. rewrite map_map. cbn [fst snd].
    pose proof (nodup_filter_fst _ _ (fun k => tag_is t (snd k)) _ (belowp_nodup n)) as K.
    apply (FinFun.Injective_map_NoDup (f := fun r => (q ++ r)%list)) in K.
    + rewrite map_map in K. exact K.
    + intros x y E. apply app_inv_head in E. exact E.
  - intros [q n] [q' n'] b c H1 H2 H3 H4 E. apply in_map_iff in H3, H4.
    destruct H3 as (k & <- & _), H4 as (k' & <- & _). cbn [fst snd] in E.
    apply (fst_inj _ _ l); auto. cbn [fst].
    apply (f_equal (firstn d)) in E. rewrite !firstn_app, (L q n H1), (L q' n' H2), Nat.sub_diag in E.
    rewrite !firstn_all2 in E by (rewrite ?(L q n H1), ?(L q' n' H2); lia). cbn [firstn] in E.
    rewrite !app_nil_r, ?firstn_all2 in E by (rewrite ?(L q n H1), ?(L q' n' H2); lia). exact E.
Qed.

Lemma stepsp_nodup_children : forall p l, descents p = 0 -> NoDup (map fst l) ->
  NoDup (map fst (stepsp (map step_of p) l)).
Proof.
  induction p as [|[[] t] p IH]; intros l D N; cbn [map stepsp step_of]; [exact N| |discriminate].
  apply IH; [exact D|apply child_nodup, N].
Qed.
Lemma stepsp_nodup : forall p d l, descents p <= 1 -> NoDup (map fst l) ->
  (forall q n, In (q, n) l -> length q = d) -> NoDup (map fst (stepsp (map step_of p) l)).
Proof.
  induction p as [|[[] t] p IH]; intros d l D N L; cbn [map stepsp step_of]; [exact N| |].
  - apply (IH (S d)); [exact D|apply child_nodup, N|]. intros q n H.
    apply (stepp_in (Child, t)) in H. destruct H as (q0 & n0 & r & H & -> & _ & _ & _ & K).
    rewrite app_length, (L _ _ H), (K eq_refl). lia.
  - cbn [descents] in D. apply stepsp_nodup_children; [lia|]. eapply desc_nodup; eauto.
Qed.

(** ** Written paths *)
Definition tok (t : option string) : token := match t with Some n => TName n | None => TStar end.
Fixpoint toks (p : path) : list token :=
  match p with
  | [] => []
  | (Child, t) :: r => TSlash :: tok t :: toks r
  | (Descendant, t) :: r => TDSlash :: tok t :: toks r
  end.

Lemma str_app_assoc : forall a b c : string, (a ++ b ++ c)%string = ((a ++ b) ++ c)%string.
Proof. induction a as [|x a IH]; intros b c; cbn [append]; [reflexivity|]. rewrite IH. reflexivity. Qed.
Lemma str_app_nil : forall a : string, (a ++ "")%string = a.
Proof. induction a as [|x a IH]; cbn [append]; [reflexivity|]. rewrite IH. reflexivity. Qed.

Lemma chr_app : forall a c s, ((a ++ chr c) ++ s)%string = (a ++ String c s)%string.
Proof. intros a c s. unfold chr. rewrite <- str_app_assoc. reflexivity. Qed.

Lemma letter_ok : forall c, letter c = true ->
  ends_name c = false /\ not_first c = false /\ Ascii.eqb c "/" = false /\ Ascii.eqb c "." = false /\
  Ascii.eqb c "*" = false /\ Ascii.eqb c open_b = false /\ Ascii.eqb c ":" = false.
Proof.
  intros [[] [] [] [] [] [] [] []]; vm_compute; intros H; try discriminate H; repeat split.
Qed.
Lemma rest_ok : forall c, name_rest c = true ->
  ends_name c = false /\ Ascii.eqb c "/" = false /\ Ascii.eqb c ":" = false.
Proof.
  intros [[] [] [] [] [] [] [] []]; vm_compute; intros H; try discriminate H; repeat split.
Qed.
Lemma uri_char_ok : forall c, negb (has_char c "{}") = true -> Ascii.eqb c close_b = false.
Proof.
  intros [[] [] [] [] [] [] [] []]; vm_compute; intros H; try discriminate H; reflexivity.
Qed.

(** Within a name *)
Lemma tok_name_rest : forall l acc s, every name_rest l ->
  tokenize (MName acc) (l ++ s)%string = tokenize (MName (acc ++ l)) s.
Proof.
  induction l as [|c l IH]; intros acc s H.
  - rewrite str_app_nil. reflexivity.
  - destruct H as [H1 H2]. destruct (rest_ok c H1) as (A & B & C). cbn [append tokenize].
    rewrite B, A, C. cbn [andb]. rewrite IH by exact H2. f_equal. f_equal. rewrite chr_app. reflexivity.
Qed.
Lemma tok_uri : forall u acc s, every (fun c => negb (has_char c "{}")) u ->
  tokenize (MUri acc) (u ++ s)%string = tokenize (MUri (acc ++ u)) s.
Proof.
  induction u as [|c u IH]; intros acc s H.
  - rewrite str_app_nil. reflexivity.
  - destruct H as [H1 H2]. pose proof (uri_char_ok c H1) as A. cbn [append tokenize].
    rewrite A. rewrite IH by exact H2. rewrite chr_app. reflexivity.
Qed.

Lemma every_letter : forall l, local_name l -> every name_rest l.
Proof.
  intros [|c l] H; [exact I|]. destruct H as [H1 H2]. split; [|exact H2].
  unfold name_rest. rewrite H1. reflexivity.
Qed.

Lemma tok_close : forall acc c s, ends_name c = false -> Ascii.eqb c "*" = false -> acc <> "" -> acc <> "*" ->
  tokenize (MUri acc) (String "}" (String c s)) =
  tokenize (MName (chr open_b ++ acc ++ chr close_b)) (String c s).
Proof.
  intros acc c s A E U1 U2. apply String.eqb_neq in U1, U2.
  assert (K : forall s', tokenize (MUri acc) (String "}" s') =
    match s' with
    | "" => None
    | String d _ =>
        if orb (ends_name d) (orb (Ascii.eqb d "*") (orb (String.eqb acc "") (String.eqb acc "*")))
        then None
        else tokenize (MName (chr open_b ++ acc ++ chr close_b)) s'
    end) by reflexivity.
  rewrite K, A, E, U1, U2. reflexivity.
Qed.

(** One name, from between tokens or after one "/" *)
Lemma tok_tag : forall n s, tag_name n ->
  tokenize MStart (n ++ s)%string = tokenize (MName n) s /\
  tokenize MSlash (n ++ s)%string = option_map (cons TSlash) (tokenize (MName n) s).
Proof.
  intros n s H. destruct H as [l H|u l Hu H].
  - destruct l as [|c l]; [destruct H|]. destruct H as [H1 H2].
    destruct (letter_ok c H1) as (A & B & C & D & E & F & G). cbn [append tokenize].
    rewrite C, D, E, F, B, tok_name_rest by exact H2. split; reflexivity.
  - destruct Hu as (U1 & U2 & U3). destruct l as [|c l]; [destruct H|].
    destruct (letter_ok c (proj1 H)) as (A & _ & _ & _ & E & _).
    assert (K : tokenize (MUri "") ((u ++ "}" ++ String c l) ++ s)%string =
                tokenize (MName ("{" ++ u ++ "}" ++ String c l)%string) s).
    { rewrite <- str_app_assoc, tok_uri by exact U3.
      change ("" ++ u)%string with u.
      change ((("}" ++ String c l) ++ s))%string with (String "}" (String c (l ++ s))).
      rewrite (tok_close u c (l ++ s)) by assumption.
      change (String c (l ++ s)) with (String c l ++ s)%string.
      rewrite tok_name_rest by (apply every_letter, H). f_equal. f_equal.
      change (chr open_b) with "{"%string. change (chr close_b) with "}"%string.
      rewrite <- !str_app_assoc. reflexivity. }
    split.
    + change (("{" ++ u ++ "}" ++ String c l) ++ s)%string with (String "{" ((u ++ "}" ++ String c l) ++ s))%string.
      change (tokenize MStart (String "{" ((u ++ "}" ++ String c l) ++ s))%string) with
        (tokenize (MUri "") ((u ++ "}" ++ String c l) ++ s)%string). exact K.
    + change (("{" ++ u ++ "}" ++ String c l) ++ s)%string with (String "{" ((u ++ "}" ++ String c l) ++ s))%string.
      change (tokenize MSlash (String "{" ((u ++ "}" ++ String c l) ++ s))%string) with
        (option_map (cons TSlash) (tokenize (MUri "") ((u ++ "}" ++ String c l) ++ s)%string)).
      rewrite K. reflexivity.
Qed.

Lemma tag_nonempty : forall n, tag_name n -> n <> "".
Proof. intros n [l H|u l _ _]; [destruct l; [destruct H|discriminate]|discriminate]. Qed.

(** A rendered path begins with "/" or is empty. *)
Lemma tok_name_end : forall n p, n <> "" ->
  tokenize (MName n) (render p) = option_map (cons (TName n)) (tokenize MStart (render p)).
Proof.
  intros n [|[[] t] p] H; [|reflexivity|reflexivity]. cbn [render tokenize].
  apply String.eqb_neq in H. rewrite H. reflexivity.
Qed.
Lemma tok_test : forall t p, (forall n, t = Some n -> tag_name n) ->
  tokenize MStart (test_text t ++ render p)%string = option_map (cons (tok t)) (tokenize MStart (render p)) /\
  tokenize MSlash (test_text t ++ render p)%string =
    option_map (cons TSlash) (option_map (cons (tok t)) (tokenize MStart (render p))).
Proof.
  intros [n|] p H; cbn [test_text tok].
  - specialize (H n eq_refl). destruct (tok_tag n (render p) H) as [A B]. rewrite A, B.
    rewrite tok_name_end by (apply tag_nonempty, H). auto.
  - split; reflexivity.
Qed.

Lemma ok_tail : forall s p, path_ok (s :: p) -> path_ok p.
Proof. intros s p H a t K. apply (H a t). right. exact K. Qed.
Lemma ok_head : forall a t p, path_ok ((a, t) :: p) -> forall n, t = Some n -> tag_name n.
Proof. intros a t p H n ->. apply (H a n). left. reflexivity. Qed.

Lemma tok_render : forall p, path_ok p -> tokenize MStart (render p) = Some (toks p).
Proof.
  induction p as [|[[] t] p IH]; intros H; [reflexivity| |]; specialize (IH (ok_tail _ _ H));
    destruct (tok_test t p (ok_head _ _ _ H)) as [A B]; cbn [render toks].
  - change (tokenize MStart ("/" ++ test_text t ++ render p)) with (tokenize MSlash (test_text t ++ render p)).
    rewrite B, IH. reflexivity.
  - change (tokenize MStart ("//" ++ test_text t ++ render p)) with
      (option_map (cons TDSlash) (tokenize MStart (test_text t ++ render p))).
    rewrite A, IH. reflexivity.
Qed.
Lemma tok_dot : forall p, path_ok p -> tokenize MStart ("." ++ render p) = Some (TDot :: toks p).
Proof.
  intros p H. pose proof (tok_render p H) as K. destruct p as [|[a t] p]; [reflexivity|].
  assert (E : exists s, render ((a, t) :: p) = String "/" s).
  { destruct a; [exists (test_text t ++ render p)%string|exists ("/" ++ test_text t ++ render p)%string]; reflexivity. }
  destruct E as [s E]. rewrite E in *.
  change (tokenize MStart ("." ++ String "/" s)) with (option_map (cons TDot) (tokenize MStart (String "/" s))).
  rewrite K. reflexivity.
Qed.

(** ** Making the selector *)
Lemma compile_ok : forall p fuel, length (toks p) < fuel ->
  (forall t, compile (S fuel) (tok t :: toks p) = Ok (SChild t :: map step_of p)) /\
  (forall t, compile (S fuel) (TDSlash :: tok t :: toks p) = Ok (SDesc t :: map step_of p)) /\
  compile (S fuel) (TDot :: toks p) = Ok (SSelf :: map step_of p).
Proof.
  induction p as [|[a u] p IH]; intros fuel H.
  - repeat split; intros []; reflexivity.
  - assert (L : length (toks ((a, u) :: p)) = S (S (length (toks p)))) by (destruct a; reflexivity).
    rewrite L in H. destruct fuel as [|fuel]; [lia|].
    destruct (IH fuel ltac:(lia)) as (A & B & C).
    assert (K : forall st, (match toks ((a, u) :: p) with
        | [] => Ok [st]
        | [TSlash] => Ok [st]
        | TSlash :: rest' => let* l := compile (S fuel) rest' in Ok (st :: l)
        | _ => let* l := compile (S fuel) (toks ((a, u) :: p)) in Ok (st :: l)
        end) = Ok (st :: map step_of ((a, u) :: p))).
    { intros st. destruct a; cbn [toks map step_of].
      - rewrite A. reflexivity.
      - rewrite B. reflexivity. }
    split; [|split].
    + intros [n|]; apply K.
    + intros [n|]; apply K.
    + apply K.
Qed.

Lemma last_app : forall a b, b <> "" -> last_char (a ++ b)%string = last_char b.
Proof.
  induction a as [|c a IH]; intros b H; [reflexivity|]. cbn [append last_char].
  rewrite IH by exact H. destruct (a ++ b)%string eqn:E; [|reflexivity].
  destruct a; [cbn in E; congruence|discriminate].
Qed.
Definition no_slash_end (s : string) : Prop := match last_char s with Some c => Ascii.eqb c "/" = false | None => True end.
Lemma every_last : forall l, every name_rest l -> no_slash_end l.
Proof.
  unfold no_slash_end. induction l as [|c l IH]; intros H; [exact I|]. destruct H as [H1 H2]. cbn [last_char].
  destruct l; [apply (rest_ok c H1)|apply IH, H2].
Qed.
Lemma test_last : forall t, (forall n, t = Some n -> tag_name n) -> no_slash_end (test_text t) /\ test_text t <> "".
Proof.
  intros [n|] H; [|split; [reflexivity|discriminate]]. specialize (H n eq_refl). cbn [test_text].
  split; [|apply tag_nonempty, H]. destruct H as [l H|u l _ H]; [apply every_last, every_letter, H|].
  unfold no_slash_end. rewrite str_app_assoc, str_app_assoc, last_app.
  - apply every_last, every_letter, H.
  - destruct l; [destruct H|discriminate].
Qed.
Lemma render_last : forall p, path_ok p -> no_slash_end (render p).
Proof.
  induction p as [|[a t] p IH]; intros H; [exact I|]. specialize (IH (ok_tail _ _ H)).
  destruct (test_last t (ok_head _ _ _ H)) as [A B].
  assert (K : forall s, no_slash_end (s ++ test_text t ++ render p)).
  { intros s. unfold no_slash_end in *. destruct (render p) as [|c r] eqn:E.
    - rewrite str_app_nil, last_app by exact B. exact A.
    - rewrite str_app_assoc, last_app by discriminate. exact IH. }
  destruct a; apply K.
Qed.

Lemma findall_written : forall root s steps toks0, no_slash_end s -> startswith "/" s = false ->
  tokenize MStart s = Some toks0 -> compile (S (length toks0)) toks0 = Ok steps ->
  findall root s = Some (Ok (run_steps steps [root])).
Proof.
  intros root s steps toks0 H1 H2 H3 H4. unfold findall, no_slash_end in *.
  assert (E : (match last_char s with
               | Some c => if Ascii.eqb c "/" then (s ++ "*")%string else s
               | None => s end) = s).
  { destruct (last_char s) as [c|]; [rewrite H1|]; reflexivity. }
  rewrite E, H2, H3. cbv zeta. rewrite H4. reflexivity.
Qed.

(** ** Selection by written paths *)
Lemma start_tag : forall t s, (forall n, t = Some n -> tag_name n) -> startswith "/" (test_text t ++ s)%string = false.
Proof.
  intros [n|] s H; [|reflexivity]. specialize (H n eq_refl). destruct H as [l H|u l _ _]; [|reflexivity].
  destruct l as [|c l]; [destruct H|]. destruct (letter_ok c (proj1 H)) as (_ & _ & C & _).
  cbn [test_text append]. unfold startswith. cbn [String.prefix]. destruct (ascii_dec "/" c) as [<-|N]; [discriminate|reflexivity].
Qed.

Lemma start_slash : forall s, startswith "/" (String "/" s) = true.
Proof. intros s. unfold startswith. destruct s; reflexivity. Qed.

Lemma findall_path : forall root p s, path_ok p -> written p s ->
  findall root (rel_path s) = Some (Ok (run_steps (map step_of p) [root])).
Proof.
  intros root p s Hp Hw.
  assert (D : findall root ("." ++ render p) = Some (Ok (run_steps (map step_of p) [root]))).
  { change (run_steps (map step_of p) [root]) with (run_steps (SSelf :: map step_of p) [root]).
    apply (findall_written root ("." ++ render p)%string _ (TDot :: toks p)).
    - pose proof (render_last p Hp) as L. unfold no_slash_end in *.
      destruct (render p) as [|c r] eqn:E; [reflexivity|]. rewrite last_app by discriminate. exact L.
    - reflexivity.
    - apply tok_dot, Hp.
    - apply (compile_ok p (length (TDot :: toks p))). cbn [length]. lia. }
  destruct Hw as [p Hne|p|t p].
  - assert (E : rel_path (render p) = ("." ++ render p)%string).
    { unfold rel_path. destruct p as [|[[] t] p]; [congruence| |]; cbn [render append];
        rewrite start_slash; reflexivity. }
    rewrite E. exact D.
  - exact D.
  - assert (E : rel_path (test_text t ++ render p) = (test_text t ++ render p)%string).
    { unfold rel_path. rewrite start_tag by apply (ok_head _ _ _ Hp). reflexivity. }
    rewrite E. apply (findall_written root _ _ (tok t :: toks p)).
    + destruct (test_last t (ok_head _ _ _ Hp)) as [A B]. pose proof (render_last p (ok_tail _ _ Hp)) as L.
      unfold no_slash_end in *. destruct (render p) as [|c r] eqn:R.
      * rewrite str_app_nil. exact A.
      * rewrite last_app by discriminate. exact L.
    + apply start_tag, (ok_head _ _ _ Hp).
    + destruct (tok_test t p (ok_head _ _ _ Hp)) as [A _]. rewrite A, (tok_render p (ok_tail _ _ Hp)). reflexivity.
    + apply (compile_ok p (length (tok t :: toks p))). cbn [length]. lia.
Qed.

Lemma select_places : forall root p s, path_ok p -> written p s ->
  exists found : list pn,
    select_text root s = Some (Ok (map (fun q => text_at (snd q)) found)) /\
    (forall q m, In (q, m) found <-> place root q = Some m /\ leads p (tags_to root q)) /\
    (descents p <= 1 -> NoDup (map fst found)).
Proof.
  intros root p s Hp Hw. exists (stepsp (map step_of p) [([], root)]). split; [|split].
  - unfold select_text. rewrite (findall_path root p s Hp Hw). cbn [option_map bind]. do 2 f_equal.
    change [root] with (map snd [([] : list nat, root)]). rewrite <- stepsp_snd, map_map. apply map_ext.
    intros [q m]. reflexivity.
  - intros q m. rewrite stepsp_in. split.
    + intros (q0 & n0 & r & [H|[]] & -> & H2 & H3).
      assert (q0 = [] /\ n0 = root) as [-> ->] by (split; congruence). auto.
    + intros [H1 H2]. exists [], root, q. split; [left; reflexivity|auto].
  - intros D. apply (stepsp_nodup p 0); [exact D|repeat constructor; auto|].
    intros q n [H|[]]. assert (q = []) as -> by congruence. reflexivity.
Qed.
