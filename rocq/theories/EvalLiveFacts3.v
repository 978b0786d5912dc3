(** Facts about operations performed while a policy is evaluated. *)
From Verif Require Import SpecEvalLive EvalLiveFacts2 ObjectsFacts ObjectsFacts3.
From Coq Require Import Lia Relations.

(** ** Operations elsewhere *)

Lemma meanwhile_other : forall cm b x evs s, nth_error (os_heap s) b = Some x ->
  (forall o, In o (performed evs) -> touches o <> Some b) ->
  Forall (fun h => nth_error h b = Some x) (meanwhile cm s evs).
Proof.
  intros cm b x. induction evs as [|[|o] evs IH]; intros s N T; cbn in *; [constructor| |].
  - constructor; [exact N | apply IH; assumption].
  - apply IH; [|intros o' I; apply T; right; exact I]. apply ostep_other; [apply T; left; reflexivity | exact N].
Qed.

Lemma part_object : forall h p c b, well_formed h -> (forall a, p = PRef a \/ c = PRef a -> nth_error h a <> None) ->
  part_of h p c b -> nth_error h b <> None.
Proof. intros h p c b W H (a & Q & R). exact (reaches_object h a b W (H a Q) R). Qed.

(** ** Operations that add to a list *)
Section Adds.
Variable cm : list (string * avclass).
Variables a l : nat.
Variable c : pval.

Definition grown_list (h h' : heap) : Prop :=
  (exists t items more, nth_error h l = Some (PTypedList t items) /\
     nth_error h' l = Some (PTypedList t (items ++ more))) /\
  (forall b, part_of h (PRef a) c b -> b <> l -> nth_error h' b = nth_error h b).

Lemma grown_part : forall h h' b, grown_list h h' -> part_of h (PRef a) c b -> part_of h' (PRef a) c b.
Proof.
  intros h h' b ((t & items & more & N & N') & K) (x & Q & R). exists x. split; [exact Q|].
  apply Operators_Properties.clos_rt_rtn1 in R. apply Operators_Properties.clos_rtn1_rt.
  assert (X : part_of h (PRef a) c x) by (exists x; split; [exact Q | apply rt_refl]).
  clear Q. induction R as [|y z F R IH]; [constructor|].
  apply (Relation_Operators.rtn1_trans _ _ x y z); [|exact IH].
  assert (Y : part_of h (PRef a) c y).
  { destruct X as (w & Qw & Rw). exists w. split; [exact Qw|]. eapply rt_trans; [exact Rw|].
    apply Operators_Properties.clos_rtn1_rt; exact R. }
  destruct (Nat.eq_dec y l) as [D|D].
  - destruct F as [y z name G|y z t' items' M I].
    + unfold get_attr in G. rewrite D, N in G. discriminate G.
    + rewrite D in M |- *. rewrite N in M. injection M as <- <-. apply (refers_item h' l z t (items ++ more) N').
      apply in_or_app; left; exact I.
  - pose proof (K y Y D) as E. destruct F as [y z name G|y z t' items' M I].
    + apply (refers_attribute h' y z name). unfold get_attr in G |- *. rewrite E. exact G.
    + apply (refers_item h' y z t' items'); [rewrite E; exact M | exact I].
Qed.

Lemma grown_trans : forall h1 h2 h3, grown_list h1 h2 -> grown_list h2 h3 -> grown_list h1 h3.
Proof.
  intros h1 h2 h3 G1 G2. pose proof (fun b => grown_part h1 h2 b G1) as P.
  destruct G1 as ((t & i1 & m1 & N1 & N2) & K1), G2 as ((t' & i2 & m2 & N2' & N3) & K2). split.
  - rewrite N2 in N2'. injection N2' as <- <-. exists t, i1, (m1 ++ m2). rewrite app_assoc. split; assumption.
  - intros b Pb D. rewrite (K2 b (P b Pb) D). apply K1; assumption.
Qed.

Lemma grown_refl : forall h t items, nth_error h l = Some (PTypedList t items) -> grown_list h h.
Proof. intros h t items N. split; [|reflexivity]. exists t, items, []. rewrite app_nil_r. split; exact N. Qed.

Lemma adds_step : forall s o t items, nth_error (os_heap s) l = Some (PTypedList t items) ->
  (forall b, part_of (os_heap s) (PRef a) c b -> nth_error (os_heap s) b <> None) ->
  ((exists lo, o = OList l lo) \/ forall b, touches o = Some b -> ~ part_of (os_heap s) (PRef a) c b) ->
  (part_of (os_heap s) (PRef a) c l) ->
  grown_list (os_heap s) (os_heap (snd (ostep cm s o))).
Proof.
  intros s o t items N E H Pl.
  assert (K : (forall b, part_of (os_heap s) (PRef a) c b -> b <> l -> touches o <> Some b) ->
    forall b, part_of (os_heap s) (PRef a) c b -> b <> l ->
    nth_error (os_heap (snd (ostep cm s o))) b = nth_error (os_heap s) b).
  { intros T b Pb D. destruct (nth_error (os_heap s) b) as [x|] eqn:Nb; [|destruct (E b Pb Nb)].
    apply ostep_other; [apply T; assumption | exact Nb]. }
  destruct H as [(lo & ->)|H].
  - split; [|apply K; intros b _ D Q; injection Q; congruence].
    exists t, items. cbn [ostep]. rewrite N.
    assert (X : exists r more, tl_step (fun v => isinstance (os_heap s) v t) items lo = (r, items ++ more)).
    { destruct lo as [x|it|it]; cbn; unfold tl_append, tl_extend, tl_iadd.
      - destruct (isinstance _ x t); [exists (Ok tt), [x]; reflexivity | exists (Raise ETypeError), []; rewrite app_nil_r; reflexivity].
      - destruct (iterate it) as [xs it']. destruct (forallb _ xs);
          [eexists; eexists; reflexivity | exists (Raise ETypeError), []; rewrite app_nil_r; reflexivity].
      - destruct (iterate it) as [xs it']. destruct (forallb _ xs);
          [eexists; eexists; reflexivity | exists (Raise ETypeError), []; rewrite app_nil_r; reflexivity]. }
    destruct X as (r & more & X). rewrite X. exists more. split; [reflexivity|]. cbn [snd os_heap].
    eapply nth_replace_same; exact N.
  - split; [|apply K; intros b Pb _ Q; exact (H b Q Pb)].
    exists t, items, []. rewrite app_nil_r. split; [exact N|]. apply ostep_other; [|exact N].
    intro Q. exact (H l Q Pl).
Qed.

Lemma adds_grown : forall evs s t items, well_formed (os_heap s) -> careful_history cm s (performed evs) ->
  (forall x, PRef a = PRef x \/ c = PRef x -> nth_error (os_heap s) x <> None) ->
  nth_error (os_heap s) l = Some (PTypedList t items) -> part_of (os_heap s) (PRef a) c l ->
  only_adds cm a c l s evs -> Forall (grown_list (os_heap s)) (meanwhile cm s evs) /\
    ForallOrdPairs grown_list (meanwhile cm s evs).
Proof.
  induction evs as [|[|o] evs IH]; intros s t items W C E N Pl A; cbn in *.
  - split; constructor.
  - destruct (IH s t items W C E N Pl A) as (F & P). split; constructor; try assumption.
    apply (grown_refl _ t items N).
  - destruct C as (C & C'), A as (A & A').
    assert (G : grown_list (os_heap s) (os_heap (snd (ostep cm s o)))).
    { apply (adds_step s o t items N); [|exact A | exact Pl]. intros b Pb. exact (part_object _ _ _ b W E Pb). }
    pose proof (grown_part _ _ l G Pl) as Pl'. pose proof G as ((t' & i' & m' & _ & N') & K).
    destruct (IH (snd (ostep cm s o)) t' (i' ++ m')) as (F & P); try assumption.
    + apply ostep_well_formed; assumption.
    + intros x Q. destruct (Nat.eq_dec x l) as [->|D]; [congruence|].
      rewrite (K x); [apply E, Q | exists x; split; [exact Q | apply rt_refl] | exact D].
    + split; [|exact P]. eapply Forall_impl; [|exact F]. intros h'. apply grown_trans; exact G.
Qed.
End Adds.

Lemma grown_appended : forall O a l c hs, (forall h h', In h hs -> In h' hs -> same_collaborators O h h' c) ->
  ForallOrdPairs (grown_list a l c) hs -> ForallOrdPairs (appended O l (PRef a) c) hs.
Proof.
  intros O a l c hs S P. induction P as [|h hs F P IH]; constructor.
  - rewrite Forall_forall in *. intros h' I. destruct (F h' I) as (G & K). split; [exact G|]. split; [exact K|].
    apply S; [left; reflexivity | right; exact I].
  - apply IH. intros h1 h2 I1 I2. apply S; right; assumption.
Qed.
