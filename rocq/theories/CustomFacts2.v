(** Proofs about where combining algorithms come from (C88). *)
From Verif Require Import Custom SpecCustom UtilsFacts.
From Coq Require Import Lia Bool.
Local Open Scope list_scope.

Lemma nth_set : forall A (l : list A) p q a,
  nth_error (set_nth p a l) q =
  if Nat.eqb q p then match nth_error l p with Some _ => Some a | None => None end
  else nth_error l q.
Proof.
  intros A. induction l as [|x l IH]; intros [|p] [|q] a; cbn; try reflexivity.
  - destruct (Nat.eqb q p); reflexivity.
  - apply IH.
Qed.

Lemma holder_put : forall p h s q,
  nth_error (cs_holders (put_holder p h s)) q =
  if Nat.eqb q p then match nth_error (cs_holders s) p with Some _ => Some h | None => None end
  else nth_error (cs_holders s) q.
Proof. intros. apply nth_set. Qed.

Lemma call_keeps : forall U s f id r s', call_factory U s f id = (r, s') ->
  cs_tables s' = cs_tables s /\ cs_holders s' = cs_holders s /\
  cs_calls s' = match f with FTable _ _ => cs_calls s | FUser _ _ => S (cs_calls s) end.
Proof.
  intros U s [sd d|sd k] id r s' H; cbn in H; injection H as <- <-; auto.
Qed.

Lemma make_keeps : forall U s a r s', make_alg U s a = (r, s') ->
  cs_tables s' = cs_tables s /\ cs_holders s' = cs_holders s.
Proof.
  intros U s [x|k] r s' H; cbn in H; injection H as <- <-; auto.
Qed.

Lemma call_offers : forall U s f id e s', call_factory U s f id = (Ok e, s') ->
  offers U s f id e.
Proof.
  intros U s [sd d|sd k] id e s' H; cbn in *; congruence.
Qed.

Lemma offers_call : forall U s f id e, offers U s f id e ->
  exists s', call_factory U s f id = (Ok e, s').
Proof.
  intros U s [sd d|sd k] id e H; cbn in *; eexists; [rewrite H; reflexivity|].
  rewrite H. reflexivity.
Qed.

Lemma fits_class : forall sd e a, fits sd e = Some a <-> class_for_side sd e a.
Proof.
  intros sd e a. split.
  - intros H. destruct e as [[r p b| |]|]; cbn in H; try discriminate.
    destruct sd; [destruct r|destruct p]; try discriminate; injection H as ->; cbn; eauto.
  - destruct sd; cbn; intros (x & ->); reflexivity.
Qed.

Lemma offers_det : forall U s f id e e', offers U s f id e -> offers U s f id e' -> e = e'.
Proof. intros U s [sd d|sd k] id e e' H H'; cbn in *; congruence. Qed.

Lemma offers_put : forall U s f id e p h, offers U (put_holder p h s) f id e <-> offers U s f id e.
Proof. intros U s [sd d|sd k] id e p h; cbn; reflexivity. Qed.

(** ** One assignment of an id *)

Lemma set_id_ok : forall U s p h id,
  nth_error (cs_holders s) p = Some h ->
  (exists e a, offers U s (ho_factory h) id e /\ class_for_side (ho_side h) e a /\
     creates U (calls_after s (ho_factory h)) a /\
     fst (f_step U s (FSetId p (NStr id))) = Ok tt /\
     nth_error (cs_holders (snd (f_step U s (FSetId p (NStr id))))) p =
       Some (mkHolder (ho_side h) (Some id) (ho_factory h) (SAlg a))) \/
  ((forall e a, offers U s (ho_factory h) id e -> class_for_side (ho_side h) e a ->
      ~ creates U (calls_after s (ho_factory h)) a) /\
   (exists x, fst (f_step U s (FSetId p (NStr id))) = Raise x) /\
   exists sl, (sl = ho_alg h \/ (exists k n, sl = SNone /\ ue_make U k n = MadeNone) \/
               (exists k n, sl = SNotImplemented /\ ue_make U k n = MadeNotImplemented)) /\
     nth_error (cs_holders (snd (f_step U s (FSetId p (NStr id))))) p =
       Some (mkHolder (ho_side h) (Some id) (ho_factory h) sl)).
Proof.
  intros U s p h id N. cbn [f_step]. rewrite N. unfold alg_from_id. cbn [ho_factory ho_side ho_id ho_alg].
  set (h0 := mkHolder (ho_side h) (Some id) (ho_factory h) (ho_alg h)).
  assert (P0 : nth_error (cs_holders (put_holder p h0 s)) p = Some h0).
  { rewrite holder_put, Nat.eqb_refl, N. reflexivity. }
  destruct (call_factory U (put_holder p h0 s) (ho_factory h) id) as [[e|x] s1] eqn:CF.
  - assert (O := call_offers _ _ _ _ _ _ CF). rewrite offers_put in O.
    destruct (call_keeps _ _ _ _ _ _ CF) as (T1 & H1 & K1). cbn [put_holder cs_calls] in K1.
    destruct (fits (ho_side h) e) as [a|] eqn:F.
    + apply fits_class in F.
      destruct (make_alg U s1 a) as [m s2] eqn:MK.
      destruct (make_keeps _ _ _ _ _ MK) as (T2 & H2).
      assert (P2 : nth_error (cs_holders s2) p = Some h0) by (rewrite H2, H1; exact P0).
      assert (CR : m = MadeObject <-> creates U (calls_after s (ho_factory h)) a).
      { unfold creates, calls_after. rewrite <- K1. destruct a as [x|k]; cbn in MK; injection MK as <- _; tauto. }
      assert (PP : forall h', nth_error (cs_holders (put_holder p h' s2)) p = Some h').
      { intros h'. rewrite holder_put, Nat.eqb_refl, P2. reflexivity. }
      assert (ND : m <> MadeObject -> forall e a, offers U s (ho_factory h) id e -> class_for_side (ho_side h) e a ->
         ~ creates U (calls_after s (ho_factory h)) a).
      { intros M e' a' O' C' Q. assert (e' = e) by (eapply offers_det; eassumption). subst e'.
        apply fits_class in C'. apply fits_class in F. assert (a' = a) by congruence. subst a'.
        apply M, CR, Q. }
      destruct m as [| | |x].
      * left. exists e, a. split; [exact O|]. split; [exact F|]. split; [apply CR; reflexivity|].
        split; [reflexivity|]. apply PP.
      * right. split; [apply ND; discriminate|]. split; [eexists; reflexivity|].
        exists SNone. split; [|apply PP]. right. left. destruct a as [y|k]; [cbn in MK; discriminate|].
        cbn in MK. exists k, (cs_calls s1). split; [reflexivity|congruence].
      * right. split; [apply ND; discriminate|]. split; [eexists; reflexivity|].
        exists SNotImplemented. split; [|apply PP]. right. right.
        destruct a as [y|k]; [cbn in MK; discriminate|].
        cbn in MK. exists k, (cs_calls s1). split; [reflexivity|congruence].
      * right. split; [apply ND; discriminate|]. split; [eexists; reflexivity|].
        exists (ho_alg h). split; [left; reflexivity|]. exact P2.
    + right. split.
      * intros e' a' O' C'. assert (e' = e) by (eapply offers_det; eassumption). subst e'.
        apply fits_class in C'. congruence.
      * split; [eexists; reflexivity|]. exists (ho_alg h). split; [left; reflexivity|].
        cbn [snd]. rewrite H1. exact P0.
  - destruct (call_keeps _ _ _ _ _ _ CF) as (T1 & H1 & K1).
    right. split.
    + intros e' a' O' C'. rewrite <- (offers_put U s _ id e' p h0) in O'.
      destruct (offers_call _ _ _ _ _ O') as (s' & CF'). congruence.
    + split; [eexists; reflexivity|]. exists (ho_alg h). split; [left; reflexivity|].
      cbn [snd]. rewrite H1. exact P0.
Qed.

(** ** Other operations *)

Lemma step_tables : forall U s o,
  cs_tables (snd (f_step U s o)) =
  match o with
  | FRegister d id e => fun d' => if Nat.eqb d' d then dict_set id e (cs_tables s d) else cs_tables s d'
  | _ => cs_tables s
  end.
Proof.
  intros U s [d id e|sd f|p x|p x]; cbn [f_step]; [reflexivity| | |].
  - destruct (match f with Some x => accepted sd x | None => _ end); reflexivity.
  - destruct (nth_error _ _) as [h|]; [|reflexivity]. destruct (accepted _ _); reflexivity.
  - destruct (nth_error _ _) as [h|]; [|reflexivity]. destruct x as [|id| | | | | |]; try reflexivity.
    unfold alg_from_id.
    destruct (call_factory _ _ _ _) as [[e|y] s1] eqn:CF;
      destruct (call_keeps _ _ _ _ _ _ CF) as (T1 & _ & _); [|exact T1].
    destruct (fits _ e) as [a|]; [|exact T1].
    destruct (make_alg U s1 a) as [m s2] eqn:MK. destruct (make_keeps _ _ _ _ _ MK) as (T2 & _).
    unfold put_holder in T1. cbn [cs_tables] in T1.
    destruct m; unfold put_holder; cbn [snd cs_tables]; rewrite T2; exact T1.
Qed.

Lemma step_other : forall U s o p h, ~ about o p -> nth_error (cs_holders s) p = Some h ->
  nth_error (cs_holders (snd (f_step U s o))) p = Some h.
Proof.
  assert (PH : forall p q h h' s, q <> p -> nth_error (cs_holders s) p = Some h ->
     nth_error (cs_holders (put_holder q h' s)) p = Some h).
  { intros p q h h' s Hn N. rewrite holder_put. apply Nat.eqb_neq in Hn.
    rewrite Nat.eqb_sym, Hn. exact N. }
  intros U s [d id e|sd f|q x|q x] p h A N; cbn in A; cbn [f_step].
  - exact N.
  - destruct (match f with Some x => accepted sd x | None => _ end); [|exact N].
    cbn [snd cs_holders]. rewrite nth_error_app1; [exact N|]. apply nth_error_Some. congruence.
  - destruct (nth_error (cs_holders s) q) as [h'|]; [|exact N].
    destruct (accepted _ _); [|exact N]. cbn [snd]. apply PH; assumption.
  - destruct (nth_error (cs_holders s) q) as [h'|]; [|exact N]. destruct x as [|id| | | | | |]; try exact N.
    unfold alg_from_id.
    destruct (call_factory _ _ _ _) as [[e|y] s1] eqn:CF;
      destruct (call_keeps _ _ _ _ _ _ CF) as (_ & H1 & _);
      assert (N1 : nth_error (cs_holders s1) p = Some h) by (rewrite H1; apply PH; assumption);
      [|exact N1].
    destruct (fits _ e) as [a|]; [|exact N1].
    destruct (make_alg U s1 a) as [m s2] eqn:MK. destruct (make_keeps _ _ _ _ _ MK) as (_ & H2).
    assert (N2 : nth_error (cs_holders s2) p = Some h) by (rewrite H2; exact N1).
    destruct m; cbn [snd]; try exact N2; apply PH; assumption.
Qed.

Lemma step_factory : forall U s p x h, nth_error (cs_holders s) p = Some h ->
  (exists f, x = GFactory f /\ factory_side f = ho_side h /\
     fst (f_step U s (FSetFactory p x)) = Ok tt /\
     nth_error (cs_holders (snd (f_step U s (FSetFactory p x)))) p =
       Some (mkHolder (ho_side h) (ho_id h) f (ho_alg h))) \/
  ((forall f, x = GFactory f -> factory_side f <> ho_side h) /\
   f_step U s (FSetFactory p x) = (Raise ETypeError, s)).
Proof.
  intros U s p x h N. cbn [f_step]. rewrite N.
  destruct x as [f|]; cbn [accepted]; [|right; split; [discriminate|reflexivity]].
  destruct (side_eqb (factory_side f) (ho_side h)) eqn:E.
  - left. exists f. split; [reflexivity|]. split.
    { destruct (factory_side f), (ho_side h); try discriminate; reflexivity. }
    split; [reflexivity|]. cbn [snd]. rewrite holder_put, Nat.eqb_refl, N. reflexivity.
  - right. split; [|reflexivity]. intros f' H. injection H as <-. intros Q. rewrite Q in E.
    destruct (ho_side h); discriminate.
Qed.

(** The algorithm stays through every operation but a successful assignment of an id. *)
Lemma step_alg : forall U s p o h, plain_classes U ->
  nth_error (cs_holders s) p = Some h -> ~ assigns U s p o ->
  exists h', nth_error (cs_holders (snd (f_step U s o))) p = Some h' /\
    ho_alg h' = ho_alg h /\ ho_side h' = ho_side h.
Proof.
  intros U s p o h PC N A.
  assert (about o p \/ ~ about o p) as [B|B].
  { destruct o as [d id e|sd f|q x|q x]; cbn; [tauto|tauto| |];
      destruct (Nat.eq_dec q p); tauto. }
  2:{ exists h. split; [apply step_other; assumption|]. split; reflexivity. }
  destruct o as [d id e|sd f|q x|q x]; cbn in B; try contradiction; subst q.
  - destruct (step_factory U s p x h N) as [(f & -> & S & _ & N')|(_ & E)].
    + eexists. split; [exact N'|]. split; reflexivity.
    + rewrite E. exists h. split; [exact N|]. split; reflexivity.
  - assert (D : (exists id, x = NStr id) \/ f_step U s (FSetId p x) = (Raise ETypeError, s)).
    { cbn [f_step]. rewrite N. destruct x; eauto. }
    destruct D as [(id & ->)|E].
    2:{ rewrite E. exists h. split; [exact N|]. split; reflexivity. }
    destruct (set_id_ok U s p h id N) as [(e & a & _ & _ & _ & K & _)|(_ & _ & sl & S & N')].
    + destruct A. split; [eauto|exact K].
    + eexists. split; [exact N'|]. split; [|reflexivity]. cbn.
      destruct S as [->|[(k & n & _ & M)|(k & n & _ & M)]]; [reflexivity| |];
        destruct (PC k n); congruence.
Qed.

Lemma run_alg : forall U ops s p h, plain_classes U ->
  nth_error (cs_holders s) p = Some h -> no_assignment U s p ops ->
  exists h', nth_error (cs_holders (f_run U ops s)) p = Some h' /\
    ho_alg h' = ho_alg h /\ ho_side h' = ho_side h.
Proof.
  intros U. induction ops as [|o ops IH]; intros s p h PC N A.
  - exists h. split; [exact N|]. split; reflexivity.
  - destruct A as (A1 & A2). destruct (step_alg U s p o h PC N A1) as (h1 & N1 & E1 & S1).
    destruct (IH _ p h1 PC N1 A2) as (h2 & N2 & E2 & S2).
    exists h2. split; [exact N2|]. split; congruence.
Qed.

Lemma installed : forall U s p h id ops, plain_classes U ->
  nth_error (cs_holders s) p = Some h ->
  let s1 := snd (f_step U s (FSetId p (NStr id))) in
  fst (f_step U s (FSetId p (NStr id))) = Ok tt ->
  no_assignment U s1 p ops ->
  exists e a h', offers U s (ho_factory h) id e /\ class_for_side (ho_side h) e a /\
    nth_error (cs_holders (f_run U ops s1)) p = Some h' /\ ho_alg h' = SAlg a.
Proof.
  intros U s p h id ops PC N s1 K A.
  destruct (set_id_ok U s p h id N) as [(e & a & O & CL & _ & _ & N')|(_ & (x & E) & _)].
  - destruct (run_alg U ops s1 p _ PC N' A) as (h' & N2 & E2 & _).
    exists e, a, h'. split; [exact O|]. split; [exact CL|]. split; [exact N2|]. exact E2.
  - congruence.
Qed.

Lemma new_holder : forall U s sd f, fst (f_step U s (FNew sd f)) = Ok tt ->
  exists f', (f = None /\ f' = FTable sd (default_dict sd) \/ f = Some (GFactory f') /\ factory_side f' = sd) /\
  nth_error (cs_holders (snd (f_step U s (FNew sd f)))) (length (cs_holders s)) =
    Some (mkHolder sd None f' SNone).
Proof.
  intros U s sd f. cbn [f_step].
  assert (L : forall h, nth_error (cs_holders s ++ [h]) (length (cs_holders s)) = Some h).
  { intros h. rewrite nth_error_app2, Nat.sub_diag by lia. reflexivity. }
  destruct f as [[f|]|]; cbn [accepted]; [|discriminate|].
  - destruct (side_eqb (factory_side f) sd) eqn:E; [|discriminate]. intros _.
    exists f. split; [right; split; [reflexivity|]|apply L].
    destruct (factory_side f), sd; try discriminate; reflexivity.
  - intros _. eexists. split; [left; split; reflexivity|apply L].
Qed.
