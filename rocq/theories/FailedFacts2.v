(** Lemmas about finders after documents that could not be read. *)
From Verif Require Import Readers Sources SpecText SpecSetters SpecRead SpecSources SpecFinderThreads SpecInterrupts SpecFailed.
From Verif Require Import ObjectsFacts2 ReadFacts ReadFacts3 ReadFacts4 ReadObjectsFacts ReadObjectsFacts2 ReadObjectsFacts4 ReadObjectsFacts5
  SourcesFacts InterruptsFacts InterruptsFacts2 FailedFacts.
Local Open Scope list_scope.

Section Origin.
Variable E : renv.
Hypothesis HE : default_readers E.
Variable fetch : string -> res node.
Variable fd : finder.
Notation reads := (reads E fetch fd).
Notation reads_members := (reads_members E fetch fd).
Notation reads_member := (reads_member E fetch fd).
Notation gets_to := (gets_to E fetch fd).
Notation member_gets_to := (member_gets_to E fetch fd).

Lemma read_s_gets : forall limit n K F,
  exists K1 F1, snd (read_doc_s limit E fetch fd n (mkFstate (holding K) F)) = mkFstate (holding K1) F1 /\ gets_to n K K1.
Proof.
  intros limit n K F. destruct (stopped_enough E fetch fd limit EXMLParseError n (mkFstate (holding K) F)) as (k & H).
  destruct (stopped_gets E HE fetch fd limit k EXMLParseError n K F) as (K1 & F1 & Q & G).
  exists K1, F1. split; [|exact G]. rewrite <- (H k (le_n k)). exact Q.
Qed.

Variable d : node.
Notation reached := (reached fetch fd d).
Notation origin := (part_of_document E fetch fd d).

Lemma reads_origin :
  (forall n K K' U p, reads n K K' U p -> reached n -> forall q, In q K' -> In q K \/ origin q) /\
  (forall ks K K' U ps, reads_members ks K K' U ps -> (forall k, In k ks -> reached k) -> forall q, In q K' -> In q K \/ origin q) /\
  (forall k K K' U p, reads_member k K K' U p -> reached k -> forall q, In q K' -> In q K \/ origin q).
Proof.
  assert (All :
  (forall n K K' U p, reads n K K' U p -> reads n K K' U p /\ (reached n -> forall q, In q K' -> In q K \/ origin q)) /\
  (forall ks K K' U ps, reads_members ks K K' U ps -> reads_members ks K K' U ps /\ ((forall k, In k ks -> reached k) -> forall q, In q K' -> In q K \/ origin q)) /\
  (forall k K K' U p, reads_member k K K' U p -> reads_member k K K' U p /\ (reached k -> forall q, In q K' -> In q K \/ origin q))).
  { apply reads_mutind.
    - intros n K p Hd Hf. assert (R : reads n K (K ++ [p]) [] p) by (constructor; assumption). split; [exact R|].
      intros Rn q I. apply in_app_or in I. destruct I as [I|[<-|[]]]; [left; exact I|right; exists n, K, (K ++ [p]), []; split; assumption].
    - intros n K K' U id ai alg de t ps p H1 H2 H3 H4 H5 H6 H7 _ [Hm IH] Hp Hf.
      assert (R : reads n K (K' ++ [p]) U p) by (eapply reads_set; eassumption). split; [exact R|].
      intros Rn q I. apply in_app_or in I. destruct I as [I|[<-|[]]].
      + apply IH; [|exact I]. intros k Hk. eapply reached_member; eassumption.
      + right. exists n, K, (K' ++ [p]), U. split; assumption.
    - intros K. split; [constructor|]. auto.
    - intros k ks K K1 K2 U U' p ps _ [H1 IH1] _ [H2 IH2]. split; [eapply reads_more; eassumption|].
      intros Rk q I. destruct (IH2 (fun k' Hk => Rk k' (or_intror Hk)) q I) as [J|J]; [|right; exact J].
      exact (IH1 (Rk k (or_introl eq_refl)) q J).
    - intros k K K' U p Hw _ [H IH]. split; [apply reads_inline; assumption|exact IH].
    - intros k K p Hw Hi. split; [apply reads_known; assumption|]. auto.
    - intros base k r url m K K' U q p Hfd Hx Hw Hn Hu Hf _ [H IH] Hi. split; [eapply reads_fetched; eassumption|].
      intros Rk. apply IH. eapply reached_reference; try eassumption. congruence. }
  destruct All as (A1 & A2 & A3). split; [|split]; intros.
  - eapply A1; eassumption.
  - eapply A2; eassumption.
  - eapply A3; eassumption.
Qed.

Lemma gets_origin :
  (forall n K K1, gets_to n K K1 -> reached n -> forall q, In q K1 -> In q K \/ origin q) /\
  (forall k K K1, member_gets_to k K K1 -> reached k -> forall q, In q K1 -> In q K \/ origin q).
Proof.
  apply gets_mutind; auto.
  - intros n K K1 U p H Rn. apply (proj1 reads_origin _ _ _ _ _ H Rn).
  - intros n K before k after K0 U ps K1 Hc Hm Hr _ IH Rn q I.
    assert (Rk : forall x, In x (before ++ k :: after) -> reached x) by (intros x X; eapply reached_member; [exact Rn|exact Hc|rewrite Hm; exact X]).
    destruct (IH (Rk k ltac:(apply in_or_app; right; left; reflexivity)) q I) as [J|J]; [|right; exact J].
    apply (proj1 (proj2 reads_origin) _ _ _ _ _ Hr); [|exact J]. intros x X. apply Rk, in_or_app. left. exact X.
  - intros base k r url m x K K1 Hfd Hx Hw Hn Hu Hf _ IH Rk. apply IH. eapply reached_reference; try eassumption. congruence.
Qed.
End Origin.

(** ** What is held under other names is in nobody's way. *)
Section Frame.
Variable E : renv.
Variable fetch : string -> res node.
Variable fd : finder.
Variable K : list policybase.
Definition apart (L : list policybase) : Prop := forall x, In x (map name_of L) -> ~ In x (map name_of K).
Lemma apart_incl : forall L L', apart L' -> incl L L' -> apart L.
Proof. intros L L' A I x X. apply A. apply in_map_iff in X. destruct X as (p & <- & X). apply in_map, I, X. Qed.
Lemma not_held : forall L p, ~ In (name_of p) (map name_of L) -> ~ In (name_of p) (map name_of K) -> ~ In (name_of p) (map name_of (K ++ L)).
Proof. intros L p H1 H2. rewrite map_app. intro I. apply in_app_or in I. destruct I; auto. Qed.

Lemma frame :
  (forall n L L' U p, reads E fetch fd n L L' U p -> apart L' -> reads E fetch fd n (K ++ L) (K ++ L') U p) /\
  (forall ks L L' U ps, reads_members E fetch fd ks L L' U ps -> apart L' -> reads_members E fetch fd ks (K ++ L) (K ++ L') U ps) /\
  (forall k L L' U p, reads_member E fetch fd k L L' U p -> apart L' -> reads_member E fetch fd k (K ++ L) (K ++ L') U p).
Proof.
  assert (All :
  (forall n L L' U p, reads E fetch fd n L L' U p -> (incl L L' /\ In p L') /\ (apart L' -> reads E fetch fd n (K ++ L) (K ++ L') U p)) /\
  (forall ks L L' U ps, reads_members E fetch fd ks L L' U ps -> (incl L L' /\ incl ps L') /\ (apart L' -> reads_members E fetch fd ks (K ++ L) (K ++ L') U ps)) /\
  (forall k L L' U p, reads_member E fetch fd k L L' U p -> (incl L L' /\ In p L') /\ (apart L' -> reads_member E fetch fd k (K ++ L) (K ++ L') U p))).
  { pose proof (grows E fetch fd) as (G1 & G2 & G3). apply reads_mutind.
    - intros n L p Hd Hf. split; [split; [apply incl_appl, incl_refl|apply in_or_app; right; left; reflexivity]|].
      intros A. rewrite app_assoc. constructor; [exact Hd|]. apply not_held; [exact Hf|]. apply A. rewrite map_app. apply in_or_app. right. left. reflexivity.
    - intros n L L' U id ai alg de t ps p H1 H2 H3 H4 H5 H6 H7 _ [[I1 I2] IH] Hp Hf.
      split; [split; [apply incl_appl, I1|apply in_or_app; right; left; reflexivity]|].
      intros A. rewrite app_assoc. eapply reads_set; try eassumption.
      + apply IH. eapply apart_incl; [exact A|apply incl_appl, incl_refl].
      + apply not_held; [exact Hf|]. apply A. rewrite map_app. apply in_or_app. right. left. reflexivity.
    - intros L. split; [split; [apply incl_refl|intros x []]|]. constructor.
    - intros k ks L L1 L2 U U' p ps _ [[I1 I2] IH1] _ [[I3 I4] IH2].
      split; [split; [intros x X; apply I3, I1, X|intros x [<-|X]; [apply I3, I2|apply I4, X]]|].
      intros A. eapply reads_more; [apply IH1; eapply apart_incl; eassumption|apply IH2; exact A].
    - intros k L L' U p Hw _ [I IH]. split; [exact I|]. intros A. apply reads_inline; [exact Hw|apply IH; exact A].
    - intros k L p Hw Hi. split; [split; [apply incl_refl|exact Hi]|]. intros A. apply reads_known; [exact Hw|apply in_or_app; right; exact Hi].
    - intros base k r url m L L' U q p Hfd Hx Hw Hn Hu Hf _ [[I1 I2] IH] Hi. split; [split; assumption|].
      intros A. eapply reads_fetched; try eassumption; [|apply IH; exact A|apply in_or_app; right; exact Hi].
      apply not_held; [exact Hn|]. apply A, in_map, Hi. }
  destruct All as (A1 & A2 & A3). split; [|split]; intros; [eapply A1|eapply A2|eapply A3]; eassumption.
Qed.
End Frame.

(** ** Finders of objects *)
Lemma doc_finder : forall E fetch fd limit n s st, same_map E s -> finder_for s st ->
  finder_for (snd (doc_l E fetch fd limit n s)) (snd (read_doc_s limit E fetch fd n st)) /\
  (members_held s -> members_held (snd (doc_l E fetch fd limit n s))).
Proof.
  intros E fetch fd limit n s st SM F. split.
  - eapply regs_finder with (Linked := False).
    apply (doc_left E False fetch fd limit n (fun _ => false)); [exact SM|intros x X; discriminate X|apply finder_regs; [exact F|intros []]].
  - intros MH. eapply regs_members.
    apply (doc_left E True fetch fd limit n (fun _ => false)); [exact SM|intros x X; discriminate X|apply finder_regs; [exact F|intros _; exact MH]].
Qed.
Lemma finder_other : forall s s' st, finder_for s st -> untouched (ls_heap s) (ls_heap s') ->
  ls_policies s' = ls_policies s -> ls_sets s' = ls_sets s -> ls_fetched s' = ls_fetched s -> finder_for s' st.
Proof.
  intros s s' st (A & B & C) U P1 P2 P3. unfold finder_for. rewrite P1, P2, P3.
  assert (HS : hsub (ls_heap s) (ls_heap s')) by (intros a o N _; apply U; exact N).
  split; [eapply Forall2_holds; eassumption|]. split; [eapply Forall2_holds; eassumption|exact C].
Qed.
Lemma members_other : forall s s', members_held s -> untouched (ls_heap s) (ls_heap s') ->
  ls_policies s' = ls_policies s -> ls_sets s' = ls_sets s -> ls_fetched s' = ls_fetched s -> members_held s'.
Proof.
  intros s s' M U P1 P2 P3 k v I. rewrite P2 in I.
  eapply lists_mono; [apply more_eq; eassumption|intros a o N _; apply U; exact N|exact (M k v I)].
Qed.
Lemma Forall2_back : forall A B (R : A -> B -> Prop) xs ys, Forall2 R xs ys -> forall y, In y ys -> exists x, In x xs /\ R x y.
Proof.
  intros A B R xs ys F. induction F as [|x y xs ys Rxy F IH]; intros z []; [subst; exists x; split; [left; reflexivity|exact Rxy]|].
  destruct (IH z H) as (w & I & Rw). exists w. split; [right; exact I|exact Rw].
Qed.
Lemma Forall2_len : forall A B (R : A -> B -> Prop) xs ys, Forall2 R xs ys -> length xs = length ys.
Proof. intros A B R xs ys F. induction F; cbn; congruence. Qed.
