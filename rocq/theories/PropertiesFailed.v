(** C110: a finder after documents that could not be read. *)
From Verif Require Import Sources SpecFailed SpecRead SpecReadObjects SpecEvalObjects SpecInterrupts ObjectsFacts ObjectsFacts2 ObjectsFacts3
  FuncMapFacts ReadFacts ReadFacts2 ReadFacts3 ReadFacts4 ReadObjectsFacts ReadObjectsFacts4 ReadObjectsFacts5
  SourcesFacts InterruptsFacts InterruptsFacts2 InterruptsFacts3 FailedFacts FailedFacts2
  PropertiesRead PropertiesEvalObjects PropertiesReadObjects PropertiesInterrupts.
From Coq Require Import Lia.
Local Open Scope string_scope.

(** ** One document *)

(** If reading a document fails, the finder holds objects that stand for the policies
    that were known at one moment of the reading ([gets_to], of C98): those held
    before and whole policies and policy sets added in order.  The members of the
    sets it holds are still held. *)
Theorem C110_failed : forall E fetch fd limit s K F d e s', default_readers E -> same_map E s ->
  finder_for s (mkFstate (holding K) F) -> NoDup (map name_of K) ->
  doc_l E fetch fd limit d s = (Raise e, s') ->
  exists K1 F1, finder_for s' (mkFstate (holding K1) F1) /\ gets_to E fetch fd d K K1 /\
    NoDup (map name_of K1) /\ same_map E s' /\ (members_held s -> members_held s').
Proof.
  intros E fetch fd limit s K F d e s' HE SM FF ND D.
  destruct (doc_finder E fetch fd limit d s _ SM FF) as (FF' & MH).
  destruct (read_s_gets E HE fetch fd limit d K F) as (K1 & F1 & Q & G). rewrite Q in FF'.
  destruct (doc_later E fetch fd limit d s _ SM FF) as (_ & SM' & _).
  rewrite D in *. cbn [snd] in *.
  exists K1, F1. split; [exact FF'|]. split; [exact G|].
  split; [exact (proj1 (gets_distinct E fetch fd) _ _ _ G ND)|]. split; assumption.
Qed.
(** Everything added is the meaning of a whole policy or policy set of the document or
    of one that it leads to. *)
Theorem C110_whole : forall E fetch fd d K K1 p, default_readers E ->
  gets_to E fetch fd d K K1 -> In p K1 -> In p K \/ part_of_document E fetch fd d p.
Proof.
  intros E fetch fd d K K1 p HE G I.
  exact (proj1 (gets_origin E fetch fd d) _ _ _ G (reached_root fetch fd d) p I).
Qed.

(** ** Any number of documents *)
Theorem C110_session : forall E fd s0 K0 F0 docs s, default_readers E -> same_map E s0 ->
  finder_for s0 (mkFstate (holding K0) F0) -> NoDup (map name_of K0) -> session E fd s0 docs s ->
  exists new F, finder_for s (mkFstate (holding (K0 ++ new)) F) /\ NoDup (map name_of (K0 ++ new)) /\
    same_map E s /\ untouched (ls_heap s0) (ls_heap s) /\ holds_more s0 s /\
    (members_held s0 -> members_held s) /\
    forall p, In p new -> exists fetch d, In (fetch, d) docs /\ part_of_document E fetch fd d p.
Proof.
  intros E fd s0 K0 F0 docs s HE SM FF ND S. induction S as [|docs s fetch limit d S IH|docs s s' S IH U SM' P1 P2 P3].
  - exists [], F0. rewrite app_nil_r. split; [exact FF|]. split; [exact ND|]. split; [exact SM|].
    split; [apply untouched_refl|]. split; [apply ReadObjectsFacts4.more_refl|]. split; [auto|]. intros p [].
  - destruct IH as (new & F & FF1 & ND1 & SM1 & U1 & HM1 & MH1 & O1).
    destruct (doc_finder E fetch fd limit d s _ SM1 FF1) as (FF2 & MH2).
    destruct (read_s_gets E HE fetch fd limit d (K0 ++ new) F) as (K2 & F2 & Q & G). rewrite Q in FF2.
    destruct (doc_later E fetch fd limit d s _ SM1 FF1) as (U2 & SM2 & HM2).
    destruct (proj1 (gets_appends E fetch fd) _ _ _ G) as (more & ->).
    pose proof (proj1 (gets_distinct E fetch fd) _ _ _ G ND1) as ND2.
    exists (new ++ more)%list, F2. rewrite app_assoc. split; [exact FF2|]. split; [exact ND2|]. split; [exact SM2|].
    split; [eapply untouched_trans; eassumption|]. split; [eapply ReadObjectsFacts4.more_trans; eassumption|]. split; [auto|].
    intros p I. apply in_app_or in I. destruct I as [I|I].
    + destruct (O1 p I) as (f & m & J & P). exists f, m. split; [apply in_or_app; left; exact J|exact P].
    + exists fetch, d. split; [apply in_or_app; right; left; reflexivity|].
      destruct (C110_whole E fetch fd d _ _ p HE G (in_or_app _ _ _ (or_intror I))) as [J|J]; [|exact J].
      exfalso. apply in_split in I. destruct I as (a & b & ->). rewrite app_assoc, map_app in ND2. cbn [map] in ND2.
      apply NoDup_remove_2 in ND2. apply ND2. apply in_or_app. left. rewrite map_app. apply in_or_app. left.
      apply in_map, J.
  - destruct IH as (new & F & FF1 & ND1 & SM1 & U1 & HM1 & MH1 & O1). exists new, F.
    split; [eapply finder_other; eassumption|]. split; [exact ND1|]. split; [exact SM'|].
    split; [eapply untouched_trans; eassumption|]. split; [eapply ReadObjectsFacts4.more_trans; [exact HM1|apply ReadObjectsFacts4.more_eq; assumption]|].
    split; [intros M; exact (members_other s s' (MH1 M) U P1 P2 P3)|exact O1].
Qed.

(** What the finder holds can be evaluated: an object it holds decides as a policy of
    those held at first, or of the documents read. *)
Theorem C110_evaluates : forall E fd s0 K0 F0 docs s v O EE c ctx, default_readers E -> same_map E s0 ->
  finder_for s0 (mkFstate (holding K0) F0) -> NoDup (map name_of K0) -> session E fd s0 docs s ->
  held s v -> for_context (ls_heap s) c ctx -> same_answers (ls_heap s) O EE ->
  exists p, (In p K0 \/ exists fetch d, In (fetch, d) docs /\ part_of_document E fetch fd d p) /\
    forall n, policy_depth p <= n -> o_policy_eval O (ls_heap s) n c v = policy_eval EE ctx p.
Proof.
  intros E fd s0 K0 F0 docs s v O EE c ctx HE SM FF ND S H C A.
  destruct (C110_session E fd s0 K0 F0 docs s HE SM FF ND S) as (new & F & FF1 & _ & _ & _ & _ & _ & O1).
  destruct (held_holding _ _ _ _ FF1 H) as (p & I & P & _). exists p.
  split; [apply in_app_or in I; destruct I as [I|I]; [left; exact I|right; exact (O1 p I)]|].
  intros n Hn. eapply C75_document; eassumption.
Qed.

(** The next document is read if it has a meaning to a finder that holds these. *)
Theorem C110_next : forall E fd s0 K0 F0 docs s fetch d, default_readers E -> same_map E s0 ->
  finder_for s0 (mkFstate (holding K0) F0) -> NoDup (map name_of K0) -> session E fd s0 docs s ->
  exists K F, finder_for s (mkFstate (holding K) F) /\
  ((exists limit v s', doc_l E fetch fd limit d s = (Ok v, s')) <-> (exists K' urls p, reads E fetch fd d K K' urls p)) /\
  forall limit v s', doc_l E fetch fd limit d s = (Ok v, s') ->
    exists K' urls p, reads E fetch fd d K K' urls p /\ for_policy (ls_heap s') v p.
Proof.
  intros E fd s0 K0 F0 docs s fetch d HE SM FF ND S.
  destruct (C110_session E fd s0 K0 F0 docs s HE SM FF ND S) as (new & F & FF1 & ND1 & SM1 & _).
  exists (K0 ++ new)%list, F. split; [exact FF1|].
  assert (Only : forall limit v s', doc_l E fetch fd limit d s = (Ok v, s') ->
    exists K' urls p, reads E fetch fd d (K0 ++ new) K' urls p /\ for_policy (ls_heap s') v p).
  { intros limit v s' D. destruct (C85_only E fetch fd limit s _ F d v s' HE SM1 FF1 D) as (p & K' & U & R & P & _). eauto 6. }
  split; [|exact Only]. split.
  - intros (limit & v & s' & D). destruct (Only limit v s' D) as (K' & U & p & R & _). eauto.
  - intros (K' & U & p & R). destruct (C85_reads E fetch fd s _ F d K' U p HE SM1 ND1 FF1 R) as (limit & H).
    destruct (H limit (le_n _)) as (v & s' & D & _). eauto.
Qed.

(** In particular what was left by failures is in nobody's way: a document that a new
    finder can read, and none of whose policies has a name that is taken, is read into
    the same policy. *)
Theorem C110_unhindered : forall E fd s0 K0 F0 docs s fetch d K' urls p, default_readers E -> same_map E s0 ->
  finder_for s0 (mkFstate (holding K0) F0) -> NoDup (map name_of K0) -> session E fd s0 docs s ->
  reads E fetch fd d [] K' urls p ->
  (forall v q, held s v -> for_policy (ls_heap s) v q -> ~ In (name_of q) (map name_of K')) ->
  exists limit0, forall limit, limit0 <= limit ->
    exists v s', doc_l E fetch fd limit d s = (Ok v, s') /\ for_policy (ls_heap s') v p.
Proof.
  intros E fd s0 K0 F0 docs s fetch d K' urls p HE SM FF ND S R Free.
  destruct (C110_session E fd s0 K0 F0 docs s HE SM FF ND S) as (new & F & FF1 & ND1 & SM1 & _).
  set (K := (K0 ++ new)%list) in *.
  assert (A : apart K K').
  { intros x X Y. apply in_map_iff in Y. destruct Y as (q & <- & Y).
    assert (H : exists v, held s v /\ for_policy (ls_heap s) v q).
    { destruct FF1 as (FP & FS & _). destruct q as [m t a rs|m t a ps].
      - assert (I : In (pm_id m, PPolicy m t a rs) (rg_policies (fs_reg (mkFstate (holding K) F)))).
        { cbn. apply in_map_iff. exists (PPolicy m t a rs). split; [reflexivity|]. apply filter_In. split; [exact Y|reflexivity]. }
        destruct (Forall2_back _ _ _ _ _ FP _ I) as ([k v] & J & Q & P). cbn in Q, P. subst k.
        exists v. split; [exists (pm_id m); left; exact J|exact P].
      - assert (I : In (pm_id m, PPolicySet m t a ps) (rg_sets (fs_reg (mkFstate (holding K) F)))).
        { cbn. apply in_map_iff. exists (PPolicySet m t a ps). split; [reflexivity|]. apply filter_In. split; [exact Y|reflexivity]. }
        destruct (Forall2_back _ _ _ _ _ FS _ I) as ([k v] & J & Q & P). cbn in Q, P. subst k.
        exists v. split; [exists (pm_id m); right; exact J|exact P]. }
    destruct H as (v & H & P). exact (Free v q H P X). }
  pose proof (proj1 (frame E fetch fd K) _ _ _ _ _ R A) as R'. rewrite app_nil_r in R'.
  destruct (C85_reads E fetch fd s K F d _ urls p HE SM1 ND1 FF1 R') as (L & H). exists L. intros limit Hl.
  destruct (H limit Hl) as (v & s' & D & P & _). eauto.
Qed.

(** Not so for the same document: if it has no references and its failure left
    anything, the finder can never read it again, even if what was missing (a
    function, say) is there now. *)
Theorem C110_stuck : forall E fd fetch limit d s K F e s1 docs s2, default_readers E -> same_map E s ->
  finder_for s (mkFstate (holding K) F) -> NoDup (map name_of K) ->
  (forall m, inside m d -> wanted m = None) ->
  doc_l E fetch fd limit d s = (Raise e, s1) -> ls_policies s1 <> ls_policies s \/ ls_sets s1 <> ls_sets s ->
  session E fd s1 docs s2 -> forall fetch' limit', exists e' s3, doc_l E fetch' fd limit' d s2 = (Raise e', s3).
Proof.
  intros E fd fetch limit d s K F e s1 docs s2 HE SM FF ND NW D Ch S fetch' limit'.
  destruct (C110_failed E fetch fd limit s K F d e s1 HE SM FF ND D) as (K1 & F1 & FF1 & G & ND1 & SM1 & _).
  assert (NK : K1 <> K).
  { intros ->. destruct (doc_later E fetch fd limit d s _ SM FF) as (_ & _ & (l1 & H1) & (l2 & H2) & _). rewrite D in H1, H2. cbn [snd] in H1, H2.
    destruct FF as (A & B & _), FF1 as (A1 & B1 & _). apply Forall2_len in A, B, A1, B1.
    rewrite H1, app_length in A1. rewrite H2, app_length in B1. cbn [fs_reg] in *.
    destruct l1; [|cbn [Datatypes.length] in A1; lia]. destruct l2; [|cbn [Datatypes.length] in B1; lia]. rewrite app_nil_r in H1, H2. destruct Ch; contradiction. }
  destruct (C110_session E fd s1 K1 F1 docs s2 HE SM1 FF1 ND1 S) as (new & F2 & FF2 & ND2 & SM2 & _).
  destruct (C98_stuck E fetch fd d K K1 HE ND NW G NK new limit' fetch' F2) as (e' & R).
  pose proof (agree_doc E fetch' fd limit' d (mkFstate (holding (K1 ++ new)) F2)) as A.
  pose proof (doc_loads E fetch' fd limit' d s2 _ SM2 FF2) as L.
  destruct (read_doc limit' E fetch' fd d (mkFstate (holding (K1 ++ new)) F2)) as [[p st]|e2].
  - rewrite A in R. discriminate R.
  - destruct L as (s3 & L). eauto.
Qed.

(** ** Examples *)

(** A set with a policy "q" and a policy without id cannot be read; "q" is left.
    Then a document that refers to "q" and one that includes another policy. *)
Definition d_bad : node := d_set "bad" [d_policy "q" [d_rule "a"]; xe "Policy" [] None []].
Definition bad_read : res pval * lstate := Eval vm_compute in doc_l std_renv web LocalFinder 5 d_bad lstart.
Lemma bad_read_eq : doc_l std_renv web LocalFinder 5 d_bad lstart = bad_read.
Proof. vm_compute. reflexivity. Qed.
Example C110_bad : exists e s1, doc_l std_renv web LocalFinder 5 d_bad lstart = (Raise e, s1) /\
  map fst (ls_policies s1) = [Some "q"] /\ ls_sets s1 = [] /\ session std_renv LocalFinder lstart [(web, d_bad)] s1.
Proof.
  eexists. exists (snd bad_read). split; [rewrite bad_read_eq; reflexivity|]. split; [reflexivity|]. split; [reflexivity|].
  pose proof (session_read std_renv LocalFinder lstart [] lstart web 5 d_bad (session_start _ _ _)) as S.
  rewrite bad_read_eq in S. exact S.
Qed.
Lemma bad_session : session std_renv LocalFinder lstart [(web, d_bad)] (snd bad_read).
Proof.
  pose proof (session_read std_renv LocalFinder lstart [] lstart web 5 d_bad (session_start _ _ _)) as S.
  rewrite bad_read_eq in S. exact S.
Qed.
Definition d_good : node := d_set "good" [d_policy "r" [d_rule "a"]].
(** The other document is read as by a new finder. *)
Example C110_good : exists K' urls p,
  reads std_renv web LocalFinder d_good [] K' urls p /\
  exists limit0, forall limit, limit0 <= limit ->
    exists v s', doc_l std_renv web LocalFinder limit d_good (snd bad_read) = (Ok v, s') /\ for_policy (ls_heap s') v p.
Proof.
  destruct (read_doc 5 std_renv web LocalFinder d_good (mkFstate (holding []) [])) as [[p st]|e] eqn:R.
  2: { vm_compute in R. discriminate R. }
  pose proof (doc_sound std_renv C43_std_readers web LocalFinder 5 d_good [] [] p st R) as (K' & U & Rd & Q).
  exists K', U, p. split; [exact Rd|].
  eapply (C110_unhindered std_renv LocalFinder lstart [] []); try eassumption.
  - exact C43_std_readers.
  - exact (std_same lstart eq_refl).
  - exact start_finder.
  - constructor.
  - exact bad_session.
  - destruct (C110_session std_renv LocalFinder lstart [] [] _ _ C43_std_readers (std_same lstart eq_refl) start_finder
      (NoDup_nil _) bad_session) as (new & F & FF & _).
    intros v q H P I. destruct (held_holding _ _ _ _ FF H) as (q' & _ & P' & J).
    assert (q' = q) by (eapply policy_unique; eassumption). subst q'.
    assert (N : name_of q = PolicyName (Some "q")).
    { destruct q as [m t a rs|m t a ps]; cbn in J |- *.
      - destruct J as [J|[]]. injection J as J _. rewrite <- J. reflexivity.
      - destruct J. }
    rewrite N in I. apply in_map_iff in I. destruct I as (x & Nx & I).
    assert (I' : In (name_of x) [PolicyName (Some "r"); SetName (Some "good")]).
    { assert (Rr : fs_reg st = holding K') by (rewrite Q; reflexivity).
      assert (A : In (name_of x) (map (fun y => PolicyName (fst y)) (rg_policies (holding K')) ++ map (fun y => SetName (fst y)) (rg_sets (holding K')))%list).
      { apply in_or_app. destruct x as [m t a rs|m t a ps]; [left|right]; cbn; apply in_map_iff; eexists (pm_id m, _); (split; [reflexivity|]);
          apply in_map_iff; eexists; (split; [|apply filter_In; split; [exact I|reflexivity]]); reflexivity. }
      rewrite <- Rr in A. vm_compute in R. injection R as _ <-. exact A. }
    rewrite Nx in I'. destruct I' as [I'|[I'|[]]]; discriminate I'.
Qed.
(** The same document never again. *)
Example C110_bad_again : forall docs s2, session std_renv LocalFinder (snd bad_read) docs s2 ->
  forall limit', exists e' s3, doc_l std_renv web LocalFinder limit' d_bad s2 = (Raise e', s3).
Proof.
  intros docs s2 S limit'. eapply (C110_stuck std_renv LocalFinder web 5 d_bad lstart [] []).
  - exact C43_std_readers.
  - exact (std_same lstart eq_refl).
  - exact start_finder.
  - constructor.
  - intros m I. assert (B : forall n, inside m n -> (fix clean (x : node) : bool := match x with Elem t _ _ ks => match wanted x with None => forallb clean ks | Some _ => false end | Comment _ => true end) n = true -> wanted m = None).
    { clear. intros n H. induction H as [|n k Hk H IH]; intros B.
      - destruct m as [t a x ks|]; [|reflexivity]. cbn in B. destruct (wanted (Elem t a x ks)); [discriminate B|reflexivity].
      - apply IH. destruct n as [t a x ks|]; [|destruct Hk]. cbn in B. destruct (wanted (Elem t a x ks)); [discriminate B|].
        rewrite forallb_forall in B. apply B. cbn in Hk. apply filter_In in Hk. apply Hk. }
    apply (B d_bad I). vm_compute. reflexivity.
  - rewrite bad_read_eq. reflexivity.
  - left. discriminate.
  - exact S.
Qed.
(** A document that only refers, to a policy that cannot be fetched at first, can be
    read later with the same finder. *)
Example C110_recovers : exists e s1 v s2,
  doc_l std_renv (fun _ => Raise (EOther 1)) (UrlFinder None) 5 (d_set "m" [d_pref "http://x/p"]) lstart = (Raise e, s1) /\
  doc_l std_renv web (UrlFinder None) 5 (d_set "m" [d_pref "http://x/p"]) s1 = (Ok v, s2) /\
  map fst (ls_policies s2) = [Some "http://x/p"] /\ map fst (ls_sets s2) = [Some "m"].
Proof. do 4 eexists. split; [vm_compute; reflexivity|]. split; [vm_compute; reflexivity|]. split; reflexivity. Qed.

Print Assumptions C110_failed.
Print Assumptions C110_whole.
Print Assumptions C110_session.
Print Assumptions C110_evaluates.
Print Assumptions C110_next.
Print Assumptions C110_unhindered.
Print Assumptions C110_stuck.
