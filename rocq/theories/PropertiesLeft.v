(** C110: what exactly a document that cannot be read leaves. *)
From Verif Require Import Sources SpecFailed SpecLeft SpecRead SpecReadObjects SpecEvalObjects ObjectsFacts ObjectsFacts2 ObjectsFacts3
  FuncMapFacts ReadFacts ReadFacts2 ReadFacts3 ReadFacts4 ReadObjectsFacts ReadObjectsFacts4 ReadObjectsFacts5
  SourcesFacts FailedFacts FailedFacts2 LeftFacts LeftFacts2
  PropertiesRead PropertiesEvalObjects PropertiesReadObjects PropertiesInterrupts PropertiesFailed.
Local Open Scope string_scope.

(** Unless it is nesting of references that stops it, a document that cannot be read
    leaves the policies and policy sets in it before the first mistake that are complete,
    those of fetched documents included ([left_by]). *)
Theorem C110_left : forall E fetch fd limit s K F d e s', default_readers E -> same_map E s ->
  finder_for s (mkFstate (holding K) F) -> doc_l E fetch fd limit d s = (Raise e, s') ->
  e = ERecursionError \/
  exists K1 F1, left_by E fetch fd d K K1 /\ finder_for s' (mkFstate (holding K1) F1).
Proof.
  intros E fetch fd limit s K F d e s' HE SM FF D.
  destruct (doc_finder E fetch fd limit d s _ SM FF) as (FF' & _). rewrite D in FF'. cbn [snd] in FF'.
  pose proof (agree_doc E fetch fd limit d (mkFstate (holding K) F)) as A.
  pose proof (doc_loads E fetch fd limit d s _ SM FF) as L.
  destruct (read_doc limit E fetch fd d (mkFstate (holding K) F)) as [[p st]|e2].
  - exfalso. destruct L as (v & s2 & L & _). congruence.
  - destruct L as (s3 & L). rewrite D in L. injection L as <- <-.
    destruct (read_doc_s limit E fetch fd d (mkFstate (holding K) F)) as [r st] eqn:R. cbn [fst snd] in *. subst r.
    destruct (doc_lefts E HE fetch fd limit d K F e st R) as [->|(K1 & F1 & -> & H)]; [left; reflexivity|right; eauto].
Qed.

(** There is one answer to what is left, and only for documents that cannot be read. *)
Theorem C110_left_one : forall E fetch fd d K K1, default_readers E -> NoDup (map name_of K) ->
  left_by E fetch fd d K K1 ->
  (forall K2, left_by E fetch fd d K K2 -> K2 = K1) /\ (forall K' urls p, ~ reads E fetch fd d K K' urls p).
Proof.
  intros E fetch fd d K K1 HE ND H. split.
  - intros K2 H2. exact (proj1 (left_one E HE fetch fd) _ _ _ H ND _ H2).
  - exact (proj1 (left_unread E HE fetch fd) _ _ _ H ND).
Qed.

(** So the finder is then exactly as the document says. *)
Theorem C110_left_exactly : forall E fetch fd limit s K F d K1, default_readers E -> same_map E s ->
  finder_for s (mkFstate (holding K) F) -> NoDup (map name_of K) -> left_by E fetch fd d K K1 ->
  exists e s', doc_l E fetch fd limit d s = (Raise e, s') /\
    (e = ERecursionError \/ exists F1, finder_for s' (mkFstate (holding K1) F1)).
Proof.
  intros E fetch fd limit s K F d K1 HE SM FF ND H. destruct (C110_left_one E fetch fd d K K1 HE ND H) as (One & No).
  destruct (doc_l E fetch fd limit d s) as [[v|e] s'] eqn:D.
  - exfalso. destruct (C85_only E fetch fd limit s _ F d v s' HE SM FF D) as (p & K' & U & R & _). exact (No _ _ _ R).
  - exists e, s'. split; [reflexivity|].
    destruct (C110_left E fetch fd limit s K F d e s' HE SM FF D) as [->|(K2 & F1 & L & FF1)]; [left; reflexivity|right].
    rewrite (One K2 L) in FF1. eauto.
Qed.

(** ** Examples *)

(** Of the set with a policy "q" and a policy without id, "q" is left. *)
Example C110_left_bad : exists p, left_by std_renv web LocalFinder d_bad [] [p] /\ name_of p = PolicyName (Some "q").
Proof.
  destruct (read_policy_s std_renv (d_policy "q" [d_rule "a"]) (mkFstate (holding []) [])) as [[p|e] st] eqn:R.
  2: { vm_compute in R. discriminate R. }
  assert (N : name_of p = PolicyName (Some "q")) by (vm_compute in R; injection R as <- _; reflexivity).
  apply (policy_out std_renv C43_std_readers web LocalFinder) in R; [|vm_compute; reflexivity]. destruct R as [R _].
  exists p. split; [|exact N].
  destruct (read_policy_s std_renv (xe "Policy" [] None []) (mkFstate (holding [p]) [])) as [[p2|e] st2] eqn:R2.
  { vm_compute in R2. discriminate R2. }
  apply (policy_out std_renv C43_std_readers web LocalFinder) in R2; [|vm_compute; reflexivity]. destruct R2 as [_ R2].
  eapply (left_child std_renv web LocalFinder d_bad [] [d_policy "q" [d_rule "a"]] (xe "Policy" [] None []) [] [p]).
  - split; [vm_compute; reflexivity|]. do 3 eexists. split; [vm_compute; reflexivity|]. split; vm_compute; reflexivity.
  - vm_compute. reflexivity.
  - intros x [<-|[]]. left. vm_compute. reflexivity.
  - replace (filter stands [d_policy "q" [d_rule "a"]]) with [d_policy "q" [d_rule "a"]] by (vm_compute; reflexivity).
    eapply reads_more; [|constructor]. apply reads_inline; [vm_compute; reflexivity|]. exact R.
  - apply at_written; [vm_compute; reflexivity|vm_compute; reflexivity|exact R2].
Qed.
Example C110_left_bad_finder : forall limit, exists e s', doc_l std_renv web LocalFinder limit d_bad lstart = (Raise e, s') /\
  (e = ERecursionError \/ exists p F1, name_of p = PolicyName (Some "q") /\ finder_for s' (mkFstate (holding [p]) F1)).
Proof.
  intros limit. destruct C110_left_bad as (p & H & N).
  destruct (C110_left_exactly std_renv web LocalFinder limit lstart [] [] d_bad [p] C43_std_readers (std_same lstart eq_refl)
    start_finder (NoDup_nil _) H) as (e & s' & D & [->|(F1 & FF)]); eauto 10.
Qed.

(** With the children in the other order nothing is left. *)
Definition d_bad_first : node := d_set "bad" [xe "Policy" [] None []; d_policy "q" [d_rule "a"]].
Example C110_left_first : left_by std_renv web LocalFinder d_bad_first [] [].
Proof.
  destruct (read_policy_s std_renv (xe "Policy" [] None []) (mkFstate (holding []) [])) as [[p2|e] st2] eqn:R2.
  { vm_compute in R2. discriminate R2. }
  apply (policy_out std_renv C43_std_readers web LocalFinder) in R2; [|vm_compute; reflexivity]. destruct R2 as [_ R2].
  eapply (left_child std_renv web LocalFinder d_bad_first [] [] (xe "Policy" [] None []) [d_policy "q" [d_rule "a"]] []).
  - split; [vm_compute; reflexivity|]. do 3 eexists. split; [vm_compute; reflexivity|]. split; vm_compute; reflexivity.
  - vm_compute. reflexivity.
  - intros x [].
  - constructor.
  - apply at_written; [vm_compute; reflexivity|vm_compute; reflexivity|exact R2].
Qed.

Print Assumptions C110_left.
Print Assumptions C110_left_one.
Print Assumptions C110_left_exactly.
