(** Facts about a decision point that works on documents. *)
From Verif Require SpecResponse.
From Verif Require Import Eval SpecEval EvalFacts EvalFacts2 Setters SpecSetters Readers SpecRead ReadFacts ReadFacts2 ReadFacts3 ReadFacts4
  ContextXml SpecContext ContextFacts Response ResponseFacts Service SpecService.

Lemma answer_written : forall lxml d st n,
  response_xml lxml store0 [mkResult (Some (DShared d)) st None None] = Ok n -> answer_doc n d.
Proof.
  intros lxml d st n H. cbn [response_xml mapM bind result_xml rs_resourceId rs_decision] in H.
  injection H as <-. destruct lxml, d; (split; [reflexivity|]); (eexists; split; [reflexivity|]);
    (split; [reflexivity|]); (eexists; split; [reflexivity|]); split; reflexivity.
Qed.

Lemma answer_writes : forall lxml d st,
  exists n, response_xml lxml store0 [mkResult (Some (DShared d)) st None None] = Ok n.
Proof. intros. eexists. reflexivity. Qed.

Lemma answer_unique : forall n d d', answer_doc n d -> answer_doc n d' -> d = d'.
Proof.
  intros n d d' (_ & k & H1 & _ & k1 & H2 & _ & H3) (_ & k' & H1' & _ & k1' & H2' & _ & H3').
  rewrite H1 in H1'. injection H1' as <-. rewrite H2 in H2'. injection H2' as <-.
  rewrite H3 in H3'. destruct d, d'; congruence.
Qed.

Lemma serve_iff : forall lxml EE cm h x p n out,
  serve lxml EE store0 cm h x (Some p) n = Ok out <->
  exists c d, context_doc cm h x n c /\ policy_eval EE c p = Ok d /\
    response_xml lxml store0 [mkResult (Some (DShared d)) (Some (SpecResponse.plain_status "")) None None] = Ok out.
Proof.
  intros lxml EE cm h x p n out. unfold serve. split.
  - intros H. apply bind_ok in H. destruct H as (r & Hr & H). apply bind_ok in H. destruct H as (a & Ha & H).
    cbn [pdp_evaluate] in Ha.
    pose proof (response_spec EE store0 (CtxRequest (attach h x r)) p (fun d => eq_refl)) as K.
    destruct (policy_eval EE (CtxRequest (attach h x r)) p) as [d|e] eqn:Ed; [|congruence].
    rewrite K in Ha. injection Ha as <-.
    exists (CtxRequest (attach h x r)), d. split; [|split; assumption].
    exists r. split; [apply request_iff, Hr|reflexivity].
  - intros (c & d & (r & Hr & ->) & Hd & Ho). apply request_iff in Hr. rewrite Hr. cbn [bind pdp_evaluate].
    fold (attach h x r) in *.
    pose proof (response_spec EE store0 (CtxRequest (attach h x r)) p (fun d => eq_refl)) as K.
    rewrite Hd in K. rewrite K. exact Ho.
Qed.

Lemma fstate0_holding : fstate0 = mkFstate (holding []) [].
Proof. reflexivity. Qed.

Lemma source_iff : forall RE fetch fd n pdp, default_readers RE ->
  ((exists limit, pdp_from_source limit RE fetch fd n = Ok pdp) <->
   exists K' urls p, reads RE fetch fd n [] K' urls p /\ pdp = Some p).
Proof.
  intros RE fetch fd n pdp HE. unfold pdp_from_source. rewrite fstate0_holding. split.
  - intros (l & H). apply bind_ok in H. destruct H as ([p st] & H & Hp). injection Hp as <-.
    destruct (doc_sound RE HE fetch fd l n [] [] p st H) as (K' & U & Hr & _). eauto.
  - intros (K' & U & p & Hr & ->).
    destruct (proj1 (complete_mut RE HE fetch fd) _ _ _ _ _ Hr (NoDup_nil _)) as (_ & L & HL).
    exists L. rewrite (HL L (le_n _) []). reflexivity.
Qed.

(** ** Where the parts of a policy come from *)
Section Origin.
  Variable RE : renv.
  Variable fetch : string -> res node.
  Variable fd : finder.
  Variable d : node.
  Variable K' : list policybase.
  Variable urls : list string.
  Hypothesis known : forall q, In q K' ->
    exists m, occurs fetch d urls m /\ (called "Policy" m = true \/ called "PolicySet" m = true) /\
      doc_means RE (fun x => In x K') m q.

  (** [q] is the meaning of a Policy or PolicySet element of the documents. *)
  Definition stems (q : policybase) : Prop :=
    exists m, occurs fetch d urls m /\
      (policy_doc RE m q \/
       exists id algId alg description target ps,
         called "PolicySet" m = true /\ xml_attr "PolicyCombiningAlgId" m = Some algId /\
         policy_algorithm algId = Some alg /\
         Forall2 (doc_means RE (fun x => In x K')) (members m) ps /\
         q = PPolicySet (mkMeta (Some id) (Some (version_doc m)) (Some algId) description None)
               target (Some alg) ps).

  Lemma occurs_inside : forall m k, occurs fetch d urls m -> inside k m -> occurs fetch d urls k.
  Proof.
    intros m k [H|(u & d' & H1 & H2 & H3)] Hk; [left; eapply inside_trans; eauto|].
    right. exists u, d'. split; [exact H1|]. split; [exact H2|]. eapply inside_trans; eauto.
  Qed.

  Lemma stems_doc : forall m q, occurs fetch d urls m -> (called "Policy" m = true \/ called "PolicySet" m = true) ->
    doc_means RE (fun x => In x K') m q -> stems q.
  Proof.
    intros m q Ho Hc H. exists m. split; [exact Ho|].
    inversion H as [? ? Hd|? id ai alg de t ps Hs _ _ Hai Ha _ _ HF|? ? Hw _]; subst.
    - left. exact Hd.
    - right. exists id, ai, alg, de, t, ps. auto.
    - rewrite (wanted_policy_none m Hc) in Hw. discriminate.
  Qed.

  Lemma stems_member : forall m k q, occurs fetch d urls m -> In k (members m) ->
    doc_means RE (fun x => In x K') k q -> stems q.
  Proof.
    intros m k q Ho Hk H.
    assert (Hok : occurs fetch d urls k).
    { apply (occurs_inside m); [exact Ho|]. apply (inside_kid k m k); [|constructor].
      unfold members in Hk. apply filter_In in Hk. apply Hk. }
    inversion H as [? ? Hd|? id ai alg de t ps Hs ? ? ? ? ? ? HF|? ? Hw Hq]; subst.
    - apply (stems_doc k); [exact Hok|left; apply Hd|exact H].
    - apply (stems_doc k); [exact Hok|right; exact Hs|exact H].
    - destruct (known q Hq) as (m' & H1 & H2 & H3). eapply stems_doc; eauto.
  Qed.

  Lemma stems_child : forall m t alg ps q, stems (PPolicySet m t alg ps) -> In q ps -> stems q.
  Proof.
    intros m t alg ps q (n & Ho & [(_ & _ & id & ai & al & de & xp & tg & rs & K & _)|
      (id & ai & al & de & tg & ps' & _ & _ & _ & HF & K)]) Hq; [discriminate|].
    injection K as _ _ _ ->. destruct (Forall2_in_r _ _ _ _ _ q HF Hq) as (k & Hk & Hd).
    exact (stems_member n k q Ho Hk Hd).
  Qed.

  Lemma stems_rule : forall m t alg rules r, stems (PPolicy m t alg rules) -> In r rules ->
    exists k, occurs fetch d urls k /\ rule_doc RE k r.
  Proof.
    intros m t alg rules r (n & Ho & [(_ & _ & id & ai & al & de & xp & tg & rs & K & _ & _ & _ & _ & _ & _ & HF & _)|
      (id & ai & al & de & tg & ps' & _ & _ & _ & _ & K)]) Hr; [|discriminate].
    injection K as _ _ _ ->. destruct (Forall2_in_r _ _ _ _ _ r HF Hr) as (k & Hk & Hd).
    exists k. split; [|exact Hd]. apply (occurs_inside n); [exact Ho|].
    apply (inside_kid k n k); [|constructor]. unfold elems_called in Hk. apply filter_In in Hk. apply Hk.
  Qed.

  Lemma permit_origin : forall E c p, permit_reason E c p -> stems p ->
    exists k r, occurs fetch d urls k /\ rule_doc RE k r /\ rule_applies E c EffPermit r.
  Proof.
    intros E c p H. induction H as [m t alg rules r Ht Hr Ha|m t alg ps q Ht Hq _ IH]; intros Hs.
    - destruct (stems_rule _ _ _ _ _ Hs Hr) as (k & H1 & H2). eauto.
    - apply IH. eapply stems_child; eauto.
  Qed.

  Lemma deny_origin : forall E c p, deny_reason E c p -> stems p ->
    (exists k r, occurs fetch d urls k /\ rule_doc RE k r /\ rule_applies E c EffDeny r) \/
    (exists k ai, occurs fetch d urls k /\ called "PolicySet" k = true /\
       xml_attr "PolicyCombiningAlgId" k = Some ai /\ policy_algorithm ai = Some DenyOverrides /\
       exists q ps, Forall2 (doc_means RE (fun x => In x K')) (members k) ps /\ In q ps /\
         policy_eval E c q = Ok Indeterminate).
  Proof.
    intros E c p H. induction H as [m t alg rules r Ht Hr Ha|m t alg ps q Ht Hq _ IH|m t ps q Ht Hq Hi]; intros Hs.
    - left. destruct (stems_rule _ _ _ _ _ Hs Hr) as (k & H1 & H2). eauto.
    - apply IH. eapply stems_child; eauto.
    - right. destruct Hs as (n & Ho & [(_ & _ & id & ai & al & de & xp & tg & rs & K & _)|
      (id & ai & al & de & tg & ps' & Hc & Hai & Ha & HF & K)]); [discriminate|].
      injection K as _ _ -> ->. exists n, ai. repeat (split; [assumption|]). exists q, ps'. auto.
  Qed.
End Origin.

Lemma known_documents : forall RE fetch fd n K' urls p, reads RE fetch fd n [] K' urls p ->
  forall q, In q K' ->
    exists m, occurs fetch n urls m /\ (called "Policy" m = true \/ called "PolicySet" m = true) /\
      doc_means RE (fun x => In x K') m q.
Proof.
  intros RE fetch fd n K' urls p Hr q Hq.
  destruct (proj1 (source_mut RE fetch fd) _ _ _ _ _ Hr K' (incl_refl _) q Hq) as [[]|H]. exact H.
Qed.

Lemma known_stems : forall RE fetch fd n K' urls p, reads RE fetch fd n [] K' urls p ->
  stems RE fetch n K' urls p.
Proof.
  intros RE fetch fd n K' urls p Hr.
  destruct (proj1 (grows RE fetch fd) _ _ _ _ _ Hr) as [_ Hin].
  destruct (known_documents _ _ _ _ _ _ _ Hr p Hin) as (m & H1 & H2 & H3).
  eapply stems_doc; eauto.
Qed.

(** What a client reads in an answer. *)
Lemma response_answer : forall n d, answer_doc n d ->
  exists r, response_of_xml n = Ok r /\ forall s, decisions s r = [Some d].
Proof.
  intros n d (Hn & k & He & Hk & k' & He' & Hd).
  exists [mkResult (Some (DOwn d)) None (xml_attr "ResourceId" k) None]. split; [|reflexivity].
  apply response_iff. unfold response_doc. rewrite He. split; [exact Hn|]. split; [intros x [<-|[]]; exact Hk|].
  constructor; [|constructor]. unfold result_doc. rewrite He'. split; [exact Hk|].
  split; [intros x [<-|[]]; exact (proj1 Hd)|]. cbn.
  split; [|auto]. split; [intros x [<-|[]]; eauto|cbn; eauto].
Qed.
