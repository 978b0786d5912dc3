(** C65: a decision point that reads its policy and its requests from documents and
    answers with documents. *)
From Verif Require Import Eval SpecEval EvalFacts2 EvalFacts3 SpecRelate Readers SpecRead ReadFacts4 ContextXml SpecContext
  ContextFacts Response Setters SpecSetters Service SpecService ServiceFacts.
From Verif Require Import PropertiesRead PropertiesContext Sample.

(** The answer is the decision of the policy that the policy document means on the
    request that the request document means; there is an answer exactly if both
    documents have a meaning and the evaluation does not raise. *)
Theorem C65_answer : forall lxml RE fetch fd EE cm handler selector policyDoc requestDoc d,
  default_readers RE ->
  ((exists limit out,
      answers lxml limit RE fetch fd EE cm handler selector policyDoc requestDoc = Ok out /\ answer_doc out d) <->
   (exists K urls p c,
      reads RE fetch fd policyDoc [] K urls p /\ context_doc cm handler selector requestDoc c /\
      policy_eval EE c p = Ok d)).
Proof.
  intros lxml RE fetch fd EE cm h x pd rd d HE. unfold answers. split.
  - intros (l & out & H & Ha). apply EvalFacts.bind_ok in H. destruct H as (pdp & Hp & H).
    destruct (proj1 (source_iff RE fetch fd pd pdp HE) (ex_intro _ l Hp)) as (K' & U & p & Hr & ->).
    apply serve_iff in H. destruct H as (c & d' & Hc & Hd & Ho).
    rewrite (answer_unique _ _ _ Ha (answer_written _ _ _ _ Ho)). eauto 8.
  - intros (K' & U & p & c & Hr & Hc & Hd).
    destruct (proj2 (source_iff RE fetch fd pd (Some p) HE)) as (l & Hl); [eauto|].
    destruct (answer_writes lxml d (Some (SpecResponse.plain_status ""))) as (out & Ho).
    exists l, out. split; [|exact (answer_written _ _ _ _ Ho)].
    rewrite Hl. cbn [bind]. apply serve_iff. eauto.
Qed.

(** Whatever is answered is a response with one result and one decision. *)
Theorem C65_shape : forall lxml limit RE fetch fd EE cm handler selector policyDoc requestDoc out,
  answers lxml limit RE fetch fd EE cm handler selector policyDoc requestDoc = Ok out ->
  exists d, answer_doc out d /\ forall d', answer_doc out d' -> d' = d.
Proof.
  intros lxml l RE fetch fd EE cm h x pd rd out H. unfold answers in H.
  apply EvalFacts.bind_ok in H. destruct H as (pdp & Hp & H). unfold pdp_from_source in Hp.
  apply EvalFacts.bind_ok in Hp. destruct Hp as ([p st] & _ & [= <-]).
  apply serve_iff in H. destruct H as (c & d & _ & _ & Ho). apply answer_written in Ho.
  exists d. split; [exact Ho|]. intros d' H'. exact (answer_unique _ _ _ H' Ho).
Qed.

(** Permit is answered only because of a Rule element with effect Permit, in the
    policy document or in one fetched for it, whose target and condition hold. *)
Theorem C65_permit : forall lxml limit RE fetch fd EE cm handler selector policyDoc requestDoc out,
  default_readers RE ->
  answers lxml limit RE fetch fd EE cm handler selector policyDoc requestDoc = Ok out ->
  answer_doc out Permit ->
  exists urls m r c,
    occurs fetch policyDoc urls m /\ (fd = LocalFinder -> urls = []) /\
    called "Rule" m = true /\ xml_attr "Effect" m = Some "Permit" /\
    rule_doc RE m r /\ context_doc cm handler selector requestDoc c /\ rule_applies EE c EffPermit r.
Proof.
  intros lxml l RE fetch fd EE cm h x pd rd out HE H Ha.
  destruct (proj1 (C65_answer lxml RE fetch fd EE cm h x pd rd Permit HE)
    (ex_intro _ l (ex_intro _ out (conj H Ha)))) as (K' & U & p & c & Hr & Hc & Hd).
  destruct (permit_origin RE fetch pd K' U (known_documents _ _ _ _ _ _ _ Hr) _ _ _
    (permit_has_reason _ _ _ Hd) (known_stems _ _ _ _ _ _ _ Hr)) as (m & r & Ho & Hm & Happ).
  exists U, m, r, c. split; [exact Ho|]. split; [intros Hl; exact (proj1 (local_mut RE fetch fd Hl) _ _ _ _ _ Hr)|].
  destruct Hm as (Hm & K1 & (id & e & Hid & He & Hx & Hx') & K2).
  split; [exact Hm|]. split; [|split; [repeat (split; [assumption|]); split; [eauto 8|exact K2]|auto]].
  rewrite Hx'. destruct Happ as (He' & _). rewrite He in He'. injection He' as ->. reflexivity.
Qed.

(** Deny is answered only because of a Rule element with effect Deny that applies, or
    because a member of a PolicySet element with deny-overrides is Indeterminate. *)
Theorem C65_deny : forall lxml limit RE fetch fd EE cm handler selector policyDoc requestDoc out,
  default_readers RE ->
  answers lxml limit RE fetch fd EE cm handler selector policyDoc requestDoc = Ok out ->
  answer_doc out Deny ->
  exists urls m c,
    occurs fetch policyDoc urls m /\ (fd = LocalFinder -> urls = []) /\
    context_doc cm handler selector requestDoc c /\
    ((called "Rule" m = true /\ xml_attr "Effect" m = Some "Deny" /\
      exists r, rule_doc RE m r /\ rule_applies EE c EffDeny r) \/
     (called "PolicySet" m = true /\
      (exists algId, xml_attr "PolicyCombiningAlgId" m = Some algId /\
                     policy_algorithm algId = Some DenyOverrides) /\
      exists K k q, In k (members m) /\ doc_means RE (fun p => In p K) k q /\
                    policy_eval EE c q = Ok Indeterminate)).
Proof.
  intros lxml l RE fetch fd EE cm h x pd rd out HE H Ha.
  destruct (proj1 (C65_answer lxml RE fetch fd EE cm h x pd rd Deny HE)
    (ex_intro _ l (ex_intro _ out (conj H Ha)))) as (K' & U & p & c & Hr & Hc & Hd).
  assert (HU : fd = LocalFinder -> U = []) by (intros Hl; exact (proj1 (local_mut RE fetch fd Hl) _ _ _ _ _ Hr)).
  destruct (deny_origin RE fetch pd K' U (known_documents _ _ _ _ _ _ _ Hr) _ _ _
    (deny_has_reason _ _ _ Hd) (known_stems _ _ _ _ _ _ _ Hr))
    as [(m & r & Ho & Hm & Happ)|(m & ai & Ho & Hm & Hai & Halg & q & ps & HF & Hq & Hi)];
    exists U, m, c; (split; [exact Ho|]); (split; [exact HU|]); (split; [exact Hc|]).
  - left. pose proof Hm as (Hm1 & K1 & (id & e & Hid & He & Hx & Hx') & K2).
    split; [exact Hm1|]. split; [|eauto].
    rewrite Hx'. destruct Happ as (He' & _). rewrite He in He'. injection He' as ->. reflexivity.
  - right. split; [exact Hm|]. split; [eauto|].
    destruct (ReadFacts2.Forall2_in_r _ _ _ _ _ q HF Hq) as (k & Hk & Hkq). eauto 7.
Qed.

(** Documents without a Rule element that permits never lead to Permit. *)
Theorem C65_no_permit_rule : forall lxml limit RE fetch fd EE cm handler selector policyDoc requestDoc out d,
  default_readers RE ->
  (forall m, inside m policyDoc \/ (fd <> LocalFinder /\ exists u doc, fetch u = Ok doc /\ inside m doc) ->
     called "Rule" m = true -> xml_attr "Effect" m <> Some "Permit") ->
  answers lxml limit RE fetch fd EE cm handler selector policyDoc requestDoc = Ok out ->
  answer_doc out d -> d <> Permit.
Proof.
  intros lxml l RE fetch fd EE cm h x pd rd out d HE HN H Ha ->.
  destruct (C65_permit _ _ _ _ _ _ _ _ _ _ _ _ HE H Ha) as (U & m & r & c & Ho & HU & Hm & He & _).
  refine (HN m _ Hm He). destruct Ho as [Ho|(u & doc & Hu & Hf & Ho)]; [left; exact Ho|right].
  split; [|eauto]. intros Hl. rewrite (HU Hl) in Hu. destruct Hu.
Qed.

(** With meaningful documents, and collaborators that raise nothing worse than an
    Exception, there is always an answer. *)
Theorem C65_always_answered : forall lxml RE fetch fd EE cm handler selector policyDoc requestDoc K urls p c,
  default_readers RE ->
  reads RE fetch fd policyDoc [] K urls p -> context_doc cm handler selector requestDoc c ->
  (forall e, collaborator_raises EE e -> is_exception e = true) ->
  exists limit out d,
    answers lxml limit RE fetch fd EE cm handler selector policyDoc requestDoc = Ok out /\ answer_doc out d.
Proof.
  intros lxml RE fetch fd EE cm h x pd rd K U p c HE Hr Hc Hx.
  destruct (policy_eval EE c p) as [d|e] eqn:Hp.
  - destruct (proj2 (C65_answer lxml RE fetch fd EE cm h x pd rd d HE)) as (l & out & H); [eauto 8|]. eauto.
  - apply policy_eval_escape in Hp. destruct Hp as [H1 H2]. apply Hx in H2. congruence.
Qed.

(** A client that writes its request, sends it to a decision point and reads the
    response has the decision the policy makes on the client's own request. *)
Theorem C65_exchange : forall lxml lxml' RE fetch fd EE cm policyDoc requestDoc r out limit,
  default_readers RE -> sendable cm r -> self_contained r ->
  request_xml lxml r = Ok requestDoc ->
  answers lxml' limit RE fetch fd EE cm None None policyDoc requestDoc = Ok out ->
  exists K urls p d resp,
    reads RE fetch fd policyDoc [] K urls p /\ policy_eval EE (CtxRequest r) p = Ok d /\
    response_of_xml out = Ok resp /\ forall s, decisions s resp = [Some d].
Proof.
  intros lxml lxml' RE fetch fd EE cm pd rd r out l HE Hs Hc Hx H.
  destruct (C65_shape _ _ _ _ _ _ _ _ _ _ _ _ H) as (d & Ha & _).
  destruct (proj1 (C65_answer lxml' RE fetch fd EE cm None None pd rd d HE)
    (ex_intro _ l (ex_intro _ out (conj H Ha)))) as (K' & U & p & c & Hr & (r' & Hr' & ->) & Hd).
  assert (Hex : exchange_request lxml cm r = Ok (received r)) by (apply C49_round_trip; exact Hs).
  unfold exchange_request in Hex. rewrite Hx in Hex. cbn [bind] in Hex.
  apply request_iff in Hr'. rewrite Hex in Hr'. injection Hr' as <-.
  exists K', U, p, d. apply response_answer in Ha. destruct Ha as (resp & Hresp & Hdec).
  exists resp. split; [exact Hr|]. split; [|auto].
  rewrite <- (C49_same_decisions lxml cm EE p r (received r) Hc Hs);
    [exact Hd|unfold exchange_request; rewrite Hx; exact Hex].
Qed.

(** ** Cases *)

(** A document that permits staff and denies guests. *)
Definition role_rule (id effect role : string) : node :=
  xe "Rule" [("RuleId", id); ("Effect", effect)] None
    [xe "Target" [] None [xe "Subjects" [] None [xe "Subject" [] None
       [xe "SubjectMatch" [("MatchId", string_equal)] None [d_value role; d_designator]]]]].
Definition role_policy (id : string) (rules : list node) : node :=
  xe "Policy" [("PolicyId", id); ("RuleCombiningAlgId", deny_overrides)] None rules.
Definition role_request (roles : list string) : node :=
  Elem "Request" [] None
    [Elem "Subject" [] None
       [Elem "Attribute" [("AttributeId", "role"); ("DataType", xs "string")] None
          (map (fun s => Elem "AttributeValue" [] (Some s) []) roles)]].
Definition no_web (url : string) : res node := Raise (EOther 9).
Definition ask (pol : node) (roles : list string) : res node :=
  answers false 5 std_renv no_web LocalFinder sE STD_CLASS_MAP None None pol (role_request roles).
Definition roles_doc : node := role_policy "roles" [role_rule "a" "Permit" "staff"; role_rule "b" "Deny" "guest"].

Example C65_case :
  (exists out, ask roles_doc ["staff"] = Ok out /\ answer_doc out Permit) /\
  (exists out, ask roles_doc ["staff"; "guest"] = Ok out /\ answer_doc out Deny) /\
  (exists out, ask roles_doc ["other"] = Ok out /\ answer_doc out NotApplicable) /\
  (exists e, ask (role_policy "p" [role_rule "a" "Allow" "staff"]) ["staff"] = Raise e).
Proof.
  repeat split;
    (eexists; first [vm_compute; reflexivity | split; [vm_compute; reflexivity|];
      split; [reflexivity|]; eexists; split; [reflexivity|]; split; [reflexivity|];
      eexists; split; [reflexivity|]; split; reflexivity]).
Qed.

(** A policy set under deny-overrides with a member that is Indeterminate (no role
    attribute where one must be present) denies without a rule that denies. *)
Example C65_case_deny :
  exists out, answers false 5 std_renv no_web LocalFinder sE STD_CLASS_MAP None None
    (d_set "s" [role_policy "p" [role_rule "a" "Permit" "staff"]])
    (Elem "Request" [] None []) = Ok out /\ answer_doc out Deny.
Proof.
  eexists. split; [vm_compute; reflexivity|]. split; [reflexivity|]. eexists. split; [reflexivity|].
  split; [reflexivity|]. eexists. split; [reflexivity|]. split; reflexivity.
Qed.

(** A request written by a client, answered and read. *)
Example C65_case_exchange : forall lxml, exists requestDoc out,
  request_xml lxml creq = Ok requestDoc /\
  answers lxml 5 std_renv no_web LocalFinder sE STD_CLASS_MAP None None roles_doc requestDoc = Ok out /\
  response_of_xml out = Ok [mkResult (Some (DOwn Permit)) None None None].
Proof. intros []; eexists _, _; (split; [vm_compute; reflexivity|]); (split; [vm_compute; reflexivity|]); vm_compute; reflexivity. Qed.

Print Assumptions C65_answer.
Print Assumptions C65_shape.
Print Assumptions C65_permit.
Print Assumptions C65_deny.
Print Assumptions C65_no_permit_rule.
Print Assumptions C65_always_answered.
Print Assumptions C65_exchange.
