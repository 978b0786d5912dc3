(** C99: which exception a refused document raises, and for which mistake. *)
From Verif Require Import Readers ContextXml SpecText SpecSetters SpecRead SpecContext SpecRefusals Sample.
From Verif Require Import EvalFacts StringFacts SettersFacts TextFacts ReadFacts ReadFacts2 ReadFacts3 ReadFacts4.
From Verif Require Import RefusalsFacts RefusalsFacts2 RefusalsFacts3 RefusalsFacts4 RefusalsFacts5.
From Verif Require Import FuncMap SpecFuncMap FuncErrorsFacts PropertiesFuncMap.
From Verif Require Import PropertiesRead PropertiesContext.
Open Scope string_scope.

(** ** Policies *)

(** The exception is the one for a mistake that is in the document. *)
Theorem C99_policy : forall E d e, default_readers E -> read_policy E d = Raise e ->
  wrong_root "Policy" d e \/ (called "Policy" d = true /\ wrong E d e).
Proof.
  intros E d e HE H. destruct (called "Policy" d) eqn:Hc.
  - right. split; [reflexivity|exact (policy_blame E HE d e Hc H)].
  - left. split; [exact Hc|exact (policy_root E d e Hc H)].
Qed.

(** A document with a mistake anywhere is refused. *)
Theorem C99_policy_refused : forall E d e, default_readers E ->
  wrong_root "Policy" d e \/ wrong E d e -> exists e', read_policy E d = Raise e'.
Proof.
  intros E d e HE H. destruct (read_policy E d) as [p|e'] eqn:Hr; [exfalso|exists e'; reflexivity].
  apply (read_policy_iff E HE) in Hr. destruct H as [[H _]|(m & Hp & Hm)].
  - destruct Hr as [Hc _]. congruence.
  - exact (policy_clean E d p Hr m e Hp Hm).
Qed.

(** So there are no documents that are refused without one, and none that are accepted
    with one. *)
Theorem C99_policy_iff : forall E d, default_readers E ->
  ((exists p, policy_doc E d p) <-> called "Policy" d = true /\ forall m e, part m d -> ~ mistake E m e).
Proof.
  intros E d HE. split.
  - intros (p & H). split; [exact (proj1 H)|exact (policy_clean E d p H)].
  - intros [Hc H]. destruct (read_policy E d) as [p|e] eqn:Hr.
    + exists p. apply (read_policy_iff E HE), Hr.
    + destruct (policy_blame E HE d e Hc Hr) as (m & Hp & Hm). destruct (H m e Hp Hm).
Qed.

(** With one kind of exception for all the mistakes of a document, it is that one. *)
Theorem C99_policy_only : forall E d e, default_readers E -> called "Policy" d = true -> wrong E d e ->
  (forall e', wrong E d e' -> e' = e) -> read_policy E d = Raise e.
Proof.
  intros E d e HE Hc Hw Ho. destruct (C99_policy_refused E d e HE (or_intror Hw)) as (e' & H).
  rewrite H. f_equal. apply Ho. exact (policy_blame E HE d e' Hc H).
Qed.

(** Another root. *)
Theorem C99_root : forall E d e, default_readers E -> wrong_root "Policy" d e -> read_policy E d = Raise e.
Proof.
  intros E d e HE H. destruct (C99_policy_refused E d e HE (or_introl H)) as (e' & Hr). rewrite Hr. f_equal.
  destruct H as [Hc ->]. exact (policy_root E d e' Hc Hr).
Qed.

(** The exceptions of refused policies, besides those for functions. *)
Theorem C99_policy_exceptions : forall E d e, default_readers E -> read_policy E d = Raise e ->
  In e [EXMLParseError; EAttributeError; ETypeError; EKeyError; ENotImplementedError; EImportError] \/
  (exists m tag a id, part m d /\ In (tag, a) function_names /\ called tag m = true /\
     xml_attr a m = Some id /\ no_function E id e).
Proof.
  intros E d e HE H. destruct (C99_policy E d e HE H) as [[_ ->]|[_ (m & Hp & Hm)]].
  { left. destruct d; cbn; auto 10. }
  destruct Hm; try (left; cbn; auto 10; fail). right. exists m, tag, a, id. auto 10.
Qed.

(** With a function map in which nothing was installed by hand, whatever was looked up
    before, these are all. *)
Theorem C99_standard_exceptions : forall E ops d e, default_readers E ->
  re_fmap E = fm_run (re_cm E) ops fm_new ->
  (forall o, In o ops -> match o with FLoadCustom _ _ | FSetItem _ _ => False | _ => True end) ->
  read_policy E d = Raise e ->
  In e [EXMLParseError; EAttributeError; ETypeError; EKeyError; ENotImplementedError; EImportError;
        EFunctionMapConfigError; EUnsupportedStdFunctionError; EUnsupportedFunctionError; EIndexError].
Proof.
  intros E ops d e HE Hf Ho H. destruct (C99_policy_exceptions E d e HE H) as [Hi|(m & tag & a & id & _ & _ & _ & _ & Hn)].
  { cbn [In] in Hi |- *. tauto. }
  assert (last_custom id ops = None) as Hc.
  { apply C28_untouched. intros o Hin. specialize (Ho o Hin). destruct o; tauto. }
  pose proof (C28_get_transparent (re_cm E) ops id Hc) as Hg. rewrite <- Hf in Hg.
  destruct Hn as [e Hn|Hn|Hn|e Hn]; rewrite Hn in Hg.
  - destruct (SpecFuncMap.resolve (re_cm E) id) as [c|e'] eqn:Hr; [discriminate Hg|]. injection Hg as ->.
    destruct (C27_raises _ _ _ Hr) as [->|[[-> _]|[->| ->]]]; cbn [In]; auto 20.
  - cbn [In]. auto 20.
  - cbn [In]. auto 20.
  - destruct (SpecFuncMap.resolve (re_cm E) id) as [c|e'] eqn:Hr; [|discriminate Hg]. injection Hg as <-.
    exfalso. exact (resolve_usable _ _ _ Hr).
Qed.

(** ** Documents with policy sets *)

Theorem C99_document : forall E fetch fd limit K F d e, default_readers E ->
  read_doc limit E fetch fd d (mkFstate (holding K) F) = Raise e ->
  e = ERecursionError \/ refuses E fetch fd d K e.
Proof. intros E fetch fd limit K F d e HE H. exact (doc_blame E HE fetch fd limit d K F e H). Qed.

Theorem C99_document_refused : forall E fetch fd limit K F d e, default_readers E ->
  NoDup (map name_of K) -> refuses E fetch fd d K e ->
  exists e', read_doc limit E fetch fd d (mkFstate (holding K) F) = Raise e'.
Proof. intros E fetch fd limit K F d e HE Hnd H. exact (refused_never E HE fetch fd d K e H Hnd limit F). Qed.

(** With a limit on nesting that is not reached, and one kind of exception. *)
Theorem C99_document_only : forall E fetch fd limit K F d e, default_readers E ->
  NoDup (map name_of K) -> refuses E fetch fd d K e ->
  (forall e', refuses E fetch fd d K e' -> e' = e) ->
  read_doc limit E fetch fd d (mkFstate (holding K) F) <> Raise ERecursionError ->
  read_doc limit E fetch fd d (mkFstate (holding K) F) = Raise e.
Proof.
  intros E fetch fd limit K F d e HE Hnd H Ho Hl.
  destruct (refused_never E HE fetch fd d K e H Hnd limit F) as (e' & Hr). rewrite Hr. f_equal.
  destruct (doc_blame E HE fetch fd limit d K F e' Hr) as [->|H']; [congruence|exact (Ho e' H')].
Qed.

(** ** Requests and responses *)

Theorem C99_request : forall cm n e, request_of_xml cm n = Raise e ->
  wrong_root "Request" n e \/ (called "Request" n = true /\ context_wrong cm n e).
Proof.
  intros cm n e H. destruct (called "Request" n) eqn:Hc.
  - right. split; [reflexivity|exact (request_blame cm n e Hc H)].
  - left. unfold request_of_xml in H. apply bind_raise in H. destruct H as [H|(u & H & _)].
    + exact (expect_blame "Request" n e eq_refl H).
    + apply expect_ok in H; [congruence|reflexivity].
Qed.
Theorem C99_request_refused : forall cm n e, wrong_root "Request" n e \/ context_wrong cm n e ->
  exists e', request_of_xml cm n = Raise e'.
Proof.
  intros cm n e H. destruct (request_of_xml cm n) as [r|e'] eqn:Hr; [exfalso|exists e'; reflexivity].
  assert (called "Request" n = true) as Hc.
  { unfold request_of_xml in Hr. apply bind_ok in Hr. destruct Hr as (u & Hu & _).
    apply expect_ok in Hu; [exact Hu|reflexivity]. }
  destruct H as [[H _]|(m & Hp & Hm)]; [congruence|exact (request_clean cm n r Hc Hr m e Hp Hm)].
Qed.
Theorem C99_response : forall cm n e, response_of_xml n = Raise e ->
  wrong_root "Response" n e \/ (called "Response" n = true /\ context_wrong cm n e).
Proof.
  intros cm n e H. destruct (called "Response" n) eqn:Hc.
  - right. split; [reflexivity|exact (response_blame cm n e Hc H)].
  - left. unfold response_of_xml in H. apply bind_raise in H. destruct H as [H|(u & H & _)].
    + exact (expect_blame "Response" n e eq_refl H).
    + apply expect_ok in H; [congruence|reflexivity].
Qed.
Theorem C99_response_refused : forall cm n e, wrong_root "Response" n e \/ context_wrong cm n e ->
  exists e', response_of_xml n = Raise e'.
Proof.
  intros cm n e H. destruct (response_of_xml n) as [r|e'] eqn:Hr; [exfalso|exists e'; reflexivity].
  assert (called "Response" n = true) as Hc.
  { unfold response_of_xml in Hr. apply bind_ok in Hr. destruct Hr as (u & Hu & _).
    apply expect_ok in Hu; [exact Hu|reflexivity]. }
  destruct H as [[H _]|(m & Hp & Hm)]; [congruence|exact (response_clean cm n r Hc Hr m e Hp Hm)].
Qed.

(** ** Cases *)

Ltac go_in tag := eapply part_below; [exists tag; split; [cbn; auto 30|reflexivity]|vm_compute; auto 10|].

(** Mistakes at several places of a policy, with the exception for each. *)
Definition with_rule (attrs : list (string * string)) (kids : list node) : node :=
  d_policy "p1" [d_rule "a"; xe "Rule" attrs None kids].

Example C99_effect :
  let d := with_rule [("RuleId", "b"); ("Effect", "permit")] [] in
  read_policy std_renv d = Raise EAttributeError /\ wrong std_renv d EAttributeError.
Proof.
  split; [vm_compute; reflexivity|]. eexists. split; [go_in "Policy"; apply part_self|].
  apply (bad_effect _ _ "permit"); [reflexivity|reflexivity|discriminate|discriminate].
Qed.
Example C99_rule_id :
  let d := with_rule [("RuleId", "a"); ("Effect", "Deny")] [] in
  read_policy std_renv d = Raise EXMLParseError /\ wrong std_renv d EXMLParseError.
Proof.
  split; [vm_compute; reflexivity|]. eexists. split; [apply part_self|].
  eapply (same_rule_twice _ _ [xe "Description" [] (Some " what it is ") []; d_target] (d_rule "a") []
           (xe "Rule" [("RuleId", "a"); ("Effect", "Deny")] None []) [] "a"); reflexivity.
Qed.
Example C99_function :
  let d := with_rule [("RuleId", "b"); ("Effect", "Deny")]
    [xe "Condition" [] None [xe "Apply" [("FunctionId", "urn:oasis:names:tc:xacml:1.0:function:nothing")] None []]] in
  exists e, read_policy std_renv d = Raise e /\ wrong std_renv d e /\ e = EUnsupportedStdFunctionError.
Proof.
  eexists. split; [vm_compute; reflexivity|]. split; [|reflexivity].
  eexists. split; [go_in "Policy"; go_in "Rule"; go_in "Condition"; apply part_self|].
  eapply lacks_function; [left; reflexivity|reflexivity|reflexivity|]. first [apply nf_standard; vm_compute; reflexivity|apply nf_raises; vm_compute; reflexivity].
Qed.
Example C99_obligations :
  let d := d_policy "p1" [d_rule "a"; xe "Obligations" [] None []] in
  read_policy std_renv d = Raise ENotImplementedError /\ wrong std_renv d ENotImplementedError.
Proof.
  split; [vm_compute; reflexivity|]. eexists. split; [apply part_self|].
  eapply (unimplemented_child _ _ "Policy" _ (xe "Obligations" [] None [])); [left; reflexivity|reflexivity|vm_compute; auto 10|].
  exists "Obligations". split; [cbn; auto|reflexivity].
Qed.
Example C99_environment_match :
  let d := d_policy "p1" [d_rule "a"; xe "Target" [] None [xe "Environments" [] None [xe "Environment" [] None
             [xe "EnvironmentMatch" [("MatchId", string_equal)] None [d_value "x"]]]]] in
  read_policy std_renv d = Raise EImportError /\ wrong std_renv d EImportError.
Proof.
  split; [vm_compute; reflexivity|]. eexists. split; [go_in "Policy"; go_in "Target"; go_in "Environments"; apply part_self|].
  eapply (classless_child _ _ "Environment" _ (xe "EnvironmentMatch" [("MatchId", string_equal)] None [d_value "x"]));
    [do 11 right; left; reflexivity|reflexivity|vm_compute; auto|].
  exists "EnvironmentMatch". split; [cbn; auto|reflexivity].
Qed.
Example C99_integer :
  let d := with_rule [("RuleId", "b"); ("Effect", "Deny")]
    [xe "Condition" [] None [xe "Apply" [("FunctionId", string_equal)] None
       [d_value "x"; xe "AttributeValue" [("DataType", xs "integer")] (Some "7") []]]] in
  read_policy std_renv d = Raise ETypeError /\ wrong std_renv d ETypeError.
Proof.
  split; [vm_compute; reflexivity|].
  eexists. split; [go_in "Policy"; go_in "Rule"; go_in "Condition"; go_in "Apply"; apply part_self|].
  eapply (not_a_string_type _ _ (xs "integer")); [reflexivity|reflexivity|vm_compute; reflexivity|discriminate].
Qed.

(** A document with one mistake only; see C99_policy_only. *)
Definition bare (alg : string) : node := xe "Policy" [("PolicyId", "p"); ("RuleCombiningAlgId", alg)] None [].
Example C99_one_mistake : wrong std_renv (bare "first") ETypeError /\
  forall e, wrong std_renv (bare "first") e -> e = ETypeError.
Proof.
  split.
  - exists (bare "first"). split; [apply part_self|]. eapply bad_rule_algorithm; reflexivity.
  - intros e (m & Hp & Hm). inversion Hp as [H|n k _ Hk]; subst; [|destruct Hk].
    destruct Hm as [tag a H Hc Hx|tag a id e H Hc|s Hc|id|id Hc|dt Hc|dt Hc|Hc|dt c Hc|tag ct c H Hc Hi|tag ct c H Hc Hi
      |tag ct c H Hc Hi|tag d c H Hc Hi|tag d H Hc Hd|Hc|c Hc|l1 k1 l2 k2 l3 id Hc Hl|Hc|tag attrs text t Hc|c Hc];
      try reflexivity; try discriminate; try (destruct Hi; fail).
    + unfold needed in H. cbn [In] in H. repeat (destruct H as [H|H]; [injection H as <- <-; discriminate|]). destruct H.
    + unfold function_names in H. cbn [In] in H. repeat (destruct H as [H|H]; [injection H as <- <-; discriminate|]). destruct H.
    + destruct Hd. reflexivity.
    + destruct l1; discriminate Hl.
Qed.
(** With two, the exception need not be the one for either given one. *)
Theorem C99_first_refuted : exists E d e1 e2, default_readers E /\ wrong E d e1 /\ wrong E d e2 /\ e1 <> e2 /\
  read_policy E d = Raise e1.
Proof.
  exists std_renv, (xe "Policy" [("PolicyId", "p"); ("RuleCombiningAlgId", "first")] None [xe "Obligations" [] None []]),
    ETypeError, ENotImplementedError.
  split; [exact C43_std_readers|]. split; [|split; [|split; [discriminate|vm_compute; reflexivity]]].
  - eexists. split; [apply part_self|]. eapply bad_rule_algorithm; reflexivity.
  - eexists. split; [apply part_self|].
    eapply (unimplemented_child _ _ "Policy" _ (xe "Obligations" [] None [])); [left; reflexivity|reflexivity|vm_compute; auto 10|].
    exists "Obligations". split; [cbn; auto|reflexivity].
Qed.

(** Documents with references. *)
Example C99_dangling : refuses std_renv web LocalFinder d_main [] EXMLParseError /\
  read_doc 3 std_renv web LocalFinder d_main fstate0 = Raise EXMLParseError.
Proof.
  assert (exists K' urls p, reads std_renv web LocalFinder (d_policy "p1" [d_rule "a"]) [] K' urls p /\ map name_of K' = [PolicyName (Some "p1")])
    as (K' & urls & p & Hr & HK).
  { destruct (read_policy std_renv (d_policy "p1" [d_rule "a"])) as [p|e] eqn:Hp; [|vm_compute in Hp; discriminate Hp].
    exists ([] ++ [p])%list, [], p. split.
    - apply reads_policy; [apply (read_policy_iff std_renv C43_std_readers), Hp|intros []].
    - cbn [app map]. f_equal. vm_compute in Hp. injection Hp as <-. reflexivity. }
  split; [|vm_compute; reflexivity].
  eapply (refuses_for_member _ _ _ _ [d_policy "p1" [d_rule "a"]] (d_sref "http://x/s")); [reflexivity|vm_compute; reflexivity| |].
  - eapply reads_more; [apply reads_inline; [reflexivity|exact Hr]|apply reads_none].
  - apply (refused_unknown _ _ _ _ (SetName (Some "http://x/s"))); [reflexivity|reflexivity|]. rewrite HK. intros [H|[]]. discriminate H.
Qed.
Example C99_unreachable : refuses std_renv web (UrlFinder None) (d_set "main" [d_pref "http://x/none"]) [] (EOther 7) /\
  read_doc 3 std_renv web (UrlFinder None) (d_set "main" [d_pref "http://x/none"]) fstate0 = Raise (EOther 7).
Proof.
  split; [|vm_compute; reflexivity].
  eapply (refuses_for_member _ _ _ _ [] (d_pref "http://x/none")); [reflexivity|vm_compute; reflexivity|apply reads_none|].
  eapply (refused_fetch _ _ _ None _ (PolicyName (Some "http://x/none")) "http://x/none"); [reflexivity|reflexivity|intros []|reflexivity|vm_compute; reflexivity|reflexivity].
Qed.

(** Requests and responses. *)
Definition q_request (kids : list node) : node := Elem "Request" [] None [Elem "Subject" [] None kids].
Example C99_request_type :
  let n := q_request [Elem "Attribute" [("AttributeId", "mail"); ("DataType", "string")] None [Elem "AttributeValue" [] (Some "x") []]] in
  request_of_xml STD_CLASS_MAP n = Raise ETypeError /\ context_wrong STD_CLASS_MAP n ETypeError.
Proof.
  split; [vm_compute; reflexivity|]. eexists. split.
  - eapply cp_below; [left; reflexivity|reflexivity|vm_compute; auto|exists "Subject"; split; [cbn; auto|reflexivity]|].
    eapply cp_below; [right; left; reflexivity|reflexivity|vm_compute; auto|exists "Attribute"; split; [cbn; auto|reflexivity]|].
    apply cp_self.
  - eapply cm_type; [reflexivity|vm_compute; left; reflexivity|reflexivity|reflexivity|vm_compute; reflexivity].
Qed.
Example C99_response_decision :
  let n := Elem "Response" [] None [Elem "Result" [] None [Elem "Decision" [] (Some "Maybe") []]] in
  response_of_xml n = Raise EAttributeError /\ context_wrong STD_CLASS_MAP n EAttributeError.
Proof.
  split; [vm_compute; reflexivity|]. eexists. split.
  - eapply cp_below; [do 5 right; left; reflexivity|reflexivity|vm_compute; auto|exists "Result"; split; [cbn; auto|reflexivity]|].
    eapply cp_below; [do 6 right; left; reflexivity|reflexivity|vm_compute; auto|exists "Decision"; split; [cbn; auto|reflexivity]|].
    apply cp_self.
  - eapply cm_decision; [reflexivity|reflexivity|]. intros H. repeat (destruct H as [H|H]; [discriminate H|]). exact H.
Qed.

Print Assumptions C99_policy.
Print Assumptions C99_policy_refused.
Print Assumptions C99_policy_iff.
Print Assumptions C99_policy_only.
Print Assumptions C99_root.
Print Assumptions C99_policy_exceptions.
Print Assumptions C99_standard_exceptions.
Print Assumptions C99_document.
Print Assumptions C99_document_refused.
Print Assumptions C99_document_only.
Print Assumptions C99_request.
Print Assumptions C99_request_refused.
Print Assumptions C99_response.
Print Assumptions C99_response_refused.
Print Assumptions C99_first_refuted.
