(** C75: evaluating policy objects. *)
From Verif Require Import SpecEvalObjects ObjectsFacts ObjectsFacts2 ObjectsFacts3
  EvalObjectsFacts EvalObjectsFacts2 EvalObjectsFacts3 Sample.
Require Import Lia.
Local Open Scope string_scope.

(** The evaluate method of a policy object gives the decision of the policy that the
    object stands for, for the context that the argument stands for. *)
Theorem C75_document : forall O E h v p c ctx n,
  for_policy h v p -> for_context h c ctx -> same_answers h O E -> policy_depth p <= n ->
  o_policy_eval O h n c v = policy_eval E ctx p.
Proof.
  intros O E h v p c ctx n P C (HF & HC & HP & HX) L. eapply o_policy_eval_ok; eassumption.
Qed.

(** Hence objects that stand for the same policy decide the same, whether they share
    parts or not. *)
Theorem C75_sharing : forall O E h h' v v' p c c' ctx n,
  for_policy h v p -> for_policy h' v' p -> for_context h c ctx -> for_context h' c' ctx ->
  same_answers h O E -> same_answers h' O E -> policy_depth p <= n ->
  o_policy_eval O h n c v = o_policy_eval O h' n c' v'.
Proof.
  intros. erewrite !C75_document by eassumption. reflexivity.
Qed.

(** After every careful history, a policy object without a circle and a request object
    stand for a policy and a request, and evaluate decides as these do. *)
Theorem C75_history : forall cm O ops a r,
  careful_history cm ostart ops ->
  let h := os_heap (orun cm ostart ops) in
  has_type h (PRef a) TPolicyBase -> not_circular h a -> has_type h (PRef r) (TCls KRequest) ->
  exists p rq, for_policy h (PRef a) p /\ for_request h (PRef r) rq /\
    forall E n, same_answers h O E -> policy_depth p <= n ->
      o_policy_eval O h n (PRef r) (PRef a) = policy_eval E (CtxRequest rq) p.
Proof.
  intros cm O ops a r C h T N R.
  pose proof (orun_well_formed cm ops ostart start_well_formed C) as W. fold h in W.
  destruct (policy_exists h W a (not_circular_part h a N) T) as [p P].
  inversion R; subst. destruct (request_exists h W r attrs) as [rq Q]; [assumption|].
  exists p, rq. split; [exact P|]. split; [exact Q|]. intros E n A L.
  apply C75_document; assumption.
Qed.

(** Only the objects reached from the policy and the request count, also if they are
    circular or not of the documented types. *)
Theorem C75_reads : forall O h h' n p c,
  same_objects h h' p c -> same_collaborators O h h' c ->
  o_policy_eval O h' n c p = o_policy_eval O h n c p.
Proof. intros. apply policy_local; assumption. Qed.

(** An operation that is not called on one of these objects does not change the
    decision. *)
Theorem C75_local : forall cm O ops o n p r,
  careful_history cm ostart ops ->
  let s := orun cm ostart ops in
  let s' := snd (ostep cm s o) in
  nth_error (os_heap s) p <> None -> nth_error (os_heap s) r <> None ->
  (forall b, touches o = Some b -> ~ reaches (os_heap s) p b /\ ~ reaches (os_heap s) r b) ->
  same_collaborators O (os_heap s) (os_heap s') (PRef r) ->
  o_policy_eval O (os_heap s') n (PRef r) (PRef p) = o_policy_eval O (os_heap s) n (PRef r) (PRef p).
Proof.
  intros cm O ops o n p r C s s' Np Nr T A. apply policy_local; [|exact A].
  pose proof (orun_well_formed cm ops ostart start_well_formed C) as W. fold s in W.
  intros a b Q R. destruct Q as [Q|Q]; injection Q as <-.
  - refine (ostep_agree cm s o p W Np _ p b eq_refl R). intros x X. apply (T x X).
  - refine (ostep_agree cm s o r W Nr _ r b eq_refl R). intros x X. apply (T x X).
Qed.

(** If nested calls beyond the recursion limit [n] are stopped, Permit and
    NotApplicable are still decisions that a higher limit would give as well, for all
    objects, also circular ones. *)
Theorem C75_limit : forall O h n m c v, n <= m ->
  (o_policy_eval O h n c v = Ok Permit ->
     o_policy_eval O h m c v = Ok Permit \/ interrupted (o_policy_eval O h m c v)) /\
  (o_policy_eval O h n c v = Ok NotApplicable -> o_policy_eval O h m c v = Ok NotApplicable).
Proof. intros O h n m c v L. exact (policy_kept O h c n m v L). Qed.

(** So an object that stands for a policy is permitted under any limit only if the
    policy permits. *)
Theorem C75_limit_document : forall O E h v p c ctx n,
  for_policy h v p -> for_context h c ctx -> same_answers h O E ->
  (o_policy_eval O h n c v = Ok Permit ->
     policy_eval E ctx p = Ok Permit \/ interrupted (policy_eval E ctx p)) /\
  (o_policy_eval O h n c v = Ok NotApplicable -> policy_eval E ctx p = Ok NotApplicable).
Proof.
  intros O E h v p c ctx n P C A.
  rewrite <- (C75_document O E h v p c ctx (n + policy_depth p) P C A) by lia.
  apply policy_kept. lia.
Qed.

(** *** What does not hold *)

Definition DENY_OVERRIDES : string :=
  "urn:oasis:names:tc:xacml:1.0:policy-combining-algorithm:deny-overrides".
Definition FIRST_APPLICABLE : string :=
  "urn:oasis:names:tc:xacml:1.0:policy-combining-algorithm:first-applicable".

(** Deny is not kept: a policy set that only does not decide because of the limit counts
    as Deny for the set around it. *)
Theorem C75_limit_deny_refuted : forall O, exists ops n m a c p,
  careful_history STD_CLASS_MAP ostart ops /\
  let h := os_heap (orun STD_CLASS_MAP ostart ops) in
  for_policy h a p /\ n <= m /\ m = policy_depth p /\
  o_policy_eval O h n c a = Ok Deny /\ o_policy_eval O h m c a = Ok NotApplicable.
Proof.
  intro O.
  exists [ONew KPolicySet; OSet 0 "policyCombiningAlgId" (PNat (NStr DENY_OVERRIDES));
          ONew KPolicySet; OSet 3 "policyCombiningAlgId" (PNat (NStr FIRST_APPLICABLE));
          ONew KPolicySet; OSet 6 "policyCombiningAlgId" (PNat (NStr FIRST_APPLICABLE));
          OList 1 (LAppend (PRef 3)); OList 4 (LAppend (PRef 6))], 2, 3, (PRef 0), (PNat NNone),
    (PPolicySet (mkMeta None None (Some DENY_OVERRIDES) None None) None (Some DenyOverrides)
       [PPolicySet (mkMeta None None (Some FIRST_APPLICABLE) None None) None (Some FirstApplicable)
         [PPolicySet (mkMeta None None (Some FIRST_APPLICABLE) None None) None (Some FirstApplicable) []]]).
  split.
  { apply plain_careful; reflexivity. }
  intro h.
  match goal with h := ?x |- _ => assert (E : h = x) by reflexivity end. clearbody h. vm_compute in E. subst h.
  split; [|repeat split; reflexivity || lia].
  repeat match goal with
         | |- for_policy _ _ (PPolicySet _ _ _ _) => eapply fp_policyset
         | |- for_policies _ _ _ => constructor
         | |- instance _ _ _ _ => split; [reflexivity | eexists; reflexivity]
         | |- attr_is _ _ _ _ => eexists; split; [reflexivity | cbn [maybe]]
         | |- for_defaults _ _ _ => left; split; reflexivity
         | |- _ => reflexivity
         end.
Qed.

(** A policy set that contains itself denies everything under deny-overrides, whatever
    the limit. *)
Theorem C75_circular_deny_refuted : forall O c, exists ops,
  careful_history STD_CLASS_MAP ostart ops /\
  let h := os_heap (orun STD_CLASS_MAP ostart ops) in
  get_attr h 0 "target" = Ok PNone /\ get_attr h 0 "policies" = Ok (PRef 1) /\
  nth_error h 1 = Some (PTypedList TPolicyBase [PRef 0]) /\
  forall n, 2 <= n -> o_policy_eval O h n c (PRef 0) = Ok Deny.
Proof.
  intros O c.
  exists [ONew KPolicySet; OSet 0 "policyCombiningAlgId" (PNat (NStr DENY_OVERRIDES));
          OList 1 (LAppend (PRef 0))].
  split.
  { apply plain_careful; reflexivity. }
  intro h.
  match goal with h := ?x |- _ => assert (E : h = x) by reflexivity end. clearbody h. vm_compute in E. subst h.
  repeat split. intros n L. destruct n as [|[|n]]; try lia. clear L.
  induction n as [|n IH]; [reflexivity|].
  match type of IH with o_policy_eval O ?h _ _ _ = _ =>
    change (o_policy_eval O h (S (S (S n))) c (PRef 0)) with
      (catch_exception (o_combine_policies DenyOverrides (o_policy_eval O h (S (S n)) c) [PRef 0])) end.
  cbn [o_combine_policies o_policies_deny_overrides]. rewrite IH. reflexivity.
Qed.

(** *** A case: a policy set that holds the same policy twice; a rule and its policy have
    the same target, and an attribute value occurs in policy and request. *)
Definition shared : list oop :=
  let str s := PNat (NStr s) in
  [ONew KPolicySet;                                        (* 0, policies 1, obligations 2 *)
   OSet 0 "policyCombiningAlgId" (str DENY_OVERRIDES);
   ONew KPolicy;                                           (* 3, rules 4, obligations 5 *)
   OSet 3 "ruleCombiningAlgId" (str "urn:oasis:names:tc:xacml:1.0:rule-combining-algorithm:first-applicable");
   OList 1 (LAppend (PRef 3)); OList 1 (LAppend (PRef 3));
   ONew KTarget;                                           (* 6, lists 7 8 9 10 *)
   OSet 3 "target" (PRef 6);
   ONew (KTargetChild DSubject);                           (* 11, matches 12 *)
   OList 7 (LAppend (PRef 11));
   ONew (KMatch DSubject);                                 (* 13 *)
   OList 12 (LAppend (PRef 13)); OSet 13 "matchId" (str (v1 "string-equal"));
   ONew (KDesignator DSubject);                            (* 14 *)
   OSet 14 "attributeId" (str "role"); OSet 14 "dataType" (str (xs "string"));
   ONewValue (sstr "staff");                               (* 15 *)
   OSet 13 "attributeValue" (PRef 15); OSet 13 "attributeDesignator" (PRef 14);
   ONew KRule; ONewEffect (str "Permit");                  (* 16, 17 *)
   OSet 16 "effect" (PRef 17); OSet 16 "target" (PRef 6); OList 4 (LAppend (PRef 16));
   ONew KCondition; ONew KApply;                           (* 18, 19, expressions 20 *)
   OSet 16 "condition" (PRef 18); OSet 18 "expression" (PRef 19);
   OList 20 (LAppend (PRef 15)); OList 20 (LAppend (PRef 15)); OSet 19 "functionId" (str (v1 "string-equal"));
   ONew KRequest; ONew KCtxSubject; ONew KAttribute;       (* 21, 22 23; 24, 25; 26, 27 *)
   OSet 26 "attributeId" (str "role"); OSet 26 "dataType" (str (xs "string"));
   OList 27 (LAppend (PRef 15)); OList 25 (LAppend (PRef 26)); OList 22 (LAppend (PRef 24));
   OSet 21 "ctxHandler" (PHandler 1)].

Definition shared_policy : policybase :=
  let t := mkTarget [[mkMatch (Some (v1 "string-equal")) (Some (FnEqual StringAV)) (Some (sstr "staff"))
                        (Some (mkDesignator DSubject (Some "role") (Some (xs "string")) None false)) None]] [] [] [] in
  let p := PPolicy (mkMeta None None (Some "urn:oasis:names:tc:xacml:1.0:rule-combining-algorithm:first-applicable")
                      None None) (Some t) (Some FirstApplicable)
       [mkRule None (Some EffPermit) (Some t)
          (Some (Some (XApply (Some (v1 "string-equal")) (Some (FnEqual StringAV))
                         [XValue (sstr "staff"); XValue (sstr "staff")]))) None] in
  PPolicySet (mkMeta None None (Some DENY_OVERRIDES) None None) None (Some DenyOverrides) [p; p].

Definition shared_request : request :=
  mkRequest [mkSubject None [mkAttribute (Some "role") (Some (xs "string")) None [sstr "staff"]]] [] None None
    (Some 1%N) None.

(** Collaborators that look at the designator object *)
Definition shared_answers : oenv :=
  mkOenv sF STD_CLASS_MAP
    (fun h _ d => match get_attr h d "attributeId" with
                  | Ok (PNat (NStr id)) => spip shared_request (mkDesignator DSubject (Some id) None None false)
                  | _ => Ok None
                  end)
    (fun _ _ _ => Ok [NStr "a"; NStr "b"]).

Lemma shared_same : forall h, same_answers h shared_answers sE.
Proof.
  intro h. split; [reflexivity|]. split; [reflexivity|]. split; [|reflexivity].
  intros r d rq dg R D. destruct D as (a & (Q & _) & (v & G & M) & _). injection Q as <-.
  cbn. rewrite G. destruct (dg_id dg) as [id|] eqn:I; cbn in M; [unfold for_string in M|]; subst v;
    unfold spip; rewrite I; reflexivity.
Qed.

Definition shared_heap : heap := Eval vm_compute in os_heap (orun STD_CLASS_MAP ostart shared).
Lemma shared_heap_eq : os_heap (orun STD_CLASS_MAP ostart shared) = shared_heap.
Proof. vm_compute. reflexivity. Qed.

Example C75_case :
  careful_history STD_CLASS_MAP ostart shared /\
  let h := os_heap (orun STD_CLASS_MAP ostart shared) in
  for_policy h (PRef 0) shared_policy /\ for_context h (PRef 21) (CtxRequest shared_request) /\
  same_answers h shared_answers sE /\ policy_depth shared_policy = 4 /\
  o_policy_eval shared_answers h 4 (PRef 21) (PRef 0) = Ok Permit /\
  o_policy_eval shared_answers h 4 (PRef 0) (PRef 0) = Ok Deny /\
  o_policy_eval shared_answers h 3 (PRef 21) (PRef 0) = Ok Deny.
Proof.
  split.
  { apply plain_careful; reflexivity. }
  intro h. pose proof (shared_same h) as A. subst h. rewrite shared_heap_eq in *.
  split; [|split; [|split; [exact A | repeat split; vm_compute; reflexivity]]].
  - unfold shared_policy. set (p := PPolicy _ _ _ _).
    assert (P : for_policy shared_heap (PRef 3) p);
      [unfold p; clear | clearbody p]; repeat match goal with
           | |- for_policy _ _ _ => assumption
           | |- for_policy _ _ (PPolicySet _ _ _ _) => eapply fp_policyset
           | |- for_policy _ _ (PPolicy _ _ _ _) => eapply fp_policy
           | |- for_policies _ _ _ => constructor
           | |- for_expr _ _ (XApply _ _ _) => eapply fe_apply
           | |- for_expr _ _ (XValue _) => apply fe_value
           | |- for_exprs _ _ _ => constructor
           | |- instance _ _ _ _ => split; [reflexivity | eexists; reflexivity]
           | |- attr_is _ _ _ _ => eexists; split; [reflexivity |
               cbn [maybe mt_value mt_designator mt_selector rl_effect rl_target rl_condition tg_subjects
                    tg_resources tg_actions tg_environments]]
           | |- listing _ _ _ _ => do 3 eexists; split; [reflexivity | split; [reflexivity|]]
           | |- Forall2 _ _ _ => constructor
           | |- for_defaults _ _ _ => left; split; reflexivity
           | |- for_value _ _ _ => eexists; split; reflexivity
           | |- for_effect _ _ _ => eexists; split; reflexivity
           | |- for_rule _ _ _ => eexists
           | |- for_target _ _ _ => eexists
           | |- for_condition _ _ _ => eexists
           | |- for_child _ _ _ _ => eexists
           | |- for_match _ _ _ _ => eexists
           | |- for_designator _ _ _ => eexists
           | |- _ /\ _ => split
           | |- _ => reflexivity
           end.
  - cbn [for_context]. unfold shared_request.
    repeat match goal with
         | |- instance _ _ _ _ => split; [reflexivity | eexists; reflexivity]
         | |- attr_is _ _ _ _ => eexists; split; [reflexivity | cbn [maybe rq_subjects rq_resources
              rq_action rq_environment rq_ctxHandler rq_selector at_values sb_attributes sb_category]]
         | |- listing _ _ _ _ => do 3 eexists; split; [reflexivity | split; [reflexivity|]]
         | |- Forall2 _ _ _ => constructor
         | |- for_value _ _ _ => eexists; split; reflexivity
         | |- for_request _ _ _ => eexists
         | |- for_attribute _ _ _ => eexists
         | |- for_subject _ _ _ => split
         | |- for_attributes _ _ _ _ => eexists
         | |- exists _, _ => eexists
         | |- _ /\ _ => split
         | |- _ => reflexivity
         end.
Qed.

Print Assumptions C75_document.
Print Assumptions C75_sharing.
Print Assumptions C75_history.
Print Assumptions C75_reads.
Print Assumptions C75_local.
Print Assumptions C75_limit.
Print Assumptions C75_limit_document.
Print Assumptions C75_limit_deny_refuted.
Print Assumptions C75_circular_deny_refuted.
