(** C89: what has a bearing on decisions. *)
From Verif Require Import ObjectsFacts ObjectsFacts3 EvalObjectsFacts SpecBearing BearingFacts Sample PropertiesEvalObjects
  PropertiesEvalLive.
From Coq Require Import Lia.
Local Open Scope string_scope.
Local Open Scope list_scope.

(** Ids, versions, descriptions, defaults, obligations, the subject category and resource
    content are not looked at: heaps that differ in these give the same decision. *)
Theorem C89_decision : forall O h h' n c p,
  same_bearing h h' p c -> same_collaborators O h h' c ->
  o_policy_eval O h' n c p = o_policy_eval O h n c p.
Proof. exact bearing_same. Qed.

(** So it is if they differ from step to step of the evaluation, and it ends. *)
Theorem C89_meanwhile : forall O h n c p, exists N, forall hs,
  Forall (fun h' => same_bearing h h' p c /\ same_collaborators O h h' c) hs ->
  (forall d, gives O hs n c p d -> d = o_policy_eval O h n c p) /\
  (N <= length hs -> gives O hs n c p (o_policy_eval O h n c p)).
Proof.
  intros O h n c p. destruct (bearing_ends O h n c p) as (N & H). exists N. intros hs F. split.
  - intros d G. exact (bearing_result O h hs n c p d F G).
  - intro L. exact (H hs L F).
Qed.

(** In operations: after any number of operations without a bearing, the same decision. *)
Theorem C89_operations : forall cm O ops more n p r,
  careful_history cm ostart ops ->
  let s := orun cm ostart ops in
  let s' := orun cm s more in
  nth_error (os_heap s) p <> None -> nth_error (os_heap s) r <> None ->
  (forall o, In o more -> idle (os_heap s) (PRef p) (PRef r) o) ->
  same_collaborators O (os_heap s) (os_heap s') (PRef r) ->
  o_policy_eval O (os_heap s') n (PRef r) (PRef p) = o_policy_eval O (os_heap s) n (PRef r) (PRef p).
Proof.
  intros cm O ops more n p r C s s' Np Nr T SC. apply bearing_same; [|exact SC].
  pose proof (orun_well_formed cm ops ostart start_well_formed C) as W. fold s in W.
  intros b B. pose proof (bearing_object _ p r b W Np Nr B) as E.
  destruct (nth_error (os_heap s) b) as [x|] eqn:Nb; [|congruence].
  apply run_alike; [exact Nb|]. intros o I Q. exact (idle_on _ _ _ o b (T o I) B Q).
Qed.

(** And while other threads perform them during the evaluation. *)
Theorem C89_live : forall cm O ops n p r,
  careful_history cm ostart ops ->
  let s := orun cm ostart ops in
  nth_error (os_heap s) p <> None -> nth_error (os_heap s) r <> None ->
  exists N, forall evs,
  (forall o, In o (performed evs) -> idle (os_heap s) (PRef p) (PRef r) o) ->
  (forall h, In h (meanwhile cm s evs) -> same_collaborators O (os_heap s) h (PRef r)) ->
  (forall d, gives O (meanwhile cm s evs) n (PRef r) (PRef p) d ->
     d = o_policy_eval O (os_heap s) n (PRef r) (PRef p)) /\
  (N <= length (meanwhile cm s evs) ->
    gives O (meanwhile cm s evs) n (PRef r) (PRef p) (o_policy_eval O (os_heap s) n (PRef r) (PRef p))).
Proof.
  intros cm O ops n p r C s Np Nr.
  destruct (C89_meanwhile O (os_heap s) n (PRef r) (PRef p)) as (N & H). exists N. intros evs T A.
  apply H. rewrite Forall_forall. intros h I. split; [|apply A; exact I]. intros b B.
  pose proof (orun_well_formed cm ops ostart start_well_formed C) as W. fold s in W.
  pose proof (bearing_object _ p r b W Np Nr B) as E.
  destruct (nth_error (os_heap s) b) as [x|] eqn:Nb; [|congruence].
  apply (meanwhile_alike cm b x evs s Nb); [|exact I]. intros o Io Q. exact (idle_on _ _ _ o b (T o Io) B Q).
Qed.

(** *** Every other attribute does matter

    A policy set with one policy with one rule with a target and a condition, and a request
    that it permits; the same with designators of absent attributes, and with selectors. *)
Definition full : list oop :=
  let str s := PNat (NStr s) in
  [ONew KPolicySet; OSet 0 "policyCombiningAlgId" (str FIRST_APPLICABLE); ONew KPolicy;
   OSet 3 "ruleCombiningAlgId" (str "urn:oasis:names:tc:xacml:1.0:rule-combining-algorithm:first-applicable");
   OList 1 (LAppend (PRef 3)); ONew KRule; OList 4 (LAppend (PRef 6)); ONewEffect (str "Permit");
   OSet 6 "effect" (PRef 7); ONew KTarget; OSet 6 "target" (PRef 8); ONewValue (sstr "v");
   ONew (KTargetChild DSubject); OList 9 (LAppend (PRef 14)); ONew (KMatch DSubject);
   OList 15 (LAppend (PRef 16)); OSet 16 "matchId" (str (v1 "string-equal"));
   OSet 16 "attributeValue" (PRef 13); ONew (KDesignator DSubject);
   OSet 17 "attributeId" (str "a"); OSet 17 "dataType" (str (xs "string"));
   OSet 17 "issuer" (str "i"); OSet 16 "attributeDesignator" (PRef 17);
   ONew (KTargetChild DResource); OList 10 (LAppend (PRef 18)); ONew (KMatch DResource);
   OList 19 (LAppend (PRef 20)); OSet 20 "matchId" (str (v1 "string-equal"));
   OSet 20 "attributeValue" (PRef 13); ONew (KDesignator DResource);
   OSet 21 "attributeId" (str "a"); OSet 21 "dataType" (str (xs "string"));
   OSet 21 "issuer" (str "i"); OSet 20 "attributeDesignator" (PRef 21);
   ONew (KTargetChild DAction); OList 11 (LAppend (PRef 22)); ONew (KMatch DAction);
   OList 23 (LAppend (PRef 24)); OSet 24 "matchId" (str (v1 "string-equal"));
   OSet 24 "attributeValue" (PRef 13); ONew (KDesignator DAction);
   OSet 25 "attributeId" (str "a"); OSet 25 "dataType" (str (xs "string"));
   OSet 25 "issuer" (str "i"); OSet 24 "attributeDesignator" (PRef 25);
   ONew (KTargetChild DEnvironment); OList 12 (LAppend (PRef 26)); ONew (KMatch DEnvironment);
   OList 27 (LAppend (PRef 28)); OSet 28 "matchId" (str (v1 "string-equal"));
   OSet 28 "attributeValue" (PRef 13); ONew (KDesignator DEnvironment);
   OSet 29 "attributeId" (str "a"); OSet 29 "dataType" (str (xs "string"));
   OSet 29 "issuer" (str "i"); OSet 28 "attributeDesignator" (PRef 29); ONew KCondition;
   ONew KApply; OSet 6 "condition" (PRef 30); OSet 30 "expression" (PRef 31);
   OList 32 (LAppend (PRef 13)); OList 32 (LAppend (PRef 13));
   OSet 31 "functionId" (str (v1 "string-equal")); ONew KRequest; ONew KCtxSubject;
   ONew KAttribute; OSet 38 "attributeId" (str "a"); OSet 38 "dataType" (str (xs "string"));
   OSet 38 "issuer" (str "i"); OList 39 (LAppend (PRef 13)); OList 37 (LAppend (PRef 38));
   OList 34 (LAppend (PRef 36)); ONew KCtxResource; ONew KAttribute;
   OSet 42 "attributeId" (str "a"); OSet 42 "dataType" (str (xs "string"));
   OSet 42 "issuer" (str "i"); OList 43 (LAppend (PRef 13)); OList 41 (LAppend (PRef 42));
   OList 35 (LAppend (PRef 40)); ONew KCtxAction; ONew KAttribute;
   OSet 46 "attributeId" (str "a"); OSet 46 "dataType" (str (xs "string"));
   OSet 46 "issuer" (str "i"); OList 47 (LAppend (PRef 13)); OList 45 (LAppend (PRef 46));
   OSet 33 "action" (PRef 44); ONew KCtxEnvironment; ONew KAttribute;
   OSet 50 "attributeId" (str "a"); OSet 50 "dataType" (str (xs "string"));
   OSet 50 "issuer" (str "i"); OList 51 (LAppend (PRef 13)); OList 49 (LAppend (PRef 50));
   OSet 33 "environment" (PRef 48)].

Definition absent : list oop :=
  let str s := PNat (NStr s) in
  [OSet 17 "attributeId" (str "absent"); OSet 21 "attributeId" (str "absent");
   OSet 25 "attributeId" (str "absent"); OSet 29 "attributeId" (str "absent")].

Definition selecting : list oop :=
  let str s := PNat (NStr s) in
  [ONew KSelector; OSet 52 "dataType" (str (xs "string")); OSet 52 "requestContextPath" (str "p");
   OSet 16 "attributeSelector" (PRef 52); OSet 20 "attributeSelector" (PRef 52);
   OSet 24 "attributeSelector" (PRef 52); OSet 28 "attributeSelector" (PRef 52);
   OSet 33 "attributeSelector" (PXPath 0)].

Definition other_path : list oop :=
  let str s := PNat (NStr s) in
  [OSet 52 "requestContextPath" (str "q")].

Definition answers : oenv :=
  mkOenv sF STD_CLASS_MAP (fun _ _ _ => Raise EValueError)
    (fun _ _ path => match path with
                     | PNat (NStr "p") => Ok [NStr "v"]
                     | _ => Ok []
                     end).

Lemma answers_same : forall h h' c, same_collaborators answers h h' c.
Proof. intros h h' c. split; reflexivity. Qed.

Definition bases : list (list oop) :=
  [full; full ++ absent; full ++ selecting; full ++ selecting ++ other_path].
Definition tried : list pval := [PNone; PNat (NStr "x"); PNat (NBool true); PHandler 0].

Definition decided (h : heap) : res decision := o_policy_eval answers h 9 (PRef 33) (PRef 0).
Definition unlike (x y : res decision) : bool :=
  match x, y with
  | Ok Permit, Ok Permit | Ok NotApplicable, Ok NotApplicable => false
  | Ok Permit, Ok _ | Ok NotApplicable, Ok _ => true
  | _, _ => false
  end.

(** some object of class [k] in one of the heaps, with another value for [name] *)
Definition matters (hs : list heap) (k : pcls) (name : string) : bool :=
  existsb (fun h =>
    let d := decided h in
    existsb (fun a => match nth_error h a with
                      | Some (PInst k' s) =>
                          if pcls_eqb k k'
                          then existsb (fun v => unlike d (decided (replace_nth a (PInst k' (dict_set name v s)) h))) tried
                          else false
                      | _ => false
                      end) (seq 0 (length h))) hs.
Definition classes : list pcls :=
  flat_map (fun k => [KDesignator k; KMatch k; KTargetChild k]) [DSubject; DResource; DAction; DEnvironment] ++
  [KSelector; KApply; KCondition; KTarget; KRule; KObligation; KPolicyDefaults; KPolicy; KPolicySet; KAttribute;
   KCtxSubject; KCtxResource; KCtxAction; KCtxEnvironment; KRequest; KPdp].
Lemma all_matter :
  let hs := map (fun ops => os_heap (orun STD_CLASS_MAP ostart ops)) bases in
  forallb (fun k => forallb (fun name => existsb (String.eqb name) no_bearing || matters hs k name ||
                          (match k with KApply => String.eqb name "dataType" | KPdp => true | _ => false end))
                  (map fst (init_attrs k))) classes = true.
Proof. vm_compute. reflexivity. Qed.

Lemma base_request : forall ops, In ops bases ->
  has_type (os_heap (orun STD_CLASS_MAP ostart ops)) (PRef 33) (TCls KRequest).
Proof.
  intros ops I.
  assert (X : forallb (fun ops => match nth_error (os_heap (orun STD_CLASS_MAP ostart ops)) 33 with
                                  | Some (PInst KRequest _) => true
                                  | _ => false
                                  end) bases = true) by (vm_compute; reflexivity).
  rewrite forallb_forall in X. specialize (X ops I). cbn beta in X.
  destruct (nth_error (os_heap (orun STD_CLASS_MAP ostart ops)) 33) as [[[] s| | |]|] eqn:N; try discriminate X.
  eapply ht_class. exact N.
Qed.
Lemma base_careful : forall ops, In ops bases -> careful_history STD_CLASS_MAP ostart ops.
Proof.
  intros ops I. apply plain_careful.
  assert (X : forallb (forallb plain) bases = true) by (vm_compute; reflexivity).
  rewrite forallb_forall in X. exact (X ops I).
Qed.

Lemma unlike_ok : forall x y, unlike x y = true -> exists d d', x = Ok d /\ y = Ok d' /\ d' <> d.
Proof.
  intros [d|e] [d'|e'] U; try (destruct d; discriminate U); try discriminate U.
  exists d, d'. split; [reflexivity|]. split; [reflexivity|]. intros ->. destruct d; discriminate U.
Qed.
Lemma matters_all : forall k name, In name (map fst (init_attrs k)) -> ~ In name no_bearing ->
  k <> KPdp -> (k, name) <> (KApply, "dataType") ->
  matters (map (fun ops => os_heap (orun STD_CLASS_MAP ostart ops)) bases) k name = true.
Proof.
  intros k name I N NP NA.
  pose proof all_matter as T. cbv zeta in T. rewrite forallb_forall in T. specialize (T k).
    assert (C : In k classes).
    { destruct k as [[]| | | |[]|[]| | | | | | | | | | | | |]; cbn;
        repeat (first [left; reflexivity | right]). }
    apply T in C. clear T. rename C into T.
    rewrite forallb_forall in T. specialize (T name I). apply Bool.orb_true_iff in T. destruct T as [T|T].
    - apply Bool.orb_true_iff in T. destruct T as [T|T]; [|exact T]. exfalso. apply N.
      apply existsb_exists in T. destruct T as (x & X & Q). apply String.eqb_eq in Q. subst x. exact X.
    - exfalso. destruct k; try discriminate T; [|apply NP; reflexivity].
      apply String.eqb_eq in T. subst name. apply NA. reflexivity.
Qed.

Lemma matters_found : forall hs k name, matters hs k name = true ->
  exists h a s v, In h hs /\ nth_error h a = Some (PInst k s) /\
    unlike (decided h) (decided (replace_nth a (PInst k (dict_set name v s)) h)) = true.
Proof.
  intros hs k name M. unfold matters in M. apply existsb_exists in M. destruct M as (h & I & M). cbv zeta in M.
  apply existsb_exists in M. destruct M as (a & _ & M). exists h, a.
  destruct (nth_error h a) as [[k' s|t its|v|e]|]; try discriminate M.
  destruct (pcls_eqb k k') eqn:K; [|discriminate M]. apply pcls_eqb_eq in K. subst k'.
  apply existsb_exists in M. destruct M as (v & _ & U). exists s, v. split; [exact I|]. split; [reflexivity | exact U].
Qed.

Theorem C89_others_matter : forall k name,
  In name (map fst (init_attrs k)) -> ~ In name no_bearing ->
  k <> KPdp -> (k, name) <> (KApply, "dataType") ->
  exists O ops h' n r p,
    let h := os_heap (orun STD_CLASS_MAP ostart ops) in
    careful_history STD_CLASS_MAP ostart ops /\ has_type h (PRef r) (TCls KRequest) /\
    differs_only_in k name h h' /\ same_collaborators O h h' (PRef r) /\
    exists d d', o_policy_eval O h n (PRef r) (PRef p) = Ok d /\ o_policy_eval O h' n (PRef r) (PRef p) = Ok d' /\ d' <> d.
Proof.
  intros k name I N NP NA.
  destruct (matters_found _ _ _ (matters_all k name I N NP NA)) as (h & a & s & v & IO & Na & U).
  apply in_map_iff in IO. destruct IO as (ops & Q & IO).
  exists answers, ops, (replace_nth a (PInst k (dict_set name v s)) h), 9, 33, 0.
  cbv zeta. rewrite Q. split; [apply base_careful; exact IO|]. split; [rewrite <- Q; apply base_request; exact IO|].
  split; [exists a, s, v; split; [exact Na | reflexivity]|]. split; [apply answers_same | exact (unlike_ok _ _ U)].
Qed.

(** *** A case: while the request is decided, the policy set, the policy and the rule get
    ids and descriptions, the policy set an obligation, the subject a category and the
    resource a content. *)
Definition notes : list event :=
  let str s := PNat (NStr s) in
  flat_map (fun o => [Performs o; Evaluates; Evaluates; Evaluates])
    [OSet 0 "policySetId" (str "set"); OSet 0 "description" (str "all"); OSet 0 "version" (str "7");
     ONew KObligation; OSet 52 "obligationId" (str "mail"); OSet 52 "fulfillOn" (str "Permit");
     OList 2 (LAppend (PRef 52)); OSet 3 "policyId" (str "p"); OSet 6 "id" (str "r");
     OSet 6 "description" (str "one"); OSet 31 "loadFunctionFromId" (PNat (NBool false));
     OSet 36 "subjectCategory" (str "recipient"); OSet 40 "resourceContent" (str "text");
     ONew KPolicyDefaults; OSet 3 "policyDefaults" (PRef 54); OSet 54 "xpathVersion" (str "2")] ++
  repeat Evaluates 1000.

Example C89_case :
  let s := orun STD_CLASS_MAP ostart full in
  careful_history STD_CLASS_MAP ostart full /\
  nth_error (os_heap s) 0 <> None /\ nth_error (os_heap s) 33 <> None /\
  (forall o, In o (performed notes) -> idle (os_heap s) (PRef 0) (PRef 33) o) /\
  (forall h h', same_collaborators answers h h' (PRef 33)) /\
  gives answers (meanwhile STD_CLASS_MAP s notes) 9 (PRef 33) (PRef 0) (Ok Permit) /\
  nth_error (os_heap (orun STD_CLASS_MAP s (performed notes))) 2 = Some (PTypedList (TCls KObligation) [PRef 52]).
Proof.
  intro s. split; [apply plain_careful; reflexivity|]. split; [vm_compute; discriminate|]. split; [vm_compute; discriminate|].
  split; [|split; [intros; apply answers_same | split; vm_compute; reflexivity]].
  assert (X : inside (fun a => Nat.ltb a 52 && negb (Nat.eqb a 2)) (prune (os_heap s)) = true) by (vm_compute; reflexivity).
  assert (Y : forall b, bears_on (os_heap s) (PRef 0) (PRef 33) b -> Nat.ltb b 52 && negb (Nat.eqb b 2) = true).
  { intros b B. apply bears_prune in B. destruct B as (a & Q & R).
    apply (inside_reaches _ _ _ _ X) in R; [exact R|]. destruct Q as [Q|Q]; injection Q as <-; reflexivity. }
  assert (Z : forall b, Nat.ltb b 52 && negb (Nat.eqb b 2) = false -> ~ bears_on (os_heap s) (PRef 0) (PRef 33) b).
  { intros b E B. rewrite (Y b B) in E. discriminate E. }
  intros o I. cbn in I. unfold idle.
  repeat (destruct I as [<-|I];
    [cbn [touches]; first [exact Logic.I
       | left; apply Z; reflexivity
       | right; eexists _, _; split; [reflexivity|]; split; [cbn; tauto | cbn; intuition discriminate]]|]).
  destruct I.
Qed.

Print Assumptions C89_decision.
Print Assumptions C89_meanwhile.
Print Assumptions C89_operations.
Print Assumptions C89_live.
Print Assumptions C89_others_matter.
