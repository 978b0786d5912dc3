(** C86: evaluating policy objects while other threads change objects. *)
From Verif Require Import SpecEvalLive SpecReadObjects ObjectsFacts ObjectsFacts3 EvalObjectsFacts
  EvalLiveFacts2 EvalLiveFacts3 Sample PropertiesEvalObjects.
From Coq Require Import Lia Relations.
Local Open Scope string_scope.
Local Open Scope list_scope.

(** Whatever the other threads do elsewhere: if at every step the objects that are part
    of the policy and of the request when evaluate is called are as they were then, and
    the collaborators answer as they did then, the decision is the one of C75. *)
Theorem C86_frame : forall O h hs n c p d,
  Forall (fun h' => same_objects h h' p c /\ same_collaborators O h h' c) hs ->
  gives O hs n c p d -> d = o_policy_eval O h n c p.
Proof.
  intros O h hs n c p d F G. refine (ev_result O h _ _ hs _ _ _ _ _ (ev_whole O h n c p) G).
  eapply Forall_impl; [|exact F]. intros h' (A & B). exact (same_keeps O h h' p c A B).
Qed.

(** And it ends: there is a number of steps after which it has that decision. *)
Theorem C86_ends : forall O h n c p, exists N, forall hs, N <= length hs ->
  Forall (fun h' => same_objects h h' p c /\ same_collaborators O h h' c) hs ->
  gives O hs n c p (o_policy_eval O h n c p).
Proof.
  intros O h n c p. destruct (ev_ends O h _ _ _ _ _ (ev_whole O h n c p)) as (N & H). exists N.
  intros hs L F. apply H; [exact L|].
  eapply Forall_impl; [|exact F]. intros h' (A & B). exact (same_keeps O h h' p c A B).
Qed.

(** Operations of other threads, of any kind, on objects that are not part of the policy
    or of the request: the evaluation gives what it gives without them. *)
Theorem C86_elsewhere : forall cm O ops n p r,
  careful_history cm ostart ops ->
  let s := orun cm ostart ops in
  nth_error (os_heap s) p <> None -> nth_error (os_heap s) r <> None ->
  exists N, forall evs,
  (forall o b, In o (performed evs) -> touches o = Some b ->
     ~ reaches (os_heap s) p b /\ ~ reaches (os_heap s) r b) ->
  (forall h, In h (meanwhile cm s evs) -> same_collaborators O (os_heap s) h (PRef r)) ->
  (forall d, gives O (meanwhile cm s evs) n (PRef r) (PRef p) d ->
     d = o_policy_eval O (os_heap s) n (PRef r) (PRef p)) /\
  (N <= length (meanwhile cm s evs) ->
    gives O (meanwhile cm s evs) n (PRef r) (PRef p) (o_policy_eval O (os_heap s) n (PRef r) (PRef p))).
Proof.
  intros cm O ops n p r C s Np Nr.
  destruct (C86_ends O (os_heap s) n (PRef r) (PRef p)) as (N & H). exists N. intros evs T A.
  pose proof (orun_well_formed cm ops ostart start_well_formed C) as W. fold s in W.
  assert (F : Forall (fun h' => same_objects (os_heap s) h' (PRef p) (PRef r) /\
                                same_collaborators O (os_heap s) h' (PRef r)) (meanwhile cm s evs)).
  { rewrite Forall_forall. intros h I. split; [|apply A; exact I]. intros a b Q R.
    assert (E : nth_error (os_heap s) b <> None).
    { apply (reaches_object _ a b W); [|exact R]. destruct Q as [Q|Q]; injection Q as <-; assumption. }
    destruct (nth_error (os_heap s) b) as [x|] eqn:Nb; [|congruence].
    pose proof (meanwhile_other cm b x evs s Nb) as M. rewrite Forall_forall in M. apply M; [|exact I].
    intros o Io To. destruct (T o b Io To) as (Tp & Tr). destruct Q as [Q|Q]; injection Q as <-; auto. }
  split; [|intro L; apply H; assumption].
  intros d G. exact (C86_frame O (os_heap s) _ n (PRef r) (PRef p) d F G).
Qed.

(** So it is if only new objects are made meanwhile, as by reading documents (C85_kept). *)
Theorem C86_new_objects : forall O h hs n p r d,
  well_formed h -> nth_error h p <> None -> nth_error h r <> None ->
  Forall (fun h' => untouched h h' /\ same_collaborators O h h' (PRef r)) hs ->
  gives O hs n (PRef r) (PRef p) d -> d = o_policy_eval O h n (PRef r) (PRef p).
Proof.
  intros O h hs n p r d W Np Nr F G. refine (C86_frame O h hs n _ _ d _ G). eapply Forall_impl; [|exact F].
  intros h' (U & S). split; [|exact S]. intros a b Q R.
  assert (E : nth_error h b <> None).
  { apply (reaches_object h a b W); [|exact R]. destruct Q as [Q|Q]; injection Q as <-; assumption. }
  destruct (nth_error h b) as [x|] eqn:N; [exact (U _ _ N) | congruence].
Qed.

(** If the list of rules of a policy, or of policies of a policy set, only gets items at
    its end meanwhile, the decision is the one for the objects as they are at one of the
    steps of the evaluation. *)
Theorem C86_added : forall O hs n a c l d,
  hs <> [] -> ForallOrdPairs (appended O l (PRef a) c) hs -> Forall (fun h => own_list h a c l) hs ->
  gives O hs n c (PRef a) d ->
  exists h, In h hs /\ d = o_policy_eval O h n c (PRef a).
Proof. intros O hs n a c l d NE P W G. exact (growing_run O a l c n hs d NE P W G). Qed.

(** In operations: other threads build rules, or policies, and then add them with append,
    extend or [+=]. *)
Theorem C86_added_history : forall cm O ops evs n a r l t items d,
  careful_history cm ostart ops ->
  let s := orun cm ostart ops in
  let hs := meanwhile cm s evs in
  careful_history cm s (performed evs) ->
  nth_error (os_heap s) a <> None -> nth_error (os_heap s) r <> None ->
  nth_error (os_heap s) l = Some (PTypedList t items) -> own_list (os_heap s) a (PRef r) l ->
  only_adds cm a (PRef r) l s evs ->
  hs <> [] -> Forall (fun h => own_list h a (PRef r) l) hs ->
  (forall h h', In h hs -> In h' hs -> same_collaborators O h h' (PRef r)) ->
  gives O hs n (PRef r) (PRef a) d ->
  exists h, In h hs /\ d = o_policy_eval O h n (PRef r) (PRef a).
Proof.
  intros cm O ops evs n a r l t items d C s hs C' Na Nr Nl W A NE Ws Co G.
  pose proof (orun_well_formed cm ops ostart start_well_formed C) as WF. fold s in WF.
  apply (C86_added O hs n a (PRef r) l d NE); try assumption. apply grown_appended; [exact Co|].
  apply (adds_grown cm a l (PRef r) evs s t items WF C'); try assumption.
  - intros x [Q|Q]; injection Q as <-; assumption.
  - exists a. split; [left; reflexivity|]. apply rt_step.
    destruct W as ([(attrs & _ & Q)|(attrs & _ & Q)] & _); exact (refers_attribute _ _ _ _ Q).
Qed.

(** *** What does not hold *)

Definition three_rules : list oop :=
  [ONew KPolicy;                                           (* 0, rules 1, obligations 2 *)
   OSet 0 "ruleCombiningAlgId" (PNat (NStr "urn:oasis:names:tc:xacml:1.0:rule-combining-algorithm:deny-overrides"));
   ONew KApply;                                            (* 3, expressions 4 *)
   ONewValue (sstr "a"); ONewValue (sstr "b");             (* 5, 6 *)
   OList 4 (LAppend (PRef 5)); OList 4 (LAppend (PRef 6));
   OSet 3 "functionId" (PNat (NStr (v1 "string-equal")));
   ONew KCondition; OSet 7 "expression" (PRef 3);          (* 7 *)
   ONew KRule; OSet 8 "condition" (PRef 7);                (* 8 *)
   ONewEffect (PNat (NStr "Deny")); ONewEffect (PNat (NStr "Permit")); (* 9, 10 *)
   OSet 8 "effect" (PRef 10);
   ONew KRule; OSet 11 "effect" (PRef 9);                  (* 11 *)
   ONew KRule; OSet 12 "effect" (PRef 10);                 (* 12 *)
   OList 1 (LAppend (PRef 8)); OList 1 (LAppend (PRef 11)); OList 1 (LAppend (PRef 12))].

(** Deleting a rule that does not apply, while a deny-overrides policy is evaluated, can
    hide the rule after it: Permit, although the policy denies before and after. *)
Theorem C86_delete_refuted : exists O ops evs n c a,
  careful_history STD_CLASS_MAP ostart ops /\
  let s := orun STD_CLASS_MAP ostart ops in
  performed evs = [ODelete 1 0] /\
  (forall h, In h (meanwhile STD_CLASS_MAP s evs) -> o_policy_eval O h n c a = Ok Deny) /\
  gives O (meanwhile STD_CLASS_MAP s evs) n c a (Ok Permit).
Proof.
  exists shared_answers, three_rules, (repeat Evaluates 20 ++ Performs (ODelete 1 0) :: repeat Evaluates 100), 5, PNone, (PRef 0).
  split; [apply plain_careful; reflexivity|]. intro s. split; [reflexivity|]. split.
  - rewrite <- Forall_forall. unfold s. clear s.
    match goal with |- Forall _ ?l => assert (X : forallb (fun h => match o_policy_eval shared_answers h 5 PNone (PRef 0) with
        Ok Deny => true | _ => false end) l = true) by (vm_compute; reflexivity) end.
    rewrite Forall_forall. rewrite forallb_forall in X. intros h I. specialize (X h I). cbn beta in X.
    destruct (o_policy_eval shared_answers h 5 PNone (PRef 0)) as [[]|]; try discriminate X. reflexivity.
  - vm_compute. reflexivity.
Qed.

(** Nor is the decision that of one moment if a rule is inserted before others and then
    one is appended: the Deny rule inserted first is missed, the Permit rule appended
    after it is met. *)
Theorem C86_insert_refuted : exists O ops evs n c a,
  careful_history STD_CLASS_MAP ostart ops /\
  let s := orun STD_CLASS_MAP ostart ops in
  performed evs = [OInsert 1 0 (PRef 11); OList 1 (LAppend (PRef 12))] /\
  careful_history STD_CLASS_MAP s (performed evs) /\
  (forall h, In h (meanwhile STD_CLASS_MAP s evs) ->
     o_policy_eval O h n c a = Ok NotApplicable \/ o_policy_eval O h n c a = Ok Deny) /\
  gives O (meanwhile STD_CLASS_MAP s evs) n c a (Ok Permit).
Proof.
  exists shared_answers, (three_rules ++ [ODelete 1 2; ODelete 1 1]),
    (repeat Evaluates 20 ++ Performs (OInsert 1 0 (PRef 11)) :: Evaluates :: Performs (OList 1 (LAppend (PRef 12))) :: repeat Evaluates 100),
    5, PNone, (PRef 0).
  split; [apply plain_careful; reflexivity|]. intro s. split; [reflexivity|]. split; [|split].
  - cbn [performed app repeat]. split; [|split; exact I]. intros t items N. unfold s in *. vm_compute in N. injection N as <- <-.
    eapply ht_class. vm_compute. reflexivity.
  - rewrite <- Forall_forall. unfold s. clear s.
    match goal with |- Forall _ ?l => assert (X : forallb (fun h => match o_policy_eval shared_answers h 5 PNone (PRef 0) with
        Ok Deny | Ok NotApplicable => true | _ => false end) l = true) by (vm_compute; reflexivity) end.
    rewrite Forall_forall. rewrite forallb_forall in X. intros h I. specialize (X h I). cbn beta in X.
    destruct (o_policy_eval shared_answers h 5 PNone (PRef 0)) as [[]|]; try discriminate X; [right | left]; reflexivity.
  - vm_compute. reflexivity.
Qed.

(** Appending to other lists is not enough either: a match appended to a subject while it
    is compared makes the evaluation fail, and the policy set deny. *)
Theorem C86_match_refuted : exists O evs n,
  let s := orun STD_CLASS_MAP ostart shared in
  careful_history STD_CLASS_MAP ostart shared /\
  performed evs = [OList 12 (LAppend (PRef 13))] /\
  (forall h, In h (meanwhile STD_CLASS_MAP s evs) -> o_policy_eval O h n (PRef 21) (PRef 0) = Ok Permit) /\
  gives O (meanwhile STD_CLASS_MAP s evs) n (PRef 21) (PRef 0) (Ok Deny).
Proof.
  exists shared_answers, (repeat Evaluates 40 ++ Performs (OList 12 (LAppend (PRef 13))) :: repeat Evaluates 400), 5.
  intro s. split; [apply plain_careful; reflexivity|]. split; [reflexivity|]. split.
  - rewrite <- Forall_forall. unfold s. clear s.
    match goal with |- Forall _ ?l => assert (X : forallb (fun h => match o_policy_eval shared_answers h 5 (PRef 21) (PRef 0) with
        Ok Permit => true | _ => false end) l = true) by (vm_compute; reflexivity) end.
    rewrite Forall_forall. rewrite forallb_forall in X. intros h I. specialize (X h I). cbn beta in X.
    destruct (o_policy_eval shared_answers h 5 (PRef 21) (PRef 0)) as [[]|]; try discriminate X. reflexivity.
  - vm_compute. reflexivity.
Qed.

(** *** A case for C86_elsewhere: while the policy set of C75 is evaluated, another policy
    is built and changed, and an attribute of the request class is assigned on another
    request. *)
Definition elsewhere : list event :=
  repeat Evaluates 30 ++
  [Performs (ONew KPolicy); Evaluates; Performs (OSet 28 "target" (PRef 6)); Evaluates;
   Performs (ONew KRequest); Evaluates; Performs (OSet 31 "ctxHandler" (PHandler 2))] ++
  repeat Evaluates 800.

(** addresses from [k] on lead to such only *)
Definition refs (o : pobject) : list nat :=
  flat_map (fun v => match v with PRef a => [a] | _ => [] end)
    (match o with PInst _ attrs => map snd attrs | PTypedList _ items => items | _ => [] end).
Definition inside (P : nat -> bool) (h : heap) : bool :=
  forallb (fun a => match nth_error h a with
                    | Some o => if P a then forallb P (refs o) else true
                    | None => true
                    end) (seq 0 (length h)).
Lemma inside_reaches : forall P h a b, inside P h = true -> P a = true -> reaches h a b -> P b = true.
Proof.
  intros P h a b I Pa R. apply Operators_Properties.clos_rt_rtn1 in R. induction R as [|y z F _ IH]; [exact Pa|].
  unfold inside in I. rewrite forallb_forall in I.
  assert (X : exists o, nth_error h y = Some o /\ In z (refs o)).
  { destruct F as [y z name G|y z t items N In].
    - unfold get_attr in G. destruct (nth_error h y) as [[k attrs|t items|v|e]|] eqn:N; try discriminate G.
      + eexists; split; [reflexivity|]. destruct (dict_get name attrs) as [v|] eqn:D; [|discriminate G]. injection G as ->.
        apply in_flat_map. exists (PRef z). split; [|left; reflexivity]. apply in_map_iff.
        exists (name, PRef z). split; [reflexivity|]. clear - D. induction attrs as [|[k' w] attrs IH]; [discriminate D|].
        cbn in D. destruct (String.eqb_spec name k') as [->|_]; [injection D as ->; left; reflexivity | right; auto].
      + destruct (String.eqb name "value"); [discriminate G|]. destruct (String.eqb name "dataType"); discriminate G.
      + destruct (String.eqb name "value"); discriminate G.
    - eexists; split; [exact N|]. apply in_flat_map. exists (PRef z). split; [exact In | left; reflexivity]. }
  destruct X as (o & N & Iz).
  assert (L : In y (seq 0 (length h))).
  { apply in_seq. assert (y < length h) by (apply nth_error_Some; congruence). lia. }
  specialize (I y L). cbn beta in I. rewrite N, IH in I. rewrite forallb_forall in I. exact (I z Iz).
Qed.

Example C86_elsewhere_case :
  let s := orun STD_CLASS_MAP ostart shared in
  careful_history STD_CLASS_MAP ostart shared /\
  nth_error (os_heap s) 0 <> None /\ nth_error (os_heap s) 21 <> None /\
  (forall o b, In o (performed elsewhere) -> touches o = Some b ->
     ~ reaches (os_heap s) 0 b /\ ~ reaches (os_heap s) 21 b) /\
  (forall h h', same_collaborators (mkOenv sF STD_CLASS_MAP (fun _ _ _ => Ok None) (fun _ _ _ => Ok [])) h h' (PRef 21)) /\
  gives (mkOenv sF STD_CLASS_MAP (fun _ _ _ => Ok None) (fun _ _ _ => Ok [])) (meanwhile STD_CLASS_MAP s elsewhere) 5
    (PRef 21) (PRef 0) (Ok Permit).
Proof.
  intro s. split; [apply plain_careful; reflexivity|]. split; [vm_compute; discriminate|]. split; [vm_compute; discriminate|].
  split; [|split; [intros; split; reflexivity | vm_compute; reflexivity]].
  assert (X : inside (fun a => Nat.ltb a 28) (os_heap s) = true) by (vm_compute; reflexivity).
  assert (Y : forall a b, a < 28 -> 28 <= b -> ~ reaches (os_heap s) a b).
  { intros a b La Lb R. apply (inside_reaches _ _ _ _ X) in R; [apply Nat.ltb_lt in R; lia | apply Nat.ltb_lt; exact La]. }
  intros o b I T. cbn in I. destruct I as [<-|[<-|[<-|[<-|[]]]]]; cbn in T; try discriminate T; injection T as <-;
    split; apply Y; lia.
Qed.

(** *** A case for C86_added_history: a Deny rule is built and added while the policy, so
    far with one rule that does not apply, is evaluated. *)
Definition one_rule : list oop := three_rules ++ [ODelete 1 2; ODelete 1 1; ONew KRequest].
Definition adding : list event :=
  repeat Evaluates 12 ++
  [Performs (ONew KRule); Evaluates; Performs (OSet 16 "effect" (PRef 9)); Evaluates;
   Performs (OList 1 (LAppend (PRef 16)))] ++
  repeat Evaluates 100.

Example C86_added_case :
  let O := mkOenv sF STD_CLASS_MAP (fun _ _ _ => Ok None) (fun _ _ _ => Ok []) in
  let s := orun STD_CLASS_MAP ostart one_rule in
  let hs := meanwhile STD_CLASS_MAP s adding in
  careful_history STD_CLASS_MAP ostart one_rule /\ careful_history STD_CLASS_MAP s (performed adding) /\
  own_list (os_heap s) 0 (PRef 13) 1 /\ only_adds STD_CLASS_MAP 0 (PRef 13) 1 s adding /\ hs <> [] /\
  Forall (fun h => own_list h 0 (PRef 13) 1) hs /\
  (forall h h', same_collaborators O h h' (PRef 13)) /\
  o_policy_eval O (os_heap s) 5 (PRef 13) (PRef 0) = Ok NotApplicable /\
  gives O hs 5 (PRef 13) (PRef 0) (Ok Deny).
Proof.
  intros O s hs. split; [apply plain_careful; reflexivity|]. split; [apply plain_careful; reflexivity|].
  assert (Own : forall h attrs, nth_error h 0 = Some (PInst KPolicy attrs) -> get_attr h 0 "rules" = Ok (PRef 1) ->
    get_attr h 0 "target" = Ok PNone -> inside (fun a => Nat.leb 2 a) h = true ->
    match nth_error h 1 with Some o => forallb (fun a => Nat.leb 2 a) (refs o) | None => true end = true ->
    own_list h 0 (PRef 13) 1).
  { intros h attrs N G T I J.
    assert (Y : forall b, 2 <= b -> ~ reaches h b 1).
    { intros b L R. apply (inside_reaches _ _ _ _ I) in R; [discriminate R | apply Nat.leb_le; exact L]. }
    split; [left; exists attrs; split; assumption|]. split; [|split].
    - intros b Q. rewrite T in Q. discriminate Q.
    - intros b Q. injection Q as <-. apply Y. lia.
    - intros t items b Nl In. rewrite Nl in J. rewrite forallb_forall in J. apply Y, Nat.leb_le, J.
      apply in_flat_map. exists (PRef b). split; [exact In | left; reflexivity]. }
  split; [eapply Own; vm_compute; reflexivity|].
  split.
  { unfold adding. cbn [repeat app only_adds].
    match goal with |- (_ \/ _) /\ (_ \/ _) /\ (_ \/ _) /\ _ => idtac end.
    split; [right; intros b Q; discriminate Q|]. split; [|split; [left; eexists; reflexivity | exact I]].
    right. intros b Q. injection Q as <-. intros (x & Q & R).
    assert (X : inside (fun a => Nat.ltb a 16) (os_heap (snd (ostep STD_CLASS_MAP s (ONew KRule)))) = true) by (vm_compute; reflexivity).
    apply (inside_reaches _ _ _ _ X) in R; [discriminate R|]. destruct Q as [Q|Q]; injection Q as <-; reflexivity. }
  split; [vm_compute; discriminate|]. split.
  { rewrite Forall_forall. intros h I.
    assert (X : forallb (fun h => match nth_error h 0 with
      | Some (PInst KPolicy _) =>
        match get_attr h 0 "rules" with Ok (PRef 1) =>
          match get_attr h 0 "target" with Ok (PNat NNone) => inside (fun a => Nat.leb 2 a) h &&
            match nth_error h 1 with Some o => forallb (fun a => Nat.leb 2 a) (refs o) | None => true end
          | _ => false end
        | _ => false end
      | _ => false end) hs = true) by (vm_compute; reflexivity).
    rewrite forallb_forall in X. specialize (X h I). cbn beta in X.
    destruct (nth_error h 0) as [[[] attrs| | |]|] eqn:N; try discriminate X.
    destruct (get_attr h 0 "rules") as [[|[|[]]| | | | |]|] eqn:G; try discriminate X.
    destruct (get_attr h 0 "target") as [[[]| | | | | |]|] eqn:T; try discriminate X.
    apply Bool.andb_true_iff in X. destruct X as (X & Y). eapply Own; eassumption. }
  split; [intros; split; reflexivity|]. split; vm_compute; reflexivity.
Qed.

Print Assumptions C86_frame.
Print Assumptions C86_ends.
Print Assumptions C86_elsewhere.
Print Assumptions C86_new_objects.
Print Assumptions C86_added.
Print Assumptions C86_added_history.
Print Assumptions C86_delete_refuted.
Print Assumptions C86_insert_refuted.
Print Assumptions C86_match_refuted.
