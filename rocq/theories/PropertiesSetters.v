(** Properties C30 to C33 and C40: setters. *)
From Verif Require Import Setters SpecFuncMap SpecSetters SettersFacts Sample.

(** ** C30 *)

(** After any sequence of assignments to ruleCombiningAlgId the algorithm in force is
    that of the last supported id, the id shown that of the last string. *)
Theorem C30_policy : forall xs,
  let p := set_run policy_alg_step (map PASetId xs) policy_alg_new in
  pa_alg p = last_some (map (fun x => match as_string x with
                                      | Some id => rule_algorithm id
                                      | None => None
                                      end) xs) /\
  pa_id p = last_some (map as_string xs).
Proof. exact policy_alg_ids. Qed.

Theorem C30_policyset : forall xs,
  let p := set_run policyset_alg_step (map PASetId xs) policyset_alg_new in
  pa_alg p = last_some (map (fun x => match as_string x with
                                      | Some id => policy_algorithm id
                                      | None => None
                                      end) xs) /\
  pa_id p = last_some (map as_string xs).
Proof. exact policyset_alg_ids. Qed.

(** Each assignment succeeds if the id is supported, else raises TypeError. *)
Theorem C30_policy_outcome : forall xs x,
  let p := set_run policy_alg_step (map PASetId xs) policy_alg_new in
  fst (policy_alg_step p (PASetId x)) =
  match (match as_string x with Some id => rule_algorithm id | None => None end) with
  | Some _ => Ok tt
  | None => Raise ETypeError
  end.
Proof.
  intros xs x. cbv zeta.
  assert (Hf : pa_factory (set_run policy_alg_step (map PASetId xs) policy_alg_new) = RULE_ALG_MAP).
  { induction xs as [|y xs IH] using rev_ind; [reflexivity|].
    rewrite map_app. cbn [map]. rewrite set_run_snoc.
    destruct y as [v| | | | | | |]; try exact IH. destruct v; try exact IH.
    cbn [policy_alg_step]. unfold policy_alg_from_id. cbn [pa_factory].
    destruct (dict_get _ _) as [[]|]; exact IH. }
  destruct x as [v| | | | | | |]; try reflexivity. destruct v as [ |id| | | | | | ]; try reflexivity.
  cbn [policy_alg_step as_string]. unfold policy_alg_from_id. cbn [pa_factory].
  rewrite Hf, <- rule_map_get. destruct (dict_get id RULE_ALG_MAP) as [[]|]; reflexivity.
Qed.

Theorem C30_policyset_outcome : forall xs x,
  let p := set_run policyset_alg_step (map PASetId xs) policyset_alg_new in
  fst (policyset_alg_step p (PASetId x)) =
  match (match as_string x with Some id => policy_algorithm id | None => None end) with
  | Some _ => Ok tt
  | None => Raise ETypeError
  end.
Proof.
  intros xs x. cbv zeta.
  assert (Hf : pa_factory (set_run policyset_alg_step (map PASetId xs) policyset_alg_new) = POLICY_ALG_MAP).
  { induction xs as [|y xs IH] using rev_ind; [reflexivity|].
    rewrite map_app. cbn [map]. rewrite set_run_snoc.
    destruct y as [v| | | | | | |]; try exact IH. destruct v; try exact IH.
    cbn [policyset_alg_step]. unfold policyset_alg_from_id. cbn [pa_factory].
    destruct (dict_get _ _) as [[]|]; exact IH. }
  destruct x as [v| | | | | | |]; try reflexivity. destruct v as [ |id| | | | | | ]; try reflexivity.
  cbn [policyset_alg_step as_string]. unfold policyset_alg_from_id. cbn [pa_factory].
  rewrite Hf, <- policy_map_get. destruct (dict_get id POLICY_ALG_MAP) as [[]|]; reflexivity.
Qed.

(** The same when the factories are replaced in between: the algorithm in force is the
    last one that the factory of the time had for an assigned id. *)
Theorem C30_policy_factories : forall default ops,
  let p := set_run policy_alg_step ops (mkPolAlg None default None) in
  pa_alg p = latest (installs default) (rev ops) /\
  pa_id p = last_some (map (fun o => match o with PASetId x => as_string x | _ => None end) ops) /\
  pa_factory p = factory_after default ops.
Proof. exact policy_alg_run. Qed.

Theorem C30_policyset_factories : forall default ops,
  let p := set_run policyset_alg_step ops (mkPolAlg None default None) in
  pa_alg p = latest (installs default) (rev ops) /\
  pa_id p = last_some (map (fun o => match o with PASetId x => as_string x | _ => None end) ops) /\
  pa_factory p = factory_after default ops.
Proof. exact policyset_alg_run. Qed.

(** A failed assignment leaves the previous algorithm in force under the new id. *)
(** Calling the default factories: the class of a supported algorithm, NotImplemented for
    the other algorithms of the specification (the rule factory also counts those for
    policies), nothing for any other string. *)
Theorem C30_rule_factory : forall id,
  (forall a, alg_factory_call RULE_ALG_MAP id = Some (AlgClass a) <-> rule_algorithm id = Some a) /\
  (alg_factory_call RULE_ALG_MAP id = Some AlgNotImplemented <-> unsupported_rule_algorithm id) /\
  alg_factory_call RULE_ALG_MAP id <> Some AlgNotDerived.
Proof. exact rule_factory_call. Qed.
Theorem C30_policy_factory : forall id,
  (forall a, alg_factory_call POLICY_ALG_MAP id = Some (AlgClass a) <-> policy_algorithm id = Some a) /\
  (alg_factory_call POLICY_ALG_MAP id = Some AlgNotImplemented <-> unsupported_policy_algorithm id) /\
  alg_factory_call POLICY_ALG_MAP id <> Some AlgNotDerived.
Proof. exact policy_factory_call. Qed.

Example C30_stale :
  let ids := [ONat (NStr "urn:oasis:names:tc:xacml:1.0:rule-combining-algorithm:permit-overrides");
              ONat (NInt 3);
              ONat (NStr "urn:oasis:names:tc:xacml:1.1:rule-combining-algorithm:ordered-deny-overrides")] in
  let p := set_run policy_alg_step (map PASetId ids) policy_alg_new in
  pa_alg p = Some PermitOverrides /\
  pa_id p = Some "urn:oasis:names:tc:xacml:1.1:rule-combining-algorithm:ordered-deny-overrides".
Proof. vm_compute. auto. Qed.
Example C30_factory :
  let t := [("mine", AlgClass FirstApplicable); ("notyet", AlgNotImplemented)] in
  pa_alg (set_run policyset_alg_step
    [PASetId (ONat (NStr "mine")); PASetFactory (OAlgFactory t); PASetId (ONat (NStr "mine"));
     PASetFactory (ONat NNone); PASetId (ONat (NStr "notyet"))] policyset_alg_new)
  = Some FirstApplicable.
Proof. vm_compute. reflexivity. Qed.

(** ** C31 *)

(** Whatever is done with a match, its designator and selector are as the last
    successful assignment of one of them left them. *)
Theorem C31_source : forall cm ops w,
  sources (fst (mo_run cm ops (mo_new, w))) (last_some (map source_assigned ops)).
Proof. exact mo_sources. Qed.

(** An assignment fails exactly if the object assigned is of another kind, and then
    changes nothing. *)
Theorem C31_failure : forall cm self w x,
  (fst (fst (mo_step cm (MSetDesignator x) self w)) = Ok tt <-> exists d, x = ODesignator d) /\
  (fst (fst (mo_step cm (MSetSelector x) self w)) = Ok tt <-> exists s, x = OSelector s) /\
  (forall e, fst (fst (mo_step cm (MSetDesignator x) self w)) = Raise e ->
     mo_step cm (MSetDesignator x) self w = (Raise ETypeError, self, w)) /\
  (forall e, fst (fst (mo_step cm (MSetSelector x) self w)) = Raise e ->
     mo_step cm (MSetSelector x) self w = (Raise ETypeError, self, w)).
Proof.
  intros cm self w x. destruct x; cbn;
    refine (conj (conj _ _) (conj (conj _ _) (conj _ _)));
    first [ discriminate | reflexivity | intros [? H]; discriminate | intros; eexists; reflexivity
          | intros; reflexivity | idtac ].
Qed.

Example C31_case :
  let s := mkSelector (Some "//a") (Some (xs "string")) (Some false) in
  let d := sdes DSubject "role" true in
  let m := fst (mo_run STD_CLASS_MAP
     [MSetDesignator (ODesignator d); MSetSelector (OSelector s); MSetDesignator (ONat NNone)]
     m_start) in
  mo_designator m = None /\ mo_selector m = Some s.
Proof. vm_compute. auto. Qed.

(** ** C32 *)

(** Only identifiers assigned to a new match. *)
Theorem C32_match_ids : forall cm xs,
  let m := fst (mo_run cm (map MSetId xs) m_start) in
  mo_fn m = last_some (map (fun x => match as_string x with
                                     | Some id => usable (resolve cm id)
                                     | None => None
                                     end) xs) /\
  mo_id m = last_some (map as_string xs).
Proof. exact mo_ids. Qed.

(** Any history: function maps replaced, used and customised, automatic loading
    switched off and on, explicit loading. *)
Theorem C32_match : forall cm h,
  let m := fst (mo_run cm h m_start) in
  mo_fn m = latest (m_loads cm) (rev h) /\ mo_id m = m_id_after h /\
  mo_load m = m_flag_after h /\ mo_map m = m_map_after h.
Proof. intros cm h. destruct (mo_run_state cm h) as [H1 H2 H3 H4 _]. auto. Qed.

Theorem C32_apply : forall cm h,
  let m := fst (ao_run cm h a_start) in
  ao_fn m = latest (a_loads cm) (rev h) /\ ao_id m = a_id_after h /\
  ao_load m = a_flag_after h /\ ao_map m = a_map_after h.
Proof. intros cm h. destruct (ao_run_state cm h) as [H1 H2 H3 H4 _]. auto. Qed.

(** With automatic loading on, an assignment either succeeds and puts the function
    in force, or raises and leaves the previous one under the new id. *)
Theorem C32_match_assign : forall cm h id,
  m_flag_after h = true ->
  let s := mo_run cm h m_start in
  match usable (entry cm (m_ops_on (m_map_after h) h) id) with
  | Some f => fst (fst (mo_step cm (MSetId (ONat (NStr id))) (fst s) (snd s))) = Ok tt /\
              mo_fn (fst (mo_run cm (h ++ [MSetId (ONat (NStr id))]) m_start)) = Some f
  | None => (exists e, fst (fst (mo_step cm (MSetId (ONat (NStr id))) (fst s) (snd s))) = Raise e) /\
            mo_fn (fst (mo_run cm (h ++ [MSetId (ONat (NStr id))]) m_start)) = mo_fn (fst s)
  end /\
  mo_id (fst (mo_run cm (h ++ [MSetId (ONat (NStr id))]) m_start)) = Some id.
Proof. exact mo_assign_outcome. Qed.

Theorem C32_apply_assign : forall cm h id,
  a_flag_after h = true ->
  let s := ao_run cm h a_start in
  match usable (entry cm (a_ops_on (a_map_after h) h) id) with
  | Some f => fst (fst (ao_step cm (ASetId (ONat (NStr id))) (fst s) (snd s))) = Ok tt /\
              ao_fn (fst (ao_run cm (h ++ [ASetId (ONat (NStr id))]) a_start)) = Some f
  | None => (exists e, fst (fst (ao_step cm (ASetId (ONat (NStr id))) (fst s) (snd s))) = Raise e) /\
            ao_fn (fst (ao_run cm (h ++ [ASetId (ONat (NStr id))]) a_start)) = ao_fn (fst s)
  end /\
  ao_id (fst (ao_run cm (h ++ [ASetId (ONat (NStr id))]) a_start)) = Some id.
Proof. exact ao_assign_outcome. Qed.

(** The setters of matches and Apply objects refuse objects of other types, and then
    nothing is changed. *)
Theorem C32_wrong_type : forall cm m a w x,
  ((forall s, x <> ONat (NStr s)) ->
     mo_step cm (MSetId x) m w = (Raise ETypeError, m, w) /\ ao_step cm (ASetId x) a w = (Raise ETypeError, a, w)) /\
  ((forall b, x <> ONat (NBool b)) ->
     mo_step cm (MSetLoad x) m w = (Raise ETypeError, m, w) /\ ao_step cm (ASetLoad x) a w = (Raise ETypeError, a, w)) /\
  ((forall k, x <> OFunctionMap k) ->
     mo_step cm (MSetMap x) m w = (Raise ETypeError, m, w) /\ ao_step cm (ASetMap x) a w = (Raise ETypeError, a, w)) /\
  ((forall v, x <> OAttrVal v) -> mo_step cm (MSetValue x) m w = (Raise ETypeError, m, w)).
Proof.
  intros cm m a w x. repeat match goal with |- _ /\ _ => split | |- _ -> _ => intros H end;
    destruct x as [[]| | | | | | |]; try reflexivity; destruct (H _ eq_refl).
Qed.

(** The stale function, and a custom function loaded from a second map. *)
Example C32_stale :
  let m := fst (mo_run STD_CLASS_MAP
     [MSetId (ONat (NStr (v1 "string-equal"))); MSetId (ONat (NStr (v1 "xpath-node-equal")))] m_start) in
  mo_fn m = Some (FnEqual StringAV) /\ mo_id m = Some (v1 "xpath-node-equal").
Proof. vm_compute. auto. Qed.
Example C32_custom :
  let m := fst (mo_run STD_CLASS_MAP
     [MOnMap 1 (FLoadCustom "my:f" (FSObject (FOClass (FImpl (FnCustom "f"))))); MSetMap (OFunctionMap 1);
      MSetId (ONat (NStr "my:f")); MSetMap (OFunctionMap 0); MSetId (ONat (NStr "my:f"))] m_start) in
  mo_fn m = Some (FnCustom "f") /\ mo_id m = Some "my:f".
Proof. vm_compute. auto. Qed.

(** ** C33 *)

(** The value of an attribute value object is unset, or it is the last assigned
    instance of the native type. *)
Theorem C33_history : forall c v0 ops, av_new c NNone = Ok v0 ->
  (av_value (av_run v0 ops) = NNone /\
   forall x, In (AVSetValue x) ops -> ~ instance_of x (ac_type c)) \/
  (exists before x after, ops = (before ++ AVSetValue x :: after)%list /\
     instance_of x (ac_type c) /\ av_value (av_run v0 ops) = x /\
     forall y, In (AVSetValue y) after -> ~ instance_of y (ac_type c)).
Proof. exact av_history. Qed.

(** Exactly instances are accepted; a rejected assignment changes nothing. *)
Theorem C33_outcome : forall v o,
  (fst (av_step v o) = Ok tt <->
     match o with
     | AVSetValue x => instance_of x (ac_type (av_class v))
     | AVSetDataType x => exists s, x = NStr s
     end) /\
  (forall e, fst (av_step v o) = Raise e -> snd (av_step v o) = v).
Proof. exact av_step_outcome. Qed.

(** The constructor accepts None and instances. *)
Theorem C33_constructor : forall c x,
  match av_new c x with
  | Ok v => av_class v = c /\ av_dataType v = ac_id c /\ av_value v = x /\
            (x = NNone \/ instance_of x (ac_type c))
  | Raise e => e = ETypeError /\ x <> NNone /\ ~ instance_of x (ac_type c)
  end.
Proof.
  intros c x. pose proof (instance_of_iff x (ac_type c)) as Hi.
  destruct x as [ | | | | | | | ]; [cbn; auto| | | | | | | ];
    (cbn [av_new]; unfold av_set_value; cbn [av_class];
     match goal with |- context [native_isinstance ?v ?t] =>
       destruct (native_isinstance v t) as [[]|e] eqn:E end; cbn [bind];
     [cbn; rewrite Hi; auto 6| |];
     (split; [try reflexivity; destruct (ac_type c); cbn in E; congruence
             |split; [discriminate|rewrite Hi; congruence]])).
Qed.

(** The value of a base64Binary object is always unset. *)
Theorem C33_base64 : forall c v0 ops,
  dict_get (xs "base64Binary") STD_CLASS_MAP = Some c ->
  av_new c NNone = Ok v0 -> av_value (av_run v0 ops) = NNone.
Proof.
  intros c v0 ops Hc H. assert (Ht : ac_type c = NTNotImplemented).
  { vm_compute in Hc. injection Hc as <-. reflexivity. }
  destruct (av_history c v0 ops H) as [[Hv _]|(b & x & r & _ & Hi & _)]; [exact Hv|].
  rewrite Ht in Hi. inversion Hi.
Qed.

Example C33_case :
  match av_new IntegerAV NNone with
  | Ok v => av_value (av_run v [AVSetValue (NInt 4); AVSetValue (NStr "x"); AVSetValue (NBool true);
                                AVSetDataType (NStr "other"); AVSetValue NNone]) = NBool true
  | Raise _ => False
  end.
Proof. vm_compute. reflexivity. Qed.
Example C33_base64_case : exists c v0,
  dict_get (xs "base64Binary") STD_CLASS_MAP = Some c /\ av_new c NNone = Ok v0 /\
  fst (av_step v0 (AVSetValue (NStr "QQ=="))) = Raise ETypeError.
Proof. eexists. eexists. vm_compute. auto. Qed.

(** ** C40 *)

(** The value of an effect, decision or status code is the last one assigned that
    belongs to the vocabulary, or the initial one. *)
Theorem C40_effect : forall xs s0,
  set_run effect_set xs s0 =
  match last_some (map (in_vocabulary ["Deny"; "Permit"]
     (fun x => match x with OEffect s => Some s | _ => as_string x end)) xs)
  with Some s => Some s | None => s0 end.
Proof. exact effect_run_last. Qed.

Theorem C40_decision : forall xs s0,
  set_run decision_set xs s0 =
  match last_some (map (in_vocabulary ["Permit"; "Deny"; "Indeterminate"; "NotApplicable"]
     (fun x => match x with ODecision s => Some s | _ => as_string x end)) xs)
  with Some s => Some s | None => s0 end.
Proof. exact decision_run_last. Qed.

Theorem C40_status_code : forall xs s0,
  set_run status_code_set xs s0 =
  match last_some (map (in_vocabulary
      [ "urn:oasis:names:tc:xacml:1.0:status:ok";
        "urn:oasis:names:tc:xacml:1.0:status:missing-attribute";
        "urn:oasis:names:tc:xacml:1.0:status:processing-error";
        "urn:oasis:names:tc:xacml:1.0:status:syntax-error" ] as_string) xs)
  with Some s => Some s | None => s0 end.
Proof. exact status_run_last. Qed.

(** Objects made by the constructors: never anything but the vocabulary. *)
Theorem C40_effect_invariant : forall x0 s0 xs, effect_new x0 = Ok s0 ->
  exists s, set_run effect_set xs (Some s0) = Some s /\ (s = "Deny" \/ s = "Permit").
Proof.
  intros x0 s0 xs H. apply effect_run. unfold effect_new in H.
  destruct (effect_set None x0) as [[[]|e] [s|]] eqn:E; try discriminate.
  injection H as <-. destruct (effect_set_ok _ _ _ E) as [Hs|Hs]; injection Hs; auto.
Qed.

Theorem C40_decision_invariant : forall x0 s0 xs, decision_new x0 = Ok s0 ->
  exists s, set_run decision_set xs (Some s0) = Some s /\
            In s ["Permit"; "Deny"; "Indeterminate"; "NotApplicable"].
Proof.
  intros x0 s0 xs H. apply decision_run. unfold decision_new in H.
  destruct (decision_set None x0) as [[[]|e] [s|]] eqn:E; try discriminate.
  injection H as <-. destruct (decision_set_ok _ _ _ E) as (s' & Hs & Hin); injection Hs as ->; auto.
Qed.

(** A rejected assignment changes nothing. *)
Theorem C40_rejected : forall self x e s',
  (effect_set self x = (Raise e, s') -> s' = self) /\
  (decision_set self x = (Raise e, s') -> s' = self) /\
  (status_code_set self x = (Raise e, s') -> s' = self).
Proof.
  intros self x e s'. refine (conj (effect_set_raise _ _ _ _) (conj (decision_set_raise _ _ _ _) _)).
  destruct (status_set_iff self x) as [(s & _ & _ & ->)|(_ & e' & ->)]; [discriminate|].
  intros [= _ <-]. reflexivity.
Qed.

(** Comparison: string comparison inside the vocabulary, an exception outside. *)
Theorem C40_effect_comparison : forall self s x,
  (In s ["Deny"; "Permit"] ->
     (effect_eq self (ONat (NStr s)) = Ok true <-> self = s) /\
     (effect_eq self (ONat (NStr s)) = Ok false <-> self <> s) /\
     effect_eq self (OEffect s) = effect_eq self (ONat (NStr s))) /\
  (~ In s ["Deny"; "Permit"] -> effect_eq self (ONat (NStr s)) = Raise EAttributeError) /\
  (as_string x = None -> (forall t, x <> OEffect t) ->
     exists e, effect_eq self x = Raise e).
Proof.
  intros self s x. cbn [effect_eq]. change EFFECT_TYPES with ["Deny"; "Permit"].
  refine (conj _ (conj _ _)).
  - intros H. apply str_in_iff in H. rewrite H.
    refine (conj _ (conj _ eq_refl)); destruct (String.eqb_spec self s) as [->|Hn];
      split; congruence.
  - intros H. destruct (str_in s ["Deny"; "Permit"]) eqn:E; [|reflexivity].
    apply str_in_iff in E. contradiction.
  - intros Hs He. destruct x as [v| | | |t| | |]; cbn; eauto; [|exfalso; apply (He t); reflexivity].
    destruct v; cbn in *; eauto; discriminate.
Qed.

Theorem C40_decision_comparison : forall self s x,
  (In s ["Permit"; "Deny"; "Indeterminate"; "NotApplicable"] ->
     (decision_eq self (ONat (NStr s)) = Ok true <-> self = s) /\
     (decision_eq self (ONat (NStr s)) = Ok false <-> self <> s) /\
     decision_eq self (ODecision s) = decision_eq self (ONat (NStr s))) /\
  (~ In s ["Permit"; "Deny"; "Indeterminate"; "NotApplicable"] ->
     decision_eq self (ONat (NStr s)) = Raise EAttributeError) /\
  (as_string x = None -> (forall t, x <> ODecision t) ->
     exists e, decision_eq self x = Raise e).
Proof.
  intros self s x. cbn [decision_eq].
  change DECISION_TYPES with ["Permit"; "Deny"; "Indeterminate"; "NotApplicable"].
  refine (conj _ (conj _ _)).
  - intros H. apply str_in_iff in H. rewrite H.
    refine (conj _ (conj _ eq_refl)); destruct (String.eqb_spec self s) as [->|Hn];
      split; congruence.
  - intros H.
    destruct (str_in s ["Permit"; "Deny"; "Indeterminate"; "NotApplicable"]) eqn:E; [|reflexivity].
    apply str_in_iff in E. contradiction.
  - intros Hs He. destruct x as [v| | | | |t| |]; cbn; eauto; [|exfalso; apply (He t); reflexivity].
    destruct v; cbn in *; eauto; discriminate.
Qed.

(** The shared decision and effect objects are not protected: the read-only
    subclasses inherit the working setter. *)
Theorem C40_shared_objects_refuted :
  (exists x, effect_new (ONat (NStr "Permit")) = Ok "Permit" /\
             set_run effect_set [x] (Some "Permit") = Some "Deny") /\
  (exists x, set_run decision_set [x] (Some "Deny") = Some "Permit").
Proof.
  split; [exists (ONat (NStr "Deny")); split; reflexivity|exists (ONat (NStr "Permit")); reflexivity].
Qed.

Example C40_case :
  set_run effect_set [ONat (NStr "Deny"); ONat (NStr "deny"); OEffect "Permit"; ODecision "Deny"]
    (Some "Deny") = Some "Permit" /\
  set_run decision_set [ONat (NStr "Allow"); ODecision "NotApplicable"; ONat NNone]
    (Some "Indeterminate") = Some "NotApplicable" /\
  set_run status_code_set [ONat (NStr "urn:oasis:names:tc:xacml:1.0:status:ok"); ONat (NStr "ok")] None
    = Some "urn:oasis:names:tc:xacml:1.0:status:ok".
Proof. vm_compute. auto. Qed.

Print Assumptions C30_policy.
Print Assumptions C30_policyset.
Print Assumptions C30_policy_outcome.
Print Assumptions C30_policyset_outcome.
Print Assumptions C30_policy_factories.
Print Assumptions C30_policyset_factories.
Print Assumptions C30_rule_factory.
Print Assumptions C30_policy_factory.
Print Assumptions C31_source.
Print Assumptions C31_failure.
Print Assumptions C32_match_ids.
Print Assumptions C32_match.
Print Assumptions C32_apply.
Print Assumptions C32_match_assign.
Print Assumptions C32_apply_assign.
Print Assumptions C32_wrong_type.
Print Assumptions C33_history.
Print Assumptions C33_outcome.
Print Assumptions C33_constructor.
Print Assumptions C33_base64.
Print Assumptions C40_effect.
Print Assumptions C40_decision.
Print Assumptions C40_status_code.
Print Assumptions C40_effect_invariant.
Print Assumptions C40_decision_invariant.
Print Assumptions C40_rejected.
Print Assumptions C40_effect_comparison.
Print Assumptions C40_decision_comparison.
Print Assumptions C40_shared_objects_refuted.
