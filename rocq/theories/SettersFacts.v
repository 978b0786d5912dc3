(** Facts about the setter machines. *)
From Verif Require Import Setters SpecFuncMap SpecSetters FuncMapFacts.

Lemma last_some_snoc : forall A (l : list (option A)) x,
  last_some (l ++ [x]) = match x with Some a => Some a | None => last_some l end.
Proof.
  induction l as [|y l IH]; intros x; cbn [app last_some].
  - destruct x; reflexivity.
  - rewrite IH. destruct x; [reflexivity|]. destruct (last_some l); reflexivity.
Qed.

Lemma last_some_in : forall A (l : list (option A)) a, last_some l = Some a -> In (Some a) l.
Proof.
  induction l as [|x l IH]; intros a H; cbn [last_some] in H; [discriminate|].
  destruct (last_some l) as [b|]; [right; apply IH; congruence|left; exact H].
Qed.

(** ** Attribute values *)
Lemma instance_of_iff : forall v t, instance_of v t <-> native_isinstance v t = Ok true.
Proof.
  intros v t. split.
  - intros H. destruct H; try reflexivity. cbn. rewrite String.eqb_refl. reflexivity.
  - destruct t; destruct v; cbn; intros H; try discriminate; try constructor.
    destruct (String.eqb ty ty0) eqn:E; [|discriminate]. apply String.eqb_eq in E. subst. constructor.
Qed.

Definition av_accepted (c : avclass) (o : avop) : option native :=
  match o with
  | AVSetValue x => match native_isinstance x (ac_type c) with Ok true => Some x | _ => None end
  | _ => None
  end.

Lemma av_step_class : forall v o, av_class (snd (av_step v o)) = av_class v.
Proof.
  intros v [x|x]; cbn.
  - unfold av_set_value. destruct (native_isinstance x (ac_type (av_class v))) as [[]|]; reflexivity.
  - destruct x; reflexivity.
Qed.

Lemma av_run_snoc : forall v ops o, av_run v (ops ++ [o]) = snd (av_step (av_run v ops) o).
Proof. intros v ops o. unfold av_run. rewrite fold_left_app. reflexivity. Qed.

Lemma av_run_class : forall v ops, av_class (av_run v ops) = av_class v.
Proof.
  intros v ops. induction ops as [|o ops IH] using rev_ind; [reflexivity|].
  rewrite av_run_snoc, av_step_class. exact IH.
Qed.

Lemma av_run_value : forall v ops,
  av_value (av_run v ops) =
  match last_some (map (av_accepted (av_class v)) ops) with Some x => x | None => av_value v end.
Proof.
  intros v ops. induction ops as [|o ops IH] using rev_ind; [reflexivity|].
  rewrite av_run_snoc, map_app. cbn [map]. rewrite last_some_snoc.
  pose proof (av_run_class v ops) as Hc.
  destruct o as [x|x]; cbn [av_step av_accepted].
  - unfold av_set_value. rewrite Hc.
    destruct (native_isinstance x (ac_type (av_class v))) as [[]|]; cbn; try exact IH. reflexivity.
  - destruct x; cbn; exact IH.
Qed.

(** ** Vocabularies *)
Lemma effect_set_ok : forall self x s', effect_set self x = (Ok tt, s') ->
  s' = Some "Deny" \/ s' = Some "Permit".
Proof.
  assert (Hv : forall self s s', (if str_in s EFFECT_TYPES then (Ok tt, Some s)
      else (Raise EAttributeError, self)) = (Ok tt, s') -> s' = Some "Deny" \/ s' = Some "Permit").
  { intros self s s' H. unfold str_in in H. cbn in H.
    destruct (String.eqb s "Deny") eqn:E1; cbn in H.
    - apply String.eqb_eq in E1. injection H as <-. left. subst. reflexivity.
    - destruct (String.eqb s "Permit") eqn:E2; cbn in H; [|discriminate].
      apply String.eqb_eq in E2. injection H as <-. right. subst. reflexivity. }
  intros self x s' H. destruct x as [v| | | |s| | |]; cbn [effect_set] in H; try discriminate.
  - destruct v; try discriminate. apply (Hv _ _ _ H).
  - apply (Hv _ _ _ H).
Qed.

Lemma effect_set_raise : forall self x e s', effect_set self x = (Raise e, s') -> s' = self.
Proof.
  assert (Hv : forall (self : option string) s e s', (if str_in s EFFECT_TYPES then (Ok tt, Some s)
      else (Raise EAttributeError, self)) = (Raise e, s') -> s' = self).
  { intros self s e s' H. destruct (str_in s EFFECT_TYPES); [discriminate|].
    injection H as _ <-. reflexivity. }
  intros self x e s' H. destruct x as [v| | | |s| | |]; cbn [effect_set] in H;
    try (injection H as _ <-; reflexivity).
  - destruct v; try (injection H as _ <-; reflexivity). apply (Hv _ _ _ _ H).
  - apply (Hv _ _ _ _ H).
Qed.

Lemma set_run_snoc : forall S X (f : S -> X -> res unit * S) xs x s,
  set_run f (xs ++ [x]) s = snd (f (set_run f xs s) x).
Proof. intros. unfold set_run. rewrite fold_left_app. reflexivity. Qed.

Lemma effect_run : forall xs s0, (s0 = "Deny" \/ s0 = "Permit") ->
  exists s, set_run effect_set xs (Some s0) = Some s /\ (s = "Deny" \/ s = "Permit").
Proof.
  intros xs s0 H0. induction xs as [|x xs IH] using rev_ind; [exists s0; auto|].
  rewrite set_run_snoc. destruct IH as (s & -> & Hs).
  destruct (effect_set (Some s) x) as [[u|e] s'] eqn:E; cbn [snd].
  - destruct u. apply effect_set_ok in E. destruct E as [->| ->]; eauto.
  - apply effect_set_raise in E. subst s'. exists s. auto.
Qed.

Lemma decision_set_ok : forall self x s', decision_set self x = (Ok tt, s') ->
  exists s, s' = Some s /\ In s DECISION_TYPES.
Proof.
  assert (Hv : forall self s s', (if str_in s DECISION_TYPES then (Ok tt, Some s)
      else (Raise EAttributeError, self)) = (Ok tt, s') -> exists s, s' = Some s /\ In s DECISION_TYPES).
  { intros self s s' H. destruct (str_in s DECISION_TYPES) eqn:E; [|discriminate].
    injection H as <-. exists s. split; [reflexivity|]. unfold str_in in E.
    apply existsb_exists in E. destruct E as (y & Hy & He). apply String.eqb_eq in He. subst. exact Hy. }
  intros self x s' H. destruct x as [v| | | | |s| |]; cbn [decision_set] in H; try discriminate.
  - destruct v; try discriminate. apply (Hv _ _ _ H).
  - apply (Hv _ _ _ H).
Qed.

Lemma decision_set_raise : forall self x e s', decision_set self x = (Raise e, s') -> s' = self.
Proof.
  assert (Hv : forall (self : option string) s e s', (if str_in s DECISION_TYPES then (Ok tt, Some s)
      else (Raise EAttributeError, self)) = (Raise e, s') -> s' = self).
  { intros self s e s' H. destruct (str_in s DECISION_TYPES); [discriminate|].
    injection H as _ <-. reflexivity. }
  intros self x e s' H. destruct x as [v| | | | |s| |]; cbn [decision_set] in H;
    try (injection H as _ <-; reflexivity).
  - destruct v; try (injection H as _ <-; reflexivity). apply (Hv _ _ _ _ H).
  - apply (Hv _ _ _ _ H).
Qed.

Lemma decision_run : forall xs s0, In s0 DECISION_TYPES ->
  exists s, set_run decision_set xs (Some s0) = Some s /\ In s DECISION_TYPES.
Proof.
  intros xs s0 H0. induction xs as [|x xs IH] using rev_ind; [exists s0; auto|].
  rewrite set_run_snoc. destruct IH as (s & -> & Hs).
  destruct (decision_set (Some s) x) as [[u|e] s'] eqn:E; cbn [snd].
  - destruct u. apply decision_set_ok in E. exact E.
  - apply decision_set_raise in E. subst s'. exists s. auto.
Qed.

Lemma str_in_iff : forall s l, str_in s l = true <-> In s l.
Proof.
  intros s l. unfold str_in. rewrite existsb_exists. split.
  - intros (y & Hy & He). apply String.eqb_eq in He. subst. exact Hy.
  - intros H. exists s. split; [exact H|apply String.eqb_refl].
Qed.

(** ** Combining algorithms *)
Lemma rule_map_get : forall id,
  match dict_get id RULE_ALG_MAP with Some (AlgClass a) => Some a | _ => None end = rule_algorithm id.
Proof.
  intros id. unfold RULE_ALG_MAP, rule_algorithm, RULE_ALGORITHMS.
  cbn [map fold_left fst snd dict_set String.eqb Ascii.eqb Bool.eqb].
  repeat match goal with |- context [dict_set ?k ?v ?d] =>
    let r := eval vm_compute in (dict_set k v d) in change (dict_set k v d) with r end.
  cbn [dict_get].
  repeat match goal with |- context [String.eqb id ?s] => destruct (String.eqb id s) eqn:? end;
    try reflexivity;
    repeat match goal with H : String.eqb id _ = true |- _ => apply String.eqb_eq in H end;
    subst; discriminate.
Qed.

Lemma policy_map_get : forall id,
  match dict_get id POLICY_ALG_MAP with Some (AlgClass a) => Some a | _ => None end = policy_algorithm id.
Proof.
  intros id. unfold POLICY_ALG_MAP, policy_algorithm, POLICY_ALGORITHMS.
  cbn [map fold_left fst snd dict_set String.eqb Ascii.eqb Bool.eqb].
  repeat match goal with |- context [dict_set ?k ?v ?d] =>
    let r := eval vm_compute in (dict_set k v d) in change (dict_set k v d) with r end.
  cbn [dict_get].
  repeat match goal with |- context [String.eqb id ?s] => destruct (String.eqb id s) eqn:? end;
    try reflexivity;
    repeat match goal with H : String.eqb id _ = true |- _ => apply String.eqb_eq in H end;
    subst; discriminate.
Qed.

Lemma class_iff : forall (o : option alg_entry) (r : option comb_alg),
  match o with Some (AlgClass a) => Some a | _ => None end = r ->
  forall a, o = Some (AlgClass a) <-> r = Some a.
Proof. intros [[b| |]|] r <- a; split; congruence. Qed.

Lemma rule_factory_call : forall id,
  (forall a, alg_factory_call RULE_ALG_MAP id = Some (AlgClass a) <-> rule_algorithm id = Some a) /\
  (alg_factory_call RULE_ALG_MAP id = Some AlgNotImplemented <-> unsupported_rule_algorithm id) /\
  alg_factory_call RULE_ALG_MAP id <> Some AlgNotDerived.
Proof.
  intros id. unfold alg_factory_call. split; [exact (class_iff _ _ (rule_map_get id))|]. split; [split|].
  - let r := eval vm_compute in RULE_ALG_MAP in change RULE_ALG_MAP with r. cbn [dict_get].
    unfold unsupported_rule_algorithm.
    repeat match goal with |- context [String.eqb id ?s] => destruct (String.eqb_spec id s) as [->|?] end;
      try discriminate; intros _.
    + left. exists "deny-overrides"%string. split; [cbn; tauto|reflexivity].
    + left. exists "permit-overrides"%string. split; [cbn; tauto|reflexivity].
    + left. exists "first-applicable"%string. split; [cbn; tauto|reflexivity].
    + left. exists "only-one-applicable"%string. split; [cbn; tauto|reflexivity].
    + right. exists "rule"%string, "ordered-deny-overrides"%string. cbn; tauto.
    + right. exists "policy"%string, "ordered-deny-overrides"%string. cbn; tauto.
    + right. exists "rule"%string, "ordered-permit-overrides"%string. cbn; tauto.
    + right. exists "policy"%string, "ordered-permit-overrides"%string. cbn; tauto.
  - intros [(alg & Ha & ->)|(kind & alg & Hk & Ha & ->)].
    + destruct Ha as [<-|[<-|[<-|[<-|[]]]]]; reflexivity.
    + destruct Hk as [<-|[<-|[]]]; destruct Ha as [<-|[<-|[]]]; reflexivity.
  - let r := eval vm_compute in RULE_ALG_MAP in change RULE_ALG_MAP with r. cbn [dict_get].
    repeat match goal with |- context [String.eqb id ?s] => destruct (String.eqb id s) end; discriminate.
Qed.

Lemma policy_factory_call : forall id,
  (forall a, alg_factory_call POLICY_ALG_MAP id = Some (AlgClass a) <-> policy_algorithm id = Some a) /\
  (alg_factory_call POLICY_ALG_MAP id = Some AlgNotImplemented <-> unsupported_policy_algorithm id) /\
  alg_factory_call POLICY_ALG_MAP id <> Some AlgNotDerived.
Proof.
  intros id. unfold alg_factory_call. split; [exact (class_iff _ _ (policy_map_get id))|]. split; [split|].
  - let r := eval vm_compute in POLICY_ALG_MAP in change POLICY_ALG_MAP with r. cbn [dict_get].
    unfold unsupported_policy_algorithm.
    repeat match goal with |- context [String.eqb id ?s] => destruct (String.eqb_spec id s) as [->|?] end;
      try discriminate; intros _.
    + left. reflexivity.
    + right. exists "ordered-deny-overrides"%string. cbn; tauto.
    + right. exists "ordered-permit-overrides"%string. cbn; tauto.
  - intros [->|(alg & Ha & ->)]; [reflexivity|]. destruct Ha as [<-|[<-|[]]]; reflexivity.
  - let r := eval vm_compute in POLICY_ALG_MAP in change POLICY_ALG_MAP with r. cbn [dict_get].
    repeat match goal with |- context [String.eqb id ?s] => destruct (String.eqb id s) end; discriminate.
Qed.

Section Alg.
Variable step : polalg -> paop -> res unit * polalg.
Variable from_id : polalg -> string -> res unit * polalg.
Hypothesis Hstep : forall self o, step self o =
  match o with
  | PASetId x =>
      match x with
      | ONat (NStr id) => from_id (mkPolAlg (Some id) (pa_factory self) (pa_alg self)) id
      | _ => (Raise ETypeError, self)
      end
  | PASetFactory x =>
      match x with
      | OAlgFactory m => (Ok tt, mkPolAlg (pa_id self) m (pa_alg self))
      | _ => (Raise ETypeError, self)
      end
  end.
Hypothesis Hfrom : forall self id, from_id self id =
  match dict_get id (pa_factory self) with
  | Some (AlgClass a) => (Ok tt, mkPolAlg (pa_id self) (pa_factory self) (Some a))
  | _ => (Raise ETypeError, self)
  end.

Lemma alg_run : forall default ops,
  let s := set_run step ops (mkPolAlg None default None) in
  pa_alg s = latest (installs default) (rev ops) /\
  pa_id s = last_some (map (fun o => match o with PASetId x => as_string x | _ => None end) ops) /\
  pa_factory s = factory_after default ops.
Proof.
  intros default ops. induction ops as [|o ops IH] using rev_ind; [split; [|split]; reflexivity|].
  cbv zeta in *. rewrite set_run_snoc, rev_app_distr. cbn [rev app latest].
  rewrite rev_involutive, map_app, Hstep. cbn [map]. unfold factory_after in *. rewrite map_app.
  cbn [map]. rewrite !last_some_snoc.
  destruct IH as (Ha & Hi & Hf). set (s := set_run step ops (mkPolAlg None default None)) in *.
  destruct o as [x|x].
  - destruct x as [v|a|d|sl|ef|de|k|m];
      try (cbn [installs as_string snd]; split; [exact Ha|split; [exact Hi|exact Hf]]).
    destruct v as [ |id| | | | | | ];
      try (cbn [installs as_string snd]; split; [exact Ha|split; [exact Hi|exact Hf]]).
    rewrite Hfrom. cbn [pa_factory pa_alg pa_id installs as_string]. unfold factory_after.
    rewrite <- Hf.
    destruct (dict_get id (pa_factory s)) as [[a| |]|]; cbn [snd pa_alg pa_id pa_factory];
      split; try split; auto; reflexivity.
  - destruct x as [v|a|d|sl|ef|de|k|m];
      try (cbn [installs snd]; split; [exact Ha|split; [exact Hi|exact Hf]]).
    cbn [installs snd pa_alg pa_id pa_factory]. split; [exact Ha|split; [exact Hi|reflexivity]].
Qed.

Lemma alg_ids : forall default alg_of xs,
  (forall id, match dict_get id default with Some (AlgClass a) => Some a | _ => None end = alg_of id) ->
  let s := set_run step (map PASetId xs) (mkPolAlg None default None) in
  pa_alg s = last_some (map (fun x => match as_string x with Some id => alg_of id | None => None end) xs) /\
  pa_id s = last_some (map as_string xs).
Proof.
  intros default alg_of xs Hm. cbv zeta.
  destruct (alg_run default (map PASetId xs)) as (Ha & Hi & Hf). cbv zeta in Ha, Hi. split.
  - rewrite Ha. clear Ha Hi Hf. induction xs as [|x xs IH] using rev_ind; [reflexivity|].
    rewrite !map_app, rev_app_distr. cbn [map rev app latest]. rewrite last_some_snoc.
    rewrite rev_involutive, IH.
    assert (Hfa : factory_after default (map PASetId xs) = default).
    { unfold factory_after. rewrite map_map.
      assert (Hn : last_some (map (fun _ : pyobj => None : option (list (string * alg_entry))) xs) = None).
      { clear. induction xs as [|y ys IH]; [reflexivity|]. cbn. rewrite IH. reflexivity. }
      rewrite Hn. reflexivity. }
    destruct x as [v|a|d|sl|ef|de|k|m]; try reflexivity.
    destruct v as [ |id| | | | | | ]; try reflexivity.
    cbn [installs as_string]. rewrite Hfa, <- Hm.
    destruct (dict_get id default) as [[a| |]|]; reflexivity.
  - rewrite Hi, map_map. reflexivity.
Qed.
End Alg.

Lemma policy_alg_ids : forall xs,
  let s := set_run policy_alg_step (map PASetId xs) policy_alg_new in
  pa_alg s = last_some (map (fun x => match as_string x with Some id => rule_algorithm id | None => None end) xs) /\
  pa_id s = last_some (map as_string xs).
Proof.
  intros xs. apply (alg_ids policy_alg_step policy_alg_from_id) with (default := RULE_ALG_MAP).
  - intros self [x|x]; reflexivity.
  - intros self id. unfold policy_alg_from_id. destruct (dict_get id (pa_factory self)) as [[]|]; reflexivity.
  - apply rule_map_get.
Qed.

Lemma policyset_alg_ids : forall xs,
  let s := set_run policyset_alg_step (map PASetId xs) policyset_alg_new in
  pa_alg s = last_some (map (fun x => match as_string x with Some id => policy_algorithm id | None => None end) xs) /\
  pa_id s = last_some (map as_string xs).
Proof.
  intros xs. apply (alg_ids policyset_alg_step policyset_alg_from_id) with (default := POLICY_ALG_MAP).
  - intros self [x|x]; reflexivity.
  - intros self id. unfold policyset_alg_from_id. destruct (dict_get id (pa_factory self)) as [[]|]; reflexivity.
  - apply policy_map_get.
Qed.

Lemma policy_alg_run : forall default ops,
  let s := set_run policy_alg_step ops (mkPolAlg None default None) in
  pa_alg s = latest (installs default) (rev ops) /\
  pa_id s = last_some (map (fun o => match o with PASetId x => as_string x | _ => None end) ops) /\
  pa_factory s = factory_after default ops.
Proof.
  intros default ops. apply (alg_run policy_alg_step policy_alg_from_id).
  - intros self [x|x]; reflexivity.
  - intros self id. unfold policy_alg_from_id. destruct (dict_get id (pa_factory self)) as [[]|]; reflexivity.
Qed.

Lemma policyset_alg_run : forall default ops,
  let s := set_run policyset_alg_step ops (mkPolAlg None default None) in
  pa_alg s = latest (installs default) (rev ops) /\
  pa_id s = last_some (map (fun o => match o with PASetId x => as_string x | _ => None end) ops) /\
  pa_factory s = factory_after default ops.
Proof.
  intros default ops. apply (alg_run policyset_alg_step policyset_alg_from_id).
  - intros self [x|x]; reflexivity.
  - intros self id. unfold policyset_alg_from_id. destruct (dict_get id (pa_factory self)) as [[]|]; reflexivity.
Qed.

(** ** Matches *)
Section Match.
Variable cm : list (string * avclass).

Lemma mo_run_snoc : forall ops o s,
  mo_run cm (ops ++ [o]) s =
  (let '(_, self, w) := mo_step cm o (fst (mo_run cm ops s)) (snd (mo_run cm ops s)) in (self, w)).
Proof. intros. unfold mo_run. rewrite fold_left_app. reflexivity. Qed.

(** Source of the values *)
Lemma mo_from_map_fields : forall k self w,
  let '(_, self', _) := mo_from_map cm k self w in
  mo_value self' = mo_value self /\ mo_designator self' = mo_designator self /\
  mo_selector self' = mo_selector self /\ mo_id self' = mo_id self /\
  mo_map self' = mo_map self /\ mo_load self' = mo_load self.
Proof.
  intros k self w. unfold mo_from_map. destruct (mo_id self) as [id|] eqn:E; [|auto 10].
  destruct (fm_get cm id (w k)) as [[[[f|e|]|]|e] m]; cbn; rewrite ?E; auto 10.
Qed.

Lemma mo_sources : forall ops w,
  sources (fst (mo_run cm ops (mo_new, w))) (last_some (map source_assigned ops)).
Proof.
  intros ops w. induction ops as [|o ops IH] using rev_ind; [split; reflexivity|].
  rewrite mo_run_snoc, map_app. cbn [map]. rewrite last_some_snoc.
  set (s := mo_run cm ops (mo_new, w)) in *. destruct s as [self w1]. cbn [fst snd] in *.
  assert (Hsame : forall self', mo_designator self' = mo_designator self ->
     mo_selector self' = mo_selector self -> sources self' (last_some (map source_assigned ops))).
  { intros self' H1 H2. unfold sources in *. rewrite H1, H2. exact IH. }
  destruct o as [x|x|x|x|x|x|k|k fo]; cbn [mo_step source_assigned].
  - destruct x; cbn [fst]; apply Hsame; reflexivity.
  - destruct x; cbn [fst]; try (apply Hsame; reflexivity). split; reflexivity.
  - destruct x; cbn [fst]; try (apply Hsame; reflexivity). split; reflexivity.
  - destruct x as [v| | | | | | |]; cbn [fst]; try (apply Hsame; reflexivity).
    destruct v as [ |id| | | | | | ]; cbn [fst]; try (apply Hsame; reflexivity).
    cbn [mo_load]. destruct (mo_load self); cbn [fst]; [|apply Hsame; reflexivity].
    match goal with |- context [mo_from_map cm ?k ?s ?w] => pose proof (mo_from_map_fields k s w) as H;
      destruct (mo_from_map cm k s w) as [[r self'] w'] end.
    cbn [fst]. cbn in H. apply Hsame; apply H.
  - destruct x as [v| | | | | | |]; cbn [fst]; try (apply Hsame; reflexivity).
    destruct v; cbn [fst]; apply Hsame; reflexivity.
  - destruct x; cbn [fst]; apply Hsame; reflexivity.
  - pose proof (mo_from_map_fields k self w1) as H.
    destruct (mo_from_map cm k self w1) as [[r self'] w']. cbn [fst]. apply Hsame; apply H.
  - cbn [fst]. apply Hsame; reflexivity.
Qed.

(** Function loading *)
Definition w_ok (h : list mop) (w : fmaps) : Prop :=
  forall k, inv cm (fun id => last_custom id (m_ops_on k h)) (w k).

Lemma m_ops_on_snoc : forall k h o,
  m_ops_on k (h ++ [o]) =
  (m_ops_on k h ++ match o with MOnMap j f => if Nat.eqb j k then [f] else [] | _ => [] end)%list.
Proof.
  intros k h o. unfold m_ops_on. rewrite flat_map_app. cbn [flat_map]. rewrite app_nil_r. reflexivity.
Qed.

Lemma last_custom_snoc : forall id ops o,
  last_custom id (ops ++ [o]) = custom_effect id (last_custom id ops) o.
Proof. intros. unfold last_custom. rewrite fold_left_app. reflexivity. Qed.

Lemma fm_get_entry : forall ops id m, inv cm (fun i => last_custom i ops) m ->
  fst (fm_get cm id m) = match entry cm ops id with Ok c => Ok (Some c) | Raise e => Raise e end /\
  inv cm (fun i => last_custom i ops) (snd (fm_get cm id m)).
Proof.
  intros ops id m Hi. destruct (fm_get_spec cm _ m id Hi) as [H1 H2]. split; [|exact H2].
  rewrite H1. unfold entry. destruct (last_custom id ops) as [c|]; [reflexivity|].
  destruct (resolve cm id); reflexivity.
Qed.

Lemma maps_set_inv : forall h k m w, w_ok h w ->
  inv cm (fun id => last_custom id (m_ops_on k h)) m -> w_ok h (maps_set k m w).
Proof.
  intros h k m w Hw Hm j. unfold maps_set. destruct (Nat.eqb j k) eqn:E; [|apply Hw].
  apply Nat.eqb_eq in E. subst j. exact Hm.
Qed.

(** Loading from map [k]: outcome and effect. *)
Lemma mo_from_map_spec : forall h k self w, w_ok h w ->
  let '(r, self', w') := mo_from_map cm k self w in
  w_ok h w' /\
  match mo_id self with
  | None => r = Raise EAttributeError /\ self' = self
  | Some id =>
      match usable (entry cm (m_ops_on k h) id) with
      | Some f => r = Ok tt /\ mo_fn self' = Some f
      | None => (exists e, r = Raise e) /\ self' = self
      end
  end.
Proof.
  intros h k self w Hw. unfold mo_from_map. destruct (mo_id self) as [id|]; [|auto].
  destruct (fm_get_entry (m_ops_on k h) id (w k) (Hw k)) as [H1 H2].
  destruct (fm_get cm id (w k)) as [r m]. cbn [fst snd] in H1, H2. subst r.
  pose proof (maps_set_inv h k m w Hw H2) as Hw'.
  destruct (entry cm (m_ops_on k h) id) as [[f|e|]|e]; cbn [usable];
    (split; [exact Hw'|split; [eauto|reflexivity]]).
Qed.

Record m_state (h : list mop) (s : matchobj * fmaps) : Prop := {
  ms_fn : mo_fn (fst s) = latest (m_loads cm) (rev h);
  ms_id : mo_id (fst s) = m_id_after h;
  ms_flag : mo_load (fst s) = m_flag_after h;
  ms_map : mo_map (fst s) = m_map_after h;
  ms_w : w_ok h (snd s)
}.

Lemma m_id_snoc : forall h o, m_id_after (h ++ [o]) =
  match (match o with MSetId x => as_string x | _ => None end) with
  | Some s => Some s | None => m_id_after h end.
Proof. intros. unfold m_id_after. rewrite map_app. cbn [map]. apply last_some_snoc. Qed.
Lemma m_flag_snoc : forall h o, m_flag_after (h ++ [o]) =
  match o with MSetLoad (ONat (NBool b)) => b | _ => m_flag_after h end.
Proof.
  intros. unfold m_flag_after. rewrite map_app. cbn [map]. rewrite last_some_snoc.
  destruct o as [x|x|x|x|x|x|k|k fo]; try reflexivity. destruct x as [v| | | | | | |]; try reflexivity.
  destruct v; reflexivity.
Qed.
Lemma m_map_snoc : forall h o, m_map_after (h ++ [o]) =
  match o with MSetMap (OFunctionMap k) => k | _ => m_map_after h end.
Proof.
  intros. unfold m_map_after. rewrite map_app. cbn [map]. rewrite last_some_snoc.
  destruct o as [x|x|x|x|x|x|k|k fo]; try reflexivity. destruct x; reflexivity.
Qed.
Lemma m_fn_snoc : forall h o, latest (m_loads cm) (rev (h ++ [o])) =
  match m_loads cm h o with Some f => Some f | None => latest (m_loads cm) (rev h) end.
Proof. intros. rewrite rev_app_distr. cbn [rev app latest]. rewrite rev_involutive. reflexivity. Qed.

Lemma w_ok_snoc : forall h o w, w_ok h w ->
  match o with MOnMap _ _ => False | _ => True end -> w_ok (h ++ [o]) w.
Proof.
  intros h o w Hw Ho k. rewrite m_ops_on_snoc. destruct o; try destruct Ho; rewrite app_nil_r; apply Hw.
Qed.

Lemma mo_run_state : forall h, m_state h (mo_run cm h m_start).
Proof.
  intros h. induction h as [|o h IH] using rev_ind.
  { split; try reflexivity. intros k. apply inv_new. }
  rewrite mo_run_snoc. set (s := mo_run cm h m_start) in *. destruct s as [self w].
  destruct IH as [Hfn Hid Hfl Hmp Hw]. cbn [fst snd] in *.
  assert (Hkeep : forall o self', m_loads cm h o = None ->
     match o with MOnMap _ _ => False | _ => True end ->
     mo_fn self' = mo_fn self -> mo_id self' = m_id_after (h ++ [o]) ->
     mo_load self' = m_flag_after (h ++ [o]) -> mo_map self' = m_map_after (h ++ [o]) ->
     m_state (h ++ [o]) (self', w)).
  { intros o' self' Hl Ho H1 H2 H3 H4. split; cbn [fst snd]; auto.
    - rewrite m_fn_snoc, Hl, H1. exact Hfn.
    - apply w_ok_snoc; assumption. }
  destruct o as [x|x|x|x|x|x|k|k fo]; cbn [mo_step].
  - destruct x; apply Hkeep; rewrite ?m_id_snoc, ?m_flag_snoc, ?m_map_snoc; auto.
  - destruct x; apply Hkeep; rewrite ?m_id_snoc, ?m_flag_snoc, ?m_map_snoc; auto.
  - destruct x; apply Hkeep; rewrite ?m_id_snoc, ?m_flag_snoc, ?m_map_snoc; auto.
  - destruct x as [v| | | | | | |];
      try (apply Hkeep; rewrite ?m_id_snoc, ?m_flag_snoc, ?m_map_snoc; auto).
    destruct v as [ |id| | | | | | ];
      try (apply Hkeep; rewrite ?m_id_snoc, ?m_flag_snoc, ?m_map_snoc; auto).
    cbn [mo_load mo_map]. destruct (mo_load self) eqn:Efl.
    + match goal with |- context [mo_from_map cm ?k ?s ?w] =>
        pose proof (mo_from_map_fields k s w) as Hf; pose proof (mo_from_map_spec h k s w Hw) as Hs;
        destruct (mo_from_map cm k s w) as [[r self'] w'] end.
      cbn in Hf. destruct Hf as (_ & _ & _ & Fi & Fm & Fl).
      destruct Hs as [Hw' Hs]. cbn [mo_id] in Hs. rewrite Hmp in Hs.
      split; cbn [fst snd].
      * rewrite m_fn_snoc. cbn [m_loads]. rewrite <- Hfl.
        destruct (usable (entry cm (m_ops_on (m_map_after h) h) id)) as [f|].
        -- destruct Hs as [_ ->]. reflexivity.
        -- destruct Hs as [_ ->]. exact Hfn.
      * rewrite m_id_snoc. exact Fi.
      * rewrite m_flag_snoc, Fl. exact Hfl.
      * rewrite m_map_snoc, Fm. exact Hmp.
      * apply w_ok_snoc; [exact Hw'|exact I].
    + apply Hkeep; rewrite ?m_id_snoc, ?m_flag_snoc, ?m_map_snoc; auto.
      cbn [m_loads]. rewrite <- Hfl. reflexivity.
  - destruct x as [v| | | | | | |];
      try (apply Hkeep; rewrite ?m_id_snoc, ?m_flag_snoc, ?m_map_snoc; auto).
    destruct v as [ | | | | | | | ];
      try (apply Hkeep; rewrite ?m_id_snoc, ?m_flag_snoc, ?m_map_snoc; auto).
  - destruct x; apply Hkeep; rewrite ?m_id_snoc, ?m_flag_snoc, ?m_map_snoc; auto.
  - pose proof (mo_from_map_fields k self w) as Hf; pose proof (mo_from_map_spec h k self w Hw) as Hs.
    destruct (mo_from_map cm k self w) as [[r self'] w'].
    destruct Hf as (_ & _ & _ & Fi & Fm & Fl). destruct Hs as [Hw' Hs].
    split; cbn [fst snd].
    + rewrite m_fn_snoc. cbn [m_loads]. rewrite <- Hid.
      destruct (mo_id self) as [id|]; [|destruct Hs as [_ ->]; exact Hfn].
      destruct (usable (entry cm (m_ops_on k h) id)) as [f|].
      * destruct Hs as [_ ->]. reflexivity.
      * destruct Hs as [_ ->]. exact Hfn.
    + rewrite m_id_snoc, Fi. exact Hid.
    + rewrite m_flag_snoc, Fl. exact Hfl.
    + rewrite m_map_snoc, Fm. exact Hmp.
    + apply w_ok_snoc; [exact Hw'|exact I].
  - split; cbn [fst snd].
    + rewrite m_fn_snoc. exact Hfn.
    + rewrite m_id_snoc. exact Hid.
    + rewrite m_flag_snoc. exact Hfl.
    + rewrite m_map_snoc. exact Hmp.
    + intros j. rewrite m_ops_on_snoc. unfold maps_set. rewrite (Nat.eqb_sym k j).
      destruct (Nat.eqb j k) eqn:E.
      * apply Nat.eqb_eq in E. subst j.
        apply inv_ext with (cu := cu_step (fun id => last_custom id (m_ops_on k h)) fo).
        -- intros i. rewrite last_custom_snoc. reflexivity.
        -- apply fm_step_inv, Hw.
      * rewrite app_nil_r. apply Hw.
Qed.

(** Outcome of assigning an identifier after any history. *)
Lemma mo_assign_outcome : forall h id,
  m_flag_after h = true ->
  let s := mo_run cm h m_start in
  match usable (entry cm (m_ops_on (m_map_after h) h) id) with
  | Some f => fst (fst (mo_step cm (MSetId (ONat (NStr id))) (fst s) (snd s))) = Ok tt /\
              mo_fn (fst (mo_run cm (h ++ [MSetId (ONat (NStr id))]) m_start)) = Some f
  | None => (exists e, fst (fst (mo_step cm (MSetId (ONat (NStr id))) (fst s) (snd s))) = Raise e) /\
            mo_fn (fst (mo_run cm (h ++ [MSetId (ONat (NStr id))]) m_start)) = mo_fn (fst s)
  end /\
  mo_id (fst (mo_run cm (h ++ [MSetId (ONat (NStr id))]) m_start)) = Some id.
Proof.
  intros h id Hfl s. subst s. split.
  - rewrite (ms_fn _ _ (mo_run_state (h ++ [MSetId (ONat (NStr id))]))), m_fn_snoc.
    rewrite (ms_fn _ _ (mo_run_state h)).
    pose proof (mo_run_state h) as [Hfn Hid Hfl' Hmp Hw].
    set (s := mo_run cm h m_start) in *. destruct s as [self w]. cbn [fst snd] in *.
    cbn [mo_step mo_load mo_map m_loads]. rewrite Hfl', Hfl.
    match goal with |- context [mo_from_map cm ?k ?s ?w] =>
      pose proof (mo_from_map_spec h k s w Hw) as Hs;
      destruct (mo_from_map cm k s w) as [[r self'] w'] end.
    destruct Hs as [_ Hs]. cbn [mo_id] in Hs. rewrite Hmp in Hs.
    destruct (usable (entry cm (m_ops_on (m_map_after h) h) id)) as [f|]; cbn [fst].
    + destruct Hs as [-> _]. split; reflexivity.
    + destruct Hs as [He _]. split; [exact He|reflexivity].
  - rewrite (ms_id _ _ (mo_run_state (h ++ [MSetId (ONat (NStr id))]))), m_id_snoc. reflexivity.
Qed.

(** Identifier assignments only. *)
Lemma mo_ids : forall xs,
  let s := fst (mo_run cm (map MSetId xs) m_start) in
  mo_fn s = last_some (map (fun x => match as_string x with
                                     | Some id => usable (resolve cm id) | None => None end) xs) /\
  mo_id s = last_some (map as_string xs).
Proof.
  intros xs s. subst s. destruct (mo_run_state (map MSetId xs)) as [Hfn Hid _ _ _]. split.
  - rewrite Hfn. clear Hfn Hid. induction xs as [|x xs IH] using rev_ind; [reflexivity|].
    rewrite !map_app. cbn [map]. rewrite m_fn_snoc, last_some_snoc, IH.
    destruct x as [v| | | | | | |]; try reflexivity. destruct v as [ |id| | | | | | ]; try reflexivity.
    cbn [m_loads as_string].
    assert (Hfl : m_flag_after (map MSetId xs) = true).
    { unfold m_flag_after. rewrite map_map.
      assert (Hn : last_some (map (fun _ : pyobj => None : option bool) xs) = None).
      { clear. induction xs as [|y ys IH]; [reflexivity|]. cbn. rewrite IH. reflexivity. }
      rewrite Hn. reflexivity. }
    assert (Hop : forall k, m_ops_on k (map MSetId xs) = []).
    { intros k. clear. induction xs as [|y ys IH]; [reflexivity|]. cbn. exact IH. }
    rewrite Hfl, Hop. reflexivity.
  - rewrite Hid. unfold m_id_after. rewrite map_map. reflexivity.
Qed.
End Match.

(** ** Apply objects *)
Section Apply.
Variable cm : list (string * avclass).

Lemma ao_run_snoc : forall ops o s,
  ao_run cm (ops ++ [o]) s =
  (let '(_, self, w) := ao_step cm o (fst (ao_run cm ops s)) (snd (ao_run cm ops s)) in (self, w)).
Proof. intros. unfold ao_run. rewrite fold_left_app. reflexivity. Qed.

Lemma ao_from_map_fields : forall k self w,
  let '(_, self', _) := ao_from_map cm k self w in
  ao_id self' = ao_id self /\ ao_map self' = ao_map self /\ ao_load self' = ao_load self.
Proof.
  intros k self w. unfold ao_from_map. destruct (ao_id self) as [id|] eqn:E; [|auto 10].
  destruct (fm_get cm id (w k)) as [[[[f|e|]|]|e] m]; cbn; rewrite ?E; auto 10.
Qed.

Definition wa_ok (h : list aop) (w : fmaps) : Prop :=
  forall k, inv cm (fun id => last_custom id (a_ops_on k h)) (w k).

Lemma a_ops_on_snoc : forall k h o,
  a_ops_on k (h ++ [o]) =
  (a_ops_on k h ++ match o with AOnMap j f => if Nat.eqb j k then [f] else [] | _ => [] end)%list.
Proof.
  intros k h o. unfold a_ops_on. rewrite flat_map_app. cbn [flat_map]. rewrite app_nil_r. reflexivity.
Qed.

Lemma a_maps_set_inv : forall h k m w, wa_ok h w ->
  inv cm (fun id => last_custom id (a_ops_on k h)) m -> wa_ok h (maps_set k m w).
Proof.
  intros h k m w Hw Hm j. unfold maps_set. destruct (Nat.eqb j k) eqn:E; [|apply Hw].
  apply Nat.eqb_eq in E. subst j. exact Hm.
Qed.

Lemma ao_from_map_spec : forall h k self w, wa_ok h w ->
  let '(r, self', w') := ao_from_map cm k self w in
  wa_ok h w' /\
  match ao_id self with
  | None => r = Raise EAttributeError /\ self' = self
  | Some id =>
      match usable (entry cm (a_ops_on k h) id) with
      | Some f => r = Ok tt /\ ao_fn self' = Some f
      | None => (exists e, r = Raise e) /\ self' = self
      end
  end.
Proof.
  intros h k self w Hw. unfold ao_from_map. destruct (ao_id self) as [id|]; [|auto].
  destruct (fm_get_entry cm (a_ops_on k h) id (w k) (Hw k)) as [H1 H2].
  destruct (fm_get cm id (w k)) as [r m]. cbn [fst snd] in H1, H2. subst r.
  pose proof (a_maps_set_inv h k m w Hw H2) as Hw'.
  destruct (entry cm (a_ops_on k h) id) as [[f|e|]|e]; cbn [usable];
    (split; [exact Hw'|split; [eauto|reflexivity]]).
Qed.

Record a_state (h : list aop) (s : applyobj * fmaps) : Prop := {
  as_fn : ao_fn (fst s) = latest (a_loads cm) (rev h);
  as_id : ao_id (fst s) = a_id_after h;
  as_flag : ao_load (fst s) = a_flag_after h;
  as_map : ao_map (fst s) = a_map_after h;
  as_w : wa_ok h (snd s)
}.

Lemma a_id_snoc : forall h o, a_id_after (h ++ [o]) =
  match (match o with ASetId x => as_string x | _ => None end) with
  | Some s => Some s | None => a_id_after h end.
Proof. intros. unfold a_id_after. rewrite map_app. cbn [map]. apply last_some_snoc. Qed.
Lemma a_flag_snoc : forall h o, a_flag_after (h ++ [o]) =
  match o with ASetLoad (ONat (NBool b)) => b | _ => a_flag_after h end.
Proof.
  intros. unfold a_flag_after. rewrite map_app. cbn [map]. rewrite last_some_snoc.
  destruct o as [x|x|x|k|k fo]; try reflexivity. destruct x as [v| | | | | | |]; try reflexivity.
  destruct v; reflexivity.
Qed.
Lemma a_map_snoc : forall h o, a_map_after (h ++ [o]) =
  match o with ASetMap (OFunctionMap k) => k | _ => a_map_after h end.
Proof.
  intros. unfold a_map_after. rewrite map_app. cbn [map]. rewrite last_some_snoc.
  destruct o as [x|x|x|k|k fo]; try reflexivity. destruct x; reflexivity.
Qed.
Lemma a_fn_snoc : forall h o, latest (a_loads cm) (rev (h ++ [o])) =
  match a_loads cm h o with Some f => Some f | None => latest (a_loads cm) (rev h) end.
Proof. intros. rewrite rev_app_distr. cbn [rev app latest]. rewrite rev_involutive. reflexivity. Qed.

Lemma wa_ok_snoc : forall h o w, wa_ok h w ->
  match o with AOnMap _ _ => False | _ => True end -> wa_ok (h ++ [o]) w.
Proof.
  intros h o w Hw Ho k. rewrite a_ops_on_snoc. destruct o; try destruct Ho; rewrite app_nil_r; apply Hw.
Qed.

Lemma ao_run_state : forall h, a_state h (ao_run cm h a_start).
Proof.
  intros h. induction h as [|o h IH] using rev_ind.
  { split; try reflexivity. intros k. apply inv_new. }
  rewrite ao_run_snoc. set (s := ao_run cm h a_start) in *. destruct s as [self w].
  destruct IH as [Hfn Hid Hfl Hmp Hw]. cbn [fst snd] in *.
  assert (Hkeep : forall o self', a_loads cm h o = None ->
     match o with AOnMap _ _ => False | _ => True end ->
     ao_fn self' = ao_fn self -> ao_id self' = a_id_after (h ++ [o]) ->
     ao_load self' = a_flag_after (h ++ [o]) -> ao_map self' = a_map_after (h ++ [o]) ->
     a_state (h ++ [o]) (self', w)).
  { intros o' self' Hl Ho H1 H2 H3 H4. split; cbn [fst snd]; auto.
    - rewrite a_fn_snoc, Hl, H1. exact Hfn.
    - apply wa_ok_snoc; assumption. }
  destruct o as [x|x|x|k|k fo]; cbn [ao_step].
  - destruct x as [v| | | | | | |];
      try (apply Hkeep; rewrite ?a_id_snoc, ?a_flag_snoc, ?a_map_snoc; auto).
    destruct v as [ |id| | | | | | ];
      try (apply Hkeep; rewrite ?a_id_snoc, ?a_flag_snoc, ?a_map_snoc; auto).
    cbn [ao_load ao_map]. destruct (ao_load self) eqn:Efl.
    + match goal with |- context [ao_from_map cm ?k ?s ?w] =>
        pose proof (ao_from_map_fields k s w) as Hf; pose proof (ao_from_map_spec h k s w Hw) as Hs;
        destruct (ao_from_map cm k s w) as [[r self'] w'] end.
      cbn in Hf. destruct Hf as (Fi & Fm & Fl).
      destruct Hs as [Hw' Hs]. cbn [ao_id] in Hs. rewrite Hmp in Hs.
      split; cbn [fst snd].
      * rewrite a_fn_snoc. cbn [a_loads]. rewrite <- Hfl.
        destruct (usable (entry cm (a_ops_on (a_map_after h) h) id)) as [f|].
        -- destruct Hs as [_ ->]. reflexivity.
        -- destruct Hs as [_ ->]. exact Hfn.
      * rewrite a_id_snoc. exact Fi.
      * rewrite a_flag_snoc, Fl. exact Hfl.
      * rewrite a_map_snoc, Fm. exact Hmp.
      * apply wa_ok_snoc; [exact Hw'|exact I].
    + apply Hkeep; rewrite ?a_id_snoc, ?a_flag_snoc, ?a_map_snoc; auto.
      cbn [a_loads]. rewrite <- Hfl. reflexivity.
  - destruct x as [v| | | | | | |];
      try (apply Hkeep; rewrite ?a_id_snoc, ?a_flag_snoc, ?a_map_snoc; auto).
    destruct v as [ | | | | | | | ];
      try (apply Hkeep; rewrite ?a_id_snoc, ?a_flag_snoc, ?a_map_snoc; auto).
  - destruct x; apply Hkeep; rewrite ?a_id_snoc, ?a_flag_snoc, ?a_map_snoc; auto.
  - pose proof (ao_from_map_fields k self w) as Hf; pose proof (ao_from_map_spec h k self w Hw) as Hs.
    destruct (ao_from_map cm k self w) as [[r self'] w'].
    destruct Hf as (Fi & Fm & Fl). destruct Hs as [Hw' Hs].
    split; cbn [fst snd].
    + rewrite a_fn_snoc. cbn [a_loads]. rewrite <- Hid.
      destruct (ao_id self) as [id|]; [|destruct Hs as [_ ->]; exact Hfn].
      destruct (usable (entry cm (a_ops_on k h) id)) as [f|].
      * destruct Hs as [_ ->]. reflexivity.
      * destruct Hs as [_ ->]. exact Hfn.
    + rewrite a_id_snoc, Fi. exact Hid.
    + rewrite a_flag_snoc, Fl. exact Hfl.
    + rewrite a_map_snoc, Fm. exact Hmp.
    + apply wa_ok_snoc; [exact Hw'|exact I].
  - split; cbn [fst snd].
    + rewrite a_fn_snoc. exact Hfn.
    + rewrite a_id_snoc. exact Hid.
    + rewrite a_flag_snoc. exact Hfl.
    + rewrite a_map_snoc. exact Hmp.
    + intros j. rewrite a_ops_on_snoc. unfold maps_set. rewrite (Nat.eqb_sym k j).
      destruct (Nat.eqb j k) eqn:E.
      * apply Nat.eqb_eq in E. subst j.
        apply inv_ext with (cu := cu_step (fun id => last_custom id (a_ops_on k h)) fo).
        -- intros i. rewrite last_custom_snoc. reflexivity.
        -- apply fm_step_inv, Hw.
      * rewrite app_nil_r. apply Hw.
Qed.

Lemma ao_assign_outcome : forall h id,
  a_flag_after h = true ->
  let s := ao_run cm h a_start in
  match usable (entry cm (a_ops_on (a_map_after h) h) id) with
  | Some f => fst (fst (ao_step cm (ASetId (ONat (NStr id))) (fst s) (snd s))) = Ok tt /\
              ao_fn (fst (ao_run cm (h ++ [ASetId (ONat (NStr id))]) a_start)) = Some f
  | None => (exists e, fst (fst (ao_step cm (ASetId (ONat (NStr id))) (fst s) (snd s))) = Raise e) /\
            ao_fn (fst (ao_run cm (h ++ [ASetId (ONat (NStr id))]) a_start)) = ao_fn (fst s)
  end /\
  ao_id (fst (ao_run cm (h ++ [ASetId (ONat (NStr id))]) a_start)) = Some id.
Proof.
  intros h id Hfl s. subst s. split.
  - rewrite (as_fn _ _ (ao_run_state (h ++ [ASetId (ONat (NStr id))]))), a_fn_snoc.
    rewrite (as_fn _ _ (ao_run_state h)).
    pose proof (ao_run_state h) as [Hfn Hid Hfl' Hmp Hw].
    set (s := ao_run cm h a_start) in *. destruct s as [self w]. cbn [fst snd] in *.
    cbn [ao_step ao_load ao_map a_loads]. rewrite Hfl', Hfl.
    match goal with |- context [ao_from_map cm ?k ?s ?w] =>
      pose proof (ao_from_map_spec h k s w Hw) as Hs;
      destruct (ao_from_map cm k s w) as [[r self'] w'] end.
    destruct Hs as [_ Hs]. cbn [ao_id] in Hs. rewrite Hmp in Hs.
    destruct (usable (entry cm (a_ops_on (a_map_after h) h) id)) as [f|]; cbn [fst].
    + destruct Hs as [-> _]. split; reflexivity.
    + destruct Hs as [He _]. split; [exact He|reflexivity].
  - rewrite (as_id _ _ (ao_run_state (h ++ [ASetId (ONat (NStr id))]))), a_id_snoc. reflexivity.
Qed.
End Apply.

(** ** More forms used by the properties *)
Lemma last_some_split : forall A B (f : B -> option A) (l : list B) a,
  last_some (map f l) = Some a ->
  exists before x after, l = (before ++ x :: after)%list /\ f x = Some a /\
    (forall y, In y after -> f y = None).
Proof.
  intros A B f l. induction l as [|y l IH] using rev_ind; intros a H; [discriminate|].
  rewrite map_app in H. cbn [map] in H. rewrite last_some_snoc in H.
  destruct (f y) as [b|] eqn:E.
  - exists l, y, []. split; [reflexivity|]. split; [congruence|intros ? []].
  - destruct (IH a H) as (b & x & r & -> & Hx & Hr). exists b, x, (r ++ [y])%list.
    rewrite <- app_assoc. split; [reflexivity|]. split; [exact Hx|].
    intros z Hz. apply in_app_or in Hz. destruct Hz as [Hz|[<-|[]]]; auto.
Qed.

Lemma last_some_none : forall A B (f : B -> option A) (l : list B),
  last_some (map f l) = None -> forall y, In y l -> f y = None.
Proof.
  intros A B f l. induction l as [|y l IH]; cbn [map last_some]; intros H z Hz; [destruct Hz|].
  destruct (last_some (map f l)) eqn:E; [discriminate|].
  destruct Hz as [<-|Hz]; [exact H|apply IH; auto].
Qed.

Lemma av_accepted_spec : forall c o x,
  av_accepted c o = Some x <-> o = AVSetValue x /\ instance_of x (ac_type c).
Proof.
  intros c o x. rewrite instance_of_iff. destruct o as [y|y]; cbn [av_accepted].
  - destruct (native_isinstance y (ac_type c)) as [[]|] eqn:E.
    + split; [intros [= <-]; auto|intros [[= <-] _]; reflexivity].
    + split; [discriminate|intros [[= <-] H]; congruence].
    + split; [discriminate|intros [[= <-] H]; congruence].
  - split; [discriminate|intros [[=] _]].
Qed.

Lemma av_history : forall c v0 ops, av_new c NNone = Ok v0 ->
  (av_value (av_run v0 ops) = NNone /\
   forall x, In (AVSetValue x) ops -> ~ instance_of x (ac_type c)) \/
  (exists before x after, ops = (before ++ AVSetValue x :: after)%list /\
     instance_of x (ac_type c) /\ av_value (av_run v0 ops) = x /\
     forall y, In (AVSetValue y) after -> ~ instance_of y (ac_type c)).
Proof.
  intros c v0 ops H. injection H as <-. rewrite av_run_value. cbn [av_class av_value].
  destruct (last_some (map (av_accepted c) ops)) as [x|] eqn:E.
  - right. destruct (last_some_split _ _ _ _ _ E) as (b & o & r & -> & Ho & Hr).
    apply av_accepted_spec in Ho. destruct Ho as [-> Hi]. exists b, x, r.
    refine (conj eq_refl (conj Hi (conj eq_refl _))). intros y Hy Hiy. specialize (Hr _ Hy).
    assert (Ha : av_accepted c (AVSetValue y) = Some y) by (apply av_accepted_spec; auto). congruence.
  - left. split; [reflexivity|]. intros y Hy Hiy. pose proof (last_some_none _ _ _ _ E _ Hy) as Hn.
    assert (Ha : av_accepted c (AVSetValue y) = Some y) by (apply av_accepted_spec; auto). congruence.
Qed.

Lemma av_step_outcome : forall v o,
  (fst (av_step v o) = Ok tt <->
     match o with
     | AVSetValue x => instance_of x (ac_type (av_class v))
     | AVSetDataType x => exists s, x = NStr s
     end) /\
  (forall e, fst (av_step v o) = Raise e -> snd (av_step v o) = v).
Proof.
  intros v [x|x]; cbn [av_step].
  - unfold av_set_value. rewrite instance_of_iff.
    destruct (native_isinstance x (ac_type (av_class v))) as [[]|e] eqn:E; cbn.
    + split; [split; auto|discriminate].
    + split; [split; discriminate|reflexivity].
    + split; [split; discriminate|reflexivity].
  - destruct x; cbn; (split; [split; [try discriminate; eauto|intros [s0 Hs]; try discriminate; auto]|
      try discriminate; reflexivity]).
Qed.

Lemma effect_set_iff : forall self x,
  (exists s, (x = ONat (NStr s) \/ x = OEffect s) /\ In s EFFECT_TYPES /\
             effect_set self x = (Ok tt, Some s)) \/
  ((forall s, x = ONat (NStr s) \/ x = OEffect s -> ~ In s EFFECT_TYPES) /\
   exists e, effect_set self x = (Raise e, self)).
Proof.
  intros self x. destruct x as [v| | | |s| | |];
    try (right; split; [intros s' [H|H]; discriminate|cbn; eauto]).
  - destruct v as [ |s| | | | | | ]; try (right; split; [intros s' [H|H]; discriminate|cbn; eauto]).
    cbn [effect_set]. destruct (str_in s EFFECT_TYPES) eqn:E.
    + left. exists s. apply str_in_iff in E. auto.
    + right. split; [|eauto]. intros s' [H|H] Hin; [injection H as <-|discriminate].
      apply str_in_iff in Hin. congruence.
  - cbn [effect_set]. destruct (str_in s EFFECT_TYPES) eqn:E.
    + left. exists s. apply str_in_iff in E. auto.
    + right. split; [|eauto]. intros s' [H|H] Hin; [discriminate|injection H as <-].
      apply str_in_iff in Hin. congruence.
Qed.

Lemma decision_set_iff : forall self x,
  (exists s, (x = ONat (NStr s) \/ x = ODecision s) /\ In s DECISION_TYPES /\
             decision_set self x = (Ok tt, Some s)) \/
  ((forall s, x = ONat (NStr s) \/ x = ODecision s -> ~ In s DECISION_TYPES) /\
   exists e, decision_set self x = (Raise e, self)).
Proof.
  intros self x. destruct x as [v| | | | |s| |];
    try (right; split; [intros s' [H|H]; discriminate|cbn; eauto]).
  - destruct v as [ |s| | | | | | ]; try (right; split; [intros s' [H|H]; discriminate|cbn; eauto]).
    cbn [decision_set]. destruct (str_in s DECISION_TYPES) eqn:E.
    + left. exists s. apply str_in_iff in E. auto.
    + right. split; [|eauto]. intros s' [H|H] Hin; [injection H as <-|discriminate].
      apply str_in_iff in Hin. congruence.
  - cbn [decision_set]. destruct (str_in s DECISION_TYPES) eqn:E.
    + left. exists s. apply str_in_iff in E. auto.
    + right. split; [|eauto]. intros s' [H|H] Hin; [discriminate|injection H as <-].
      apply str_in_iff in Hin. congruence.
Qed.

Lemma status_set_iff : forall self x,
  (exists s, x = ONat (NStr s) /\ In s STATUS_CODES /\ status_code_set self x = (Ok tt, Some s)) \/
  ((forall s, x = ONat (NStr s) -> ~ In s STATUS_CODES) /\
   exists e, status_code_set self x = (Raise e, self)).
Proof.
  intros self x. destruct x as [v| | | | |s| |];
    try (right; split; [intros s' H; discriminate|cbn; eauto]).
  destruct v as [ |s| | | | | | ]; try (right; split; [intros s' H; discriminate|cbn; eauto]).
  cbn [status_code_set]. destruct (str_in s STATUS_CODES) eqn:E.
  - left. exists s. apply str_in_iff in E. auto.
  - right. split; [|eauto]. intros s' H Hin; injection H as <-. apply str_in_iff in Hin. congruence.
Qed.

(** The value after a sequence of assignments is the last accepted one. *)
Lemma set_run_last : forall X (setter : option string -> X -> res unit * option string)
    (acc : X -> option string),
  (forall self x, match acc x with
                  | Some s => setter self x = (Ok tt, Some s)
                  | None => exists e, setter self x = (Raise e, self)
                  end) ->
  forall xs s0, set_run setter xs s0 =
    match last_some (map acc xs) with Some s => Some s | None => s0 end.
Proof.
  intros X setter acc H xs s0. induction xs as [|x xs IH] using rev_ind; [reflexivity|].
  rewrite set_run_snoc, map_app. cbn [map]. rewrite last_some_snoc. specialize (H (set_run setter xs s0) x).
  destruct (acc x) as [s|]; [rewrite H; reflexivity|]. destruct H as [e ->]. exact IH.
Qed.

Lemma effect_run_last : forall xs s0, set_run effect_set xs s0 =
  match last_some (map (in_vocabulary ["Deny"; "Permit"] (fun x => match x with OEffect s => Some s | _ => as_string x end)) xs)
  with Some s => Some s | None => s0 end.
Proof.
  apply set_run_last. intros self x. unfold in_vocabulary.
  destruct x as [v| | | |s| | |]; cbn; eauto.
  - destruct v as [ |s| | | | | | ]; cbn; eauto.
    fold (str_in s ["Deny"; "Permit"]). unfold EFFECT_TYPES, str_in; cbn.
    destruct (String.eqb s "Deny" || (String.eqb s "Permit" || false))%bool; eauto.
  - unfold EFFECT_TYPES, str_in; cbn.
    destruct (String.eqb s "Deny" || (String.eqb s "Permit" || false))%bool; eauto.
Qed.

Lemma decision_run_last : forall xs s0, set_run decision_set xs s0 =
  match last_some (map (in_vocabulary ["Permit"; "Deny"; "Indeterminate"; "NotApplicable"]
     (fun x => match x with ODecision s => Some s | _ => as_string x end)) xs)
  with Some s => Some s | None => s0 end.
Proof.
  apply set_run_last. intros self x. unfold in_vocabulary.
  destruct x as [v| | | | |s| |]; cbn; eauto.
  - destruct v as [ |s| | | | | | ]; cbn; eauto.
    unfold DECISION_TYPES, str_in; cbn.
    match goal with |- context [if ?b then _ else _] => destruct b end; eauto.
  - unfold DECISION_TYPES, str_in; cbn.
    match goal with |- context [if ?b then _ else _] => destruct b end; eauto.
Qed.

Lemma status_run_last : forall xs s0, set_run status_code_set xs s0 =
  match last_some (map (in_vocabulary
      [ "urn:oasis:names:tc:xacml:1.0:status:ok";
        "urn:oasis:names:tc:xacml:1.0:status:missing-attribute";
        "urn:oasis:names:tc:xacml:1.0:status:processing-error";
        "urn:oasis:names:tc:xacml:1.0:status:syntax-error" ] as_string) xs)
  with Some s => Some s | None => s0 end.
Proof.
  apply set_run_last. intros self x. unfold in_vocabulary.
  destruct x as [v| | | | |s| |]; cbn [as_string status_code_set]; eauto.
  destruct v as [ |s| | | | | | ]; cbn [as_string status_code_set]; eauto.
  unfold STATUS_CODES.
  match goal with |- context [if ?b then _ else _] => destruct b end; eauto.
Qed.
