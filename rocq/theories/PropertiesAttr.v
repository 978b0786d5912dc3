(** Properties C14-C20: retrieval of attribute values and expression evaluation. *)
From Verif Require Import Eval EvalState SpecEval SpecState Sample
  EvalFacts EvalFacts2 EvalFacts3 EvalFacts4 StateFacts.

(** ** C14 *)
Theorem C14_subject_designator_exact : forall E d r vs,
  dg_kind d = DSubject -> rq_ctxHandler r = None ->
  requested_values d (concat (map sb_attributes (rq_subjects r))) vs ->
  (all_of_type E (dg_dataType d) vs ->
     (vs <> [] \/ dg_mustBePresent d = false) ->
     eval_designator E d (CtxRequest r) = Ok (PBag (class_for E (dg_dataType d)) vs)) /\
  (vs = [] -> dg_mustBePresent d = true ->
     eval_designator E d (CtxRequest r) = Raise EMissingAttributeError) /\
  (~ all_of_type E (dg_dataType d) vs ->
     eval_designator E d (CtxRequest r) = Raise ETypeError).
Proof.
  intros E d r vs Hk Hh Hr. eapply eval_designator_exact; eauto. rewrite Hk. reflexivity.
Qed.

(** The requested values exist and are unique for every list of attributes. *)
Theorem C14_requested_values_defined : forall d attrs,
  exists vs, requested_values d attrs vs /\
    forall vs', requested_values d attrs vs' -> vs' = vs.
Proof.
  intros d attrs. exists (wanted d attrs). split; [apply wanted_requested|].
  intros vs' H. apply requested_wanted. exact H.
Qed.

Theorem C14_requested_values_members : forall d attrs vs v,
  requested_values d attrs vs ->
  (In v vs <-> exists a, In a attrs /\ In v (at_values a) /\ asks_for_value d a v).
Proof. exact requested_in. Qed.

Definition d_role : designator := sdes DSubject "role" true.
Definition d_issued : designator :=
  mkDesignator DSubject (Some "role") (Some (xs "string")) (Some "ca") false.
Definition sreq_issuers : request :=
  mkRequest
    [mkSubject None
       [mkAttribute (Some "role") (Some (xs "string")) (Some "ca") [sstr "a"; sint 3; sstr "b"];
        mkAttribute (Some "role") (Some (xs "string")) (Some "other") [sstr "c"];
        mkAttribute (Some "role") (Some (xs "integer")) (Some "ca") [sint 4]];
     mkSubject None [mkAttribute (Some "role") (Some (xs "string")) None [sstr "d"]]]
    [] None None None None.
Example C14_hypotheses_met :
  requested_values d_role (concat (map sb_attributes (rq_subjects sreq)))
    [sstr "staff"; sstr "guest"; sstr "operator"] /\
  all_of_type sE (dg_dataType d_role) [sstr "staff"; sstr "guest"; sstr "operator"] /\
  eval_designator sE d_issued (CtxRequest sreq_issuers)
    = Ok (PBag (Some StringAV) [sstr "a"; sstr "b"]) /\
  eval_designator sE (sdes DSubject "none" true) sctx = Raise EMissingAttributeError.
Proof.
  split; [apply requested_wanted; vm_compute; reflexivity|].
  split; [|split; vm_compute; reflexivity].
  right. exists (xs "string"), StringAV. split; [reflexivity|]. split; [vm_compute; reflexivity|].
  intros v [<-|[<-|[<-|[]]]]; vm_compute; reflexivity.
Qed.

(** ** C15 *)
Theorem C15_other_designators_exact : forall E d r attrs vs,
  dg_kind d <> DSubject ->
  section_attributes (dg_kind d) r = Some attrs ->
  requested_values d attrs vs ->
  (all_of_type E (dg_dataType d) vs ->
     (vs <> [] \/ dg_mustBePresent d = false) ->
     eval_designator E d (CtxRequest r) = Ok (PBag (class_for E (dg_dataType d)) vs)) /\
  (vs = [] -> dg_mustBePresent d = true ->
     eval_designator E d (CtxRequest r) = Raise EMissingAttributeError) /\
  (~ all_of_type E (dg_dataType d) vs ->
     eval_designator E d (CtxRequest r) = Raise ETypeError).
Proof.
  intros E d r attrs vs Hk Hs Hr. eapply eval_designator_exact; eauto. intros; contradiction.
Qed.

(** The result depends on nothing but the designator's own section of the request
    and the registered classes: neither on the attribute source nor on another
    section. *)
Theorem C15_own_section_only : forall E1 E2 d r1 r2,
  dg_kind d <> DSubject ->
  en_classes E1 = en_classes E2 ->
  section_attributes (dg_kind d) r1 = section_attributes (dg_kind d) r2 ->
  eval_designator E1 d (CtxRequest r1) = eval_designator E2 d (CtxRequest r2).
Proof. exact eval_designator_section_only. Qed.

Theorem C15_missing_section : forall E d r,
  section_attributes (dg_kind d) r = None ->
  eval_designator E d (CtxRequest r) = Raise EAttributeError.
Proof. exact eval_designator_no_section. Qed.

(** The attribute source is not consulted either when it has state. *)
Theorem C15_no_queries : forall S d r w v w',
  dg_kind d <> DSubject ->
  eval_designator_s S d (CtxRequest r) w = (Ok v, w') -> w_log w' = w_log w.
Proof.
  intros S d r w v w' Hk H. apply eval_designator_s_queries in H.
  destruct (dg_kind d); try contradiction; rewrite app_nil_r in H; exact H.
Qed.

Example C15_hypotheses_met :
  section_attributes DResource sreq_pip = Some [sattr "url" [sstr "http://localhost/data"]] /\
  eval_designator sE (sdes DResource "url" true) (CtxRequest sreq_pip)
    = Ok (PBag (Some StringAV) [sstr "http://localhost/data"]) /\
  eval_designator sE (sdes DAction "action" true) sctx = Ok (PBag (Some StringAV) [sstr "read"]) /\
  eval_designator sE (sdes DEnvironment "action" false) sctx = Ok (PBag (Some StringAV) []) /\
  eval_designator sE (sdes DAction "action" false) (CtxRequest sreq_issuers)
    = Raise EAttributeError.
Proof. repeat split; vm_compute; reflexivity. Qed.

(** ** C16 *)
Theorem C16_must_be_present_designator : forall E d r attrs vs,
  en_pip E r d <> Raise EMissingAttributeError ->
  section_attributes (dg_kind d) r = Some attrs ->
  requested_values d attrs vs ->
  (eval_designator E d (CtxRequest r) = Raise EMissingAttributeError <->
   dg_mustBePresent d = true /\ vs = [] /\
   (dg_kind d = DSubject -> source_silent E d r)).
Proof. exact eval_designator_missing. Qed.

Theorem C16_empty_bag_when_not_required : forall E d r attrs,
  dg_mustBePresent d = false ->
  section_attributes (dg_kind d) r = Some attrs ->
  requested_values d attrs [] ->
  (dg_kind d = DSubject -> rq_ctxHandler r = None) ->
  eval_designator E d (CtxRequest r) = Ok (PBag (class_for E (dg_dataType d)) []).
Proof.
  intros E d r attrs Hm Hs Hr Hh.
  destruct (eval_designator_exact E d r attrs [] Hh Hs Hr) as (H & _).
  apply H; [left; reflexivity|right; exact Hm].
Qed.

Theorem C16_must_be_present_selector : forall E s r dt cls n texts,
  rq_selector r = Some n ->
  sl_dataType s = Some dt -> dict_get dt (en_classes E) = Some cls ->
  en_xpath E r (sl_path s) = Ok texts ->
  (eval_selector E s (CtxRequest r) = Raise EMissingAttributeError <->
   sl_mustBePresent s = Some true /\ texts = []) /\
  (texts = [] -> sl_mustBePresent s <> Some true ->
   eval_selector E s (CtxRequest r) = Ok (PBag (Some cls) [])).
Proof.
  intros E s r dt cls n texts H1 H2 H3 H4.
  rewrite (eval_selector_exact _ _ _ _ _ _ _ H1 H2 H3 H4).
  destruct texts as [|t texts].
  - simpl. destruct (sl_mustBePresent s) as [[|]|]; split; try split; intros; try tauto;
      try discriminate; try reflexivity; try (destruct H; discriminate); congruence.
  - split; [|discriminate]. split; [|intros []; discriminate].
    destruct (forallb (accepts cls) (t :: texts)); simpl; discriminate.
Qed.

Example C16_hypotheses_met :
  source_silent sE (sdes DSubject "none" true) sreq_pip /\
  eval_designator sE (sdes DSubject "none" true) (CtxRequest sreq_pip)
    = Raise EMissingAttributeError /\
  eval_designator sE (sdes DSubject "none" false) (CtxRequest sreq_pip)
    = Ok (PBag (Some StringAV) []) /\
  eval_selector (mkEnv sF STD_CLASS_MAP spip (fun _ _ => Ok []))
    (mkSelector (Some "//x") (Some (xs "string")) (Some true)) (CtxRequest sreq_pip)
    = Raise EMissingAttributeError.
Proof.
  split; [right; right; left; reflexivity|]. repeat split; vm_compute; reflexivity.
Qed.

(** ** C17 *)
Theorem C17_source_only_adds : forall E d r et bag vs,
  dg_kind d = DSubject ->
  eval_designator E d (CtxRequest r) = Ok (PBag et bag) ->
  requested_values d (concat (map sb_attributes (rq_subjects r))) vs ->
  subseq vs bag /\
  forall v, In v bag -> In v vs \/
    exists l, rq_ctxHandler r <> None /\ en_pip E r d = Ok (Some l) /\ In (PAttr v) l.
Proof. exact eval_designator_pip. Qed.

(** The handler is consulted exactly once per subject, with this request and
    designator, whatever it answers and remembers. *)
Theorem C17_one_query_per_subject : forall S d r w v w',
  eval_designator_s S d (CtxRequest r) w = (Ok v, w') ->
  w_log w' = w_log w ++
    match dg_kind d, rq_ctxHandler r with
    | DSubject, Some _ => repeat (r, d) (length (rq_subjects r))
    | _, _ => []
    end.
Proof. exact eval_designator_s_queries. Qed.

Example C17_hypotheses_met :
  eval_designator sE d_role (CtxRequest sreq_pip) =
    Ok (PBag (Some StringAV)
          [sstr "staff"; sstr "guest"; sstr "admin"; sstr "operator"]) /\
  requested_values d_role (concat (map sb_attributes (rq_subjects sreq_pip)))
    [sstr "staff"; sstr "guest"; sstr "operator"].
Proof. split; [vm_compute; reflexivity|apply requested_wanted; vm_compute; reflexivity]. Qed.

(** A source that gives a different answer at each query. *)
Definition sS : senv :=
  mkSenv sF STD_CLASS_MAP
    (fun h r d => match h with
                  | [] => Ok (Some [PAttr (sstr "first")])
                  | [_] => Ok (Some [PAttr (sstr "second")])
                  | _ => Raise (EOther 9)
                  end)
    (fun _ _ => Ok [NStr "a"]).
Definition w0 : world := mkWorld [] [] [].
Example C17_queries_hypotheses_met :
  exists w', eval_designator_s sS d_role (CtxRequest sreq_pip) w0 =
    (Ok (PBag (Some StringAV)
       [sstr "staff"; sstr "guest"; sstr "first"; sstr "operator"; sstr "second"]), w') /\
    w_log w' = [(sreq_pip, d_role); (sreq_pip, d_role)].
Proof. eexists. split; vm_compute; reflexivity. Qed.

(** ** C18 *)
Theorem C18_designator_bag_homogeneous : forall E d c et vs,
  eval_designator E d c = Ok (PBag et vs) ->
  all_of_type E (dg_dataType d) vs.
Proof.
  intros E d c et vs H. apply eval_designator_ok_bag in H.
  destruct H as (bag & Heq & Hi & _). injection Heq as -> ->.
  apply instances_all_of_type. exact Hi.
Qed.

Theorem C18_designator_value_is_bag : forall E d c v,
  eval_designator E d c = Ok v -> exists et vs, v = PBag et vs.
Proof.
  intros E d c v H. apply eval_designator_ok_bag in H.
  destruct H as (bag & -> & _). eauto.
Qed.

Theorem C18_selector_bag_homogeneous : forall E s c et vs,
  eval_selector E s c = Ok (PBag et vs) -> all_of_type E (sl_dataType s) vs.
Proof.
  intros E s c et vs H. apply eval_selector_ok_inv in H.
  destruct H as (r & n & dt & cls & texts & -> & _ & Hdt & Hc & _ & _ & Heq & _).
  injection Heq as -> ->. right. exists dt, cls. split; [exact Hdt|]. split; [exact Hc|].
  intros v Hv. apply in_map_iff in Hv. destruct Hv as (t & <- & _).
  unfold av_isinstance, issubclass. simpl. rewrite class_eqb_refl. reflexivity.
Qed.

(** A value of another class is rejected with TypeError: one in the request ... *)
Theorem C18_request_value_rejected : forall E d r attrs vs,
  (dg_kind d = DSubject -> rq_ctxHandler r = None) ->
  section_attributes (dg_kind d) r = Some attrs ->
  requested_values d attrs vs ->
  ~ all_of_type E (dg_dataType d) vs ->
  eval_designator E d (CtxRequest r) = Raise ETypeError.
Proof.
  intros E d r attrs vs Hh Hs Hr Hn.
  destruct (eval_designator_exact E d r attrs vs Hh Hs Hr) as (_ & _ & H). auto.
Qed.

(** ... and one from the attribute source (for classes without further bases, such
    as the standard ones). *)
Theorem C18_source_value_rejected : forall E d r l x,
  dg_kind d = DSubject -> rq_ctxHandler r <> None -> rq_subjects r <> [] ->
  en_pip E r d = Ok (Some l) -> In x l ->
  (forall v, x = PAttr v -> ac_bases (av_class v) = [] /\
                            ~ all_of_type E (dg_dataType d) [v]) ->
  (forall s a v, In s (rq_subjects r) -> In a (sb_attributes s) -> In v (at_values a) ->
                 ac_bases (av_class v) = []) ->
  eval_designator E d (CtxRequest r) = Raise ETypeError.
Proof. exact eval_designator_source_rejected. Qed.

Definition sE_badpip : env :=
  mkEnv sF STD_CLASS_MAP (fun _ _ => Ok (Some [PAttr (sstr "x"); PAttr (sint 1)]))
    (fun _ _ => Ok []).
Example C18_hypotheses_met :
  eval_designator sE_badpip (sdes DSubject "none" false) (CtxRequest sreq_pip) = Raise ETypeError /\
  eval_designator sE_badpip (sdes DSubject "role" false) (CtxRequest sreq_pip) = Raise ETypeError /\
  ~ all_of_type sE_badpip (Some (xs "string")) [sint 1] /\
  (* an integer object labelled as string *)
  eval_designator sE (sdes DAction "a" false)
    (CtxRequest (mkRequest [] [] (Some [sattr "a" [sstr "x"; mkAV IntegerAV (xs "string") (NInt 1)]])
                   None None None)) = Raise ETypeError.
Proof.
  split; [vm_compute; reflexivity|]. split; [vm_compute; reflexivity|].
  split; [|vm_compute; reflexivity].
  intros H. apply instances_all_of_type in H. vm_compute in H. discriminate.
Qed.

(** ** C19 *)
Theorem C19_selector_texts : forall E s r dt cls n texts,
  rq_selector r = Some n ->
  sl_dataType s = Some dt -> dict_get dt (en_classes E) = Some cls ->
  en_xpath E r (sl_path s) = Ok texts ->
  ((forall t, In t texts -> native_isinstance t (ac_type cls) = Ok true) ->
   (texts <> [] \/ sl_mustBePresent s <> Some true) ->
   eval_selector E s (CtxRequest r) =
     Ok (PBag (Some cls) (map (fun t => mkAV cls dt t) texts))) /\
  ((exists t, In t texts /\ native_isinstance t (ac_type cls) <> Ok true) ->
   eval_selector E s (CtxRequest r) = Raise ETypeError).
Proof.
  intros E s r dt cls n texts H1 H2 H3 H4.
  rewrite (eval_selector_exact _ _ _ _ _ _ _ H1 H2 H3 H4). split.
  - intros Hall Hne.
    assert (Hf : forallb (accepts cls) texts = true).
    { apply forallb_forall. intros t Ht. unfold accepts. rewrite (Hall t Ht). reflexivity. }
    rewrite Hf. destruct texts as [|t texts]; simpl; [|reflexivity].
    destruct (sl_mustBePresent s) as [[|]|]; try reflexivity. destruct Hne; congruence.
  - intros (t & Ht & Hn).
    assert (Hf : forallb (accepts cls) texts = false).
    { apply Bool.not_true_is_false. intros Hf. rewrite forallb_forall in Hf.
      specialize (Hf t Ht). unfold accepts in Hf.
      destruct (native_isinstance t (ac_type cls)) as [[]|]; congruence. }
    rewrite Hf. reflexivity.
Qed.

Theorem C19_selector_errors : forall E s r,
  (rq_selector r = None -> eval_selector E s (CtxRequest r) = Raise EValueError) /\
  (rq_selector r <> None -> class_for E (sl_dataType s) = None ->
     eval_selector E s (CtxRequest r) = Raise EXMLParseError) /\
  (forall e, rq_selector r <> None -> class_for E (sl_dataType s) <> None ->
     en_xpath E r (sl_path s) = Raise e -> eval_selector E s (CtxRequest r) = Raise e).
Proof.
  intros E s r. unfold eval_selector. repeat split.
  - intros ->. reflexivity.
  - intros Hs Hc. destruct (rq_selector r); [|contradiction].
    destruct (sl_dataType s); [|reflexivity]. rewrite Hc. reflexivity.
  - intros e Hs Hc Hx. destruct (rq_selector r); [|contradiction].
    destruct (sl_dataType s); [|contradiction].
    destruct (class_for E (Some s0)); [|contradiction]. rewrite Hx. reflexivity.
Qed.

(** Texts are strings: a class that does not hold strings rejects them. *)
Example C19_hypotheses_met :
  eval_selector sE (mkSelector (Some "//x") (Some (xs "anyURI")) None) (CtxRequest sreq_pip) =
    Ok (PBag (Some AnyURIAV)
          [mkAV AnyURIAV (xs "anyURI") (NStr "a"); mkAV AnyURIAV (xs "anyURI") (NStr "b")]) /\
  eval_selector sE (mkSelector (Some "//x") (Some (xs "integer")) None) (CtxRequest sreq_pip)
    = Raise ETypeError /\
  eval_selector sE (mkSelector (Some "//x") (Some "unknown") None) (CtxRequest sreq_pip)
    = Raise EXMLParseError /\
  eval_selector sE (mkSelector (Some "//x") (Some (xs "anyURI")) None) sctx = Raise EValueError.
Proof. repeat split; vm_compute; reflexivity. Qed.

(** ** C20 *)
Theorem C20_apply_strict_left_to_right : forall E c x v,
  eval_expr E c x = Ok v <-> evals E c x v.
Proof. exact eval_expr_evals. Qed.

Theorem C20_apply_first_error : forall E c x e,
  eval_expr E c x = Raise e <-> fails E c x e.
Proof. exact eval_expr_fails. Qed.

(** Each application of the expression is performed exactly once, arguments
    first and left to right. *)
Theorem C20_each_application_once : forall S c x w v w',
  history_independent S ->
  cache_ok (sn_fenv S) (w_cache w) ->
  eval_expr_s S c x w = (Ok v, w') ->
  exists tr, evals_trace (env_of S []) c x v tr /\ w_applied w' = w_applied w ++ tr.
Proof. intros S c x w v w' Hi Hw H. eapply eval_expr_s_trace; eauto. Qed.

Definition sS0 : senv := mkSenv sF STD_CLASS_MAP (fun _ => spip) (fun _ _ => Ok [NStr "a"]).
Example C20_hypotheses_met :
  history_independent sS0 /\
  exists w', eval_expr_s sS0 sctx x_false w0 = (Ok (py_bool false), w') /\
    w_applied w' =
      [(FnOneAndOnly StringAV, [PBag (Some StringAV) [sstr "read"]]);
       (FnEqual StringAV, [PAttr (sstr "read"); PAttr (sstr "read")]);
       (FnNot, [py_bool true])].
Proof.
  split; [intros h r d; reflexivity|]. eexists. split; vm_compute; reflexivity.
Qed.
Example C20_error_example :
  eval_expr sE sctx
    (XApply None (Some (FnCustom "exit"))
       [XDesignator (sdes DAction "none" true); XApply None None []])
    = Raise EMissingAttributeError /\
  eval_expr sE sctx (XApply None (Some (FnCustom "exit")) [XApply None None [x_read]])
    = Raise EAttributeError.
Proof. split; vm_compute; reflexivity. Qed.

Print Assumptions C14_subject_designator_exact.
Print Assumptions C14_requested_values_defined.
Print Assumptions C14_requested_values_members.
Print Assumptions C15_other_designators_exact.
Print Assumptions C15_own_section_only.
Print Assumptions C15_missing_section.
Print Assumptions C15_no_queries.
Print Assumptions C16_must_be_present_designator.
Print Assumptions C16_empty_bag_when_not_required.
Print Assumptions C16_must_be_present_selector.
Print Assumptions C17_source_only_adds.
Print Assumptions C17_one_query_per_subject.
Print Assumptions C18_designator_bag_homogeneous.
Print Assumptions C18_designator_value_is_bag.
Print Assumptions C18_selector_bag_homogeneous.
Print Assumptions C18_request_value_rejected.
Print Assumptions C18_source_value_rejected.
Print Assumptions C19_selector_texts.
Print Assumptions C19_selector_errors.
Print Assumptions C20_apply_strict_left_to_right.
Print Assumptions C20_apply_first_error.
Print Assumptions C20_each_application_once.
