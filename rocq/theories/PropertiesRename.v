(** C97: consistent renaming. *)
From Verif Require Import Eval SpecStandard SpecRename Sample RenameFacts.
Local Open Scope list_scope.

(** ** C97 *)

(** Attribute ids and issuers replaced throughout, different ones by different
    ones: every policy decides as before, or raises as before. *)
Theorem C97_names : forall ids issuers E E' r p,
  one_to_one ids -> one_to_one issuers ->
  answers_renamed ids issuers (fun s => s) E E' r ->
  (forall path, en_xpath E' (rn_request ids issuers (fun s => s) r) path = en_xpath E r path) ->
  policy_eval E' (CtxRequest (rn_request ids issuers (fun s => s) r))
    (rn_policy ids issuers (fun s => s) p) = policy_eval E (CtxRequest r) p.
Proof.
  intros ids issuers E E' r p Hi Hs HE HX.
  apply (policy_one ids issuers (fun s => s) Hi Hs (fun s t H => H) E E' r HE (fun _ => true) true).
  - intros f args _. rewrite same_result. f_equal.
    rewrite (map_ext _ (fun v => v)); [apply map_id|apply same_pyval].
  - intros _ s. rewrite same_result. unfold eval_selector. cbn [rn_request rq_selector].
    destruct (rq_selector r); [|reflexivity]. destruct (sl_dataType s) as [dt|]; [|reflexivity].
    rewrite (class_one ids issuers (fun s => s) E E' r HE).
    destruct (class_for E (Some dt)); [|reflexivity].
    rewrite <- HX. reflexivity.
  - intros x _. apply all_fit.
  - intros m _. split; auto.
Qed.

(** Also the strings in values, where they are only compared. *)
Theorem C97_values : forall ids issuers strings E E' r p,
  one_to_one ids -> one_to_one issuers -> one_to_one strings ->
  answers_renamed ids issuers strings E E' r -> policy_compares p ->
  policy_eval E' (CtxRequest (rn_request ids issuers strings r))
    (rn_policy ids issuers strings p) = policy_eval E (CtxRequest r) p.
Proof.
  intros ids issuers strings E E' r p Hi Hs Hv HE (Hx & Hm).
  apply (policy_one ids issuers strings Hi Hs Hv E E' r HE comparing false).
  - intros f args Hf. now apply comparing_one.
  - discriminate.
  - intros x H. apply compares_fits. auto.
  - intros m H. destruct (Hm m H) as (H1 & H2). split; [exact H1|]. tauto.
Qed.

(** Conditions: the value is that of the original, renamed. *)
Theorem C97_expression : forall ids issuers strings E E' r x,
  one_to_one ids -> one_to_one issuers -> one_to_one strings ->
  answers_renamed ids issuers strings E E' r -> only_compares x = true ->
  eval_expr E' (CtxRequest (rn_request ids issuers strings r)) (rn_expr ids issuers strings x) =
  match eval_expr E (CtxRequest r) x with
  | Ok v => Ok (rn_pyval strings v)
  | Raise e => Raise e
  end.
Proof.
  intros ids issuers strings E E' r x Hi Hs Hv HE Hx.
  apply (expr_one ids issuers strings Hi Hs Hv E E' r HE comparing false).
  - intros f args Hf. now apply comparing_one.
  - discriminate.
  - now apply compares_fits.
Qed.

(** ** Where renaming shows *)

Definition prefixed (s : string) : string := ("urn:" ++ s)%string.
Lemma prefixed_one : one_to_one prefixed.
Proof. intros s t H. now injection H. Qed.
Lemma same_one : one_to_one (fun s => s).
Proof. intros s t H. exact H. Qed.

(** The same data source, without answers. *)
Definition rE : env := mkEnv sF STD_CLASS_MAP (fun _ _ => Ok None) (fun _ _ => Ok []).
Lemma rE_renamed : forall f g h r, answers_renamed f g h rE rE r.
Proof. intros f g h r. split; [reflexivity|]. split; [reflexivity|]. reflexivity. Qed.

(** Two ids made one. *)
Theorem C97_merged_refuted : exists ids E r p,
  answers_renamed ids (fun s => s) (fun s => s) E E r /\ policy_compares p /\
  policy_eval E (CtxRequest r) p = Ok NotApplicable /\
  policy_eval E (CtxRequest (rn_request ids (fun s => s) (fun s => s) r))
    (rn_policy ids (fun s => s) (fun s => s) p) = Ok Permit.
Proof.
  exists (fun _ => "x"), rE, sreq, (spol None PermitOverrides
    [srule EffPermit (Some (stgt [[smatch (FnEqual StringAV) "eve" (sdes DSubject "role" false)]] [] [])) None]).
  split; [apply rE_renamed|]. split; [|split; vm_compute; reflexivity].
  split.
  - intros x (r & [<-|[]] & Hx). discriminate.
  - intros m [(t & [] & _)|(r & t & [<-|[]] & Ht & Hm)]. injection Ht as <-.
    destruct Hm as [<-|[]]. split; [intros f [= <-]; reflexivity|left; discriminate].
Qed.

(** A regular expression looks into strings. *)
Theorem C97_regexp_refuted : exists strings E r p,
  one_to_one strings /\ answers_renamed (fun s => s) (fun s => s) strings E E r /\
  policy_eval E (CtxRequest r) p = Ok NotApplicable /\
  policy_eval E (CtxRequest (rn_request (fun s => s) (fun s => s) strings r))
    (rn_policy (fun s => s) (fun s => s) strings p) = Ok Permit.
Proof.
  exists (fun s => if String.eqb s "eve" then "" else if String.eqb s "" then "eve" else s),
    rE, sreq, (spol None PermitOverrides
    [srule EffPermit (Some (stgt [[smatch (FnRegexp StringAV) "eve" (sdes DSubject "role" false)]] [] [])) None]).
  split; [|split; [apply rE_renamed|split; vm_compute; reflexivity]].
  intros s t.
  destruct (String.eqb s "eve") eqn:S1; destruct (String.eqb t "eve") eqn:T1;
  destruct (String.eqb s "") eqn:S2; destruct (String.eqb t "") eqn:T2;
    rewrite ?String.eqb_eq, ?String.eqb_neq in *; subst; congruence.
Qed.

(** ** A case *)

Definition rp : policybase :=
  sset (Some (stgt [[m_staff]; [m_admin]] [] [[m_read]])) DenyOverrides
    [spol None FirstApplicable [r_na; srule EffPermit None (Some x_read)]].

Example C97_case :
  policy_compares rp /\
  rn_policy prefixed (fun s => s) prefixed rp <> rp /\
  rn_request prefixed (fun s => s) prefixed sreq <> sreq /\
  policy_eval rE sctx rp = Ok Permit /\
  policy_eval rE (CtxRequest (rn_request prefixed (fun s => s) prefixed sreq))
    (rn_policy prefixed (fun s => s) prefixed rp) = Ok Permit /\
  policy_eval rE (CtxRequest (rn_request prefixed (fun s => s) prefixed sreq)) rp = Ok NotApplicable.
Proof.
  split; [|split; [discriminate|split; [discriminate|
    split; [vm_compute; reflexivity|split; vm_compute; reflexivity]]]].
  split.
  - intros x (r & Hr & Hx). repeat (destruct Hr as [<-|Hr]; [first [discriminate Hx|injection Hx as <-; reflexivity]|]).
    destruct Hr.
  - intros m Hm.
    assert (K : In m [m_staff; m_admin; m_read]).
    { destruct Hm as [(t & Ht & Hi)|(r & t & Hr & Ht & Hi)].
      - repeat (destruct Ht as [<-|Ht]; [repeat (destruct Hi as [<-|Hi]; [simpl; tauto|]); destruct Hi|]).
        destruct Ht.
      - repeat (destruct Hr as [<-|Hr];
          [first [discriminate Ht|injection Ht as <-; repeat (destruct Hi as [<-|Hi]; [simpl; tauto|]); destruct Hi]|]).
        destruct Hr. }
    repeat (destruct K as [<-|K]; [split; [intros f [= <-]; reflexivity|left; discriminate]|]). destruct K.
Qed.

Print Assumptions C97_names.
Print Assumptions C97_values.
Print Assumptions C97_expression.
Print Assumptions C97_merged_refuted.
Print Assumptions C97_regexp_refuted.
