(** Properties C27 to C29: function identifiers and function maps. *)
From Verif Require SettersFacts.
From Verif Require Import FuncMap SpecFuncMap FuncMapFacts FuncMapFacts2 FuncErrorsFacts.

(** ** C27 *)

(** Whatever string is resolved, with any registry of data types: a function is only
    obtained if the identifier names it. *)
Theorem C27_sound : forall cm id f,
  resolve cm id = Ok (FImpl f) -> names_function cm id f.
Proof. exact resolve_sound. Qed.

(** Every identifier of the form namespace, type, "-", family resolves to the
    function of that family for that type. *)
Theorem C27_complete : forall cm ns family mk t uri c,
  In (ns, family, mk) typed_families -> spells_type t uri -> dict_get uri cm = Some c ->
  resolve cm (ns ++ t ++ "-" ++ family) = Ok (FImpl (mk c)).
Proof. exact resolve_complete. Qed.

Theorem C27_complete_fixed : forall cm,
  resolve cm (v1 "and") = Ok (FImpl FnAnd) /\
  resolve cm (v1 "not") = Ok (FImpl FnNot) /\
  resolve cm (v1 "round") = Ok (FImpl FnRound) /\
  resolve cm (v1 "string-regexp-match") = Ok (FImpl (FnRegexp StringAV)).
Proof.
  intros cm. refine (conj _ (conj _ (conj _ _))); vm_compute; reflexivity.
Qed.

(** A family name with something that is not the name of a type raises TypeError. *)
Theorem C27_unknown_type : forall cm ns family mk t,
  In (ns, family, mk) typed_families -> t <> "" ->
  has_char "-" t = false -> has_char ":" t = false ->
  (forall uri, ~ spells_type t uri) ->
  resolve cm (ns ++ t ++ "-" ++ family) = Raise ETypeError.
Proof. exact resolve_unknown_type. Qed.

(** A family name with no type at all raises IndexError. *)
Theorem C27_no_type : forall cm ns family mk, In (ns, family, mk) typed_families ->
  resolve cm (ns ++ "-" ++ family) = Raise EIndexError.
Proof. exact resolve_no_type. Qed.

(** There are no other exceptions; that for an unsupported standard function is not
    among them. *)
Theorem C27_raises : forall cm id e, resolve cm id = Raise e ->
  e = EFunctionMapConfigError \/ (e = EUnsupportedFunctionError /\ ~ In id FUNCTION_NAMES) \/
  e = ETypeError \/ e = EIndexError.
Proof. exact resolve_raises. Qed.

(** The configuration error is raised exactly outside the two namespaces. *)
Theorem C27_config_error : forall cm id,
  resolve cm id = Raise EFunctionMapConfigError <->
  (startswith V1_NS id = false /\ startswith V2_NS id = false).
Proof. exact resolve_config_error. Qed.

(** The standard catalogue: exactly the listed identifiers have an implementation,
    the others are marked as not implemented; none raises. *)
Theorem C27_catalogue : forall id, In id FUNCTION_NAMES ->
  (In id IMPLEMENTED /\ exists f, resolve STD_CLASS_MAP id = Ok (FImpl f)) \/
  (~ In id IMPLEMENTED /\ resolve STD_CLASS_MAP id = Ok FNotImplemented).
Proof. exact catalogue. Qed.

(** The identifiers that count as standard are those of the families. *)
Theorem C27_standard : forall id, In id FUNCTION_NAMES <-> In id CATALOGUE.
Proof.
  assert (H : forall a b, forallb (fun x => str_in x b) a = true -> forall id : string, In id a -> In id b).
  { intros a b H id Hi. apply SettersFacts.str_in_iff. rewrite forallb_forall in H. exact (H id Hi). }
  intros id. split; apply H; vm_compute; reflexivity.
Qed.

Theorem C27_implemented_standard : forall id, In id IMPLEMENTED -> In id FUNCTION_NAMES.
Proof. exact implemented_standard. Qed.

Example C27_string_equal :
  resolve STD_CLASS_MAP (v1 "string-equal") = Ok (FImpl (FnEqual StringAV)) /\
  resolve STD_CLASS_MAP (v2 "url-string-concatenate") = Ok (FImpl (FnConcat AnyURIAV)) /\
  resolve STD_CLASS_MAP (v1 "xpath-node-match") = Ok (FImpl (FnMatch StringAV)) /\
  resolve STD_CLASS_MAP (v1 "String-bag") = Ok (FImpl (FnBag StringAV)) /\
  resolve STD_CLASS_MAP (v1 "nonsense-bag") = Raise ETypeError /\
  resolve STD_CLASS_MAP (v1 "-bag") = Raise EIndexError /\
  resolve STD_CLASS_MAP (v1 "logical-and") = Raise EUnsupportedFunctionError /\
  resolve STD_CLASS_MAP (v2 "uri-string-concatenate") = Ok FNotImplemented /\
  resolve STD_CLASS_MAP "urn:example:function" = Raise EFunctionMapConfigError.
Proof. repeat split; vm_compute; reflexivity. Qed.

Example C27_spells : spells_type "dateTime" (xs "dateTime") /\ dict_get (xs "dateTime") STD_CLASS_MAP <> None.
Proof.
  split; [|vm_compute; discriminate].
  apply (spells_plain _ "DateTime" _ NTDateTime); [cbn; tauto|].
  exists "d"%char, "ateTime". split; reflexivity.
Qed.

Example C27_not_a_type : forall uri, ~ spells_type "colour" uri.
Proof.
  intros uri H. inversion H as [t name u nt Hin (c & rest & He & Hn)| |].
  injection He as <- <-. subst name. vm_compute in Hin.
  repeat (destruct Hin as [Hin|Hin]; [discriminate|]). destruct Hin.
Qed.

(** Segments between the namespace and the last colon are ignored. *)
Example C27_extra_segments :
  resolve STD_CLASS_MAP (v1 "no:such:string-equal") = Ok (FImpl (FnEqual StringAV)).
Proof. vm_compute. reflexivity. Qed.

(** ** C28 *)

(** After any history of operations on a function map, an identifier for which no
    custom function is installed is resolved as by a new map. *)
Theorem C28_getitem_transparent : forall cm ops id,
  last_custom id ops = None ->
  fst (fm_getitem cm id (fm_run cm ops fm_new)) = resolve cm id.
Proof. intros cm ops id H. rewrite lookup_after, H. reflexivity. Qed.

Theorem C28_get_transparent : forall cm ops id,
  last_custom id ops = None ->
  fst (fm_get cm id (fm_run cm ops fm_new)) =
  match resolve cm id with Ok c => Ok (Some c) | Raise e => Raise e end.
Proof. intros cm ops id H. rewrite get_after, H. reflexivity. Qed.

(** An identifier that no operation puts or deletes has no custom function. *)
Theorem C28_untouched : forall ops id,
  (forall o, In o ops ->
     match o with FLoadCustom i _ | FSetItem i _ => i <> id | _ => True end) ->
  last_custom id ops = None.
Proof. exact untouched_no_custom. Qed.

Example C28_history :
  last_custom (v1 "string-equal")
    [FLoadAll; FGet (v1 "string-equal"); FGet "junk"; FLoadCustom "urn:mine" (FSObject (FOClass (FImpl FnAnd)));
     FDelItem (v1 "string-equal")] = None /\
  fst (fm_get STD_CLASS_MAP (v1 "string-equal") (fm_run STD_CLASS_MAP
    [FLoadAll; FGet (v1 "string-equal"); FGet "junk"; FLoadCustom "urn:mine" (FSObject (FOClass (FImpl FnAnd)));
     FDelItem (v1 "string-equal")] fm_new)) = Ok (Some (FImpl (FnEqual StringAV))).
Proof. split; vm_compute; reflexivity. Qed.

(** ** C29 *)

Theorem C29_refused : forall id src m, In id FUNCTION_NAMES ->
  fm_load_custom id src m = (Raise EOverwritingStdFunctionError, m).
Proof. exact load_custom_std. Qed.

(** With any history of lookups, loads, custom loads and deletions a standard
    identifier resolves to the built in function. *)
Theorem C29_standard_kept : forall cm ops id,
  In id FUNCTION_NAMES -> Forall no_assignment ops ->
  fst (fm_getitem cm id (fm_run cm ops fm_new)) = resolve cm id /\
  fst (fm_get cm id (fm_run cm ops fm_new)) =
    match resolve cm id with Ok c => Ok (Some c) | Raise e => Raise e end.
Proof.
  intros cm ops id Hin Hops. pose proof (std_no_custom ops id Hin Hops) as H.
  split; [apply C28_getitem_transparent, H|apply C28_get_transparent, H].
Qed.

(** A custom identifier resolves to the function last installed for it. *)
Theorem C29_custom_last : forall cm before id src c after,
  ~ In id FUNCTION_NAMES -> yields src = Some c ->
  (forall o, In o after ->
     match o with
     | FLoadCustom i s => i = id -> yields s = None
     | FSetItem i v => i = id -> v = None
     | FDelItem i => i <> id
     | _ => True
     end) ->
  fst (fm_getitem cm id (fm_run cm (before ++ FLoadCustom id src :: after) fm_new)) = Ok c /\
  fst (fm_get cm id (fm_run cm (before ++ FLoadCustom id src :: after) fm_new)) = Ok (Some c).
Proof.
  intros cm before id src c after Hn Hy Ha.
  pose proof (custom_last before id src c after Hn Hy Ha) as H.
  rewrite lookup_after, get_after, H. split; reflexivity.
Qed.

(** Direct item assignment is not protected: it replaces a standard function. *)
Theorem C29_assignment_refuted :
  exists id f, In id FUNCTION_NAMES /\
    fst (fm_getitem STD_CLASS_MAP id (fm_run STD_CLASS_MAP [FSetItem id (Some (FImpl f))] fm_new))
    <> resolve STD_CLASS_MAP id.
Proof.
  exists (v1 "string-equal"), FnAnd. split; [cbn; tauto|]. vm_compute. discriminate.
Qed.

Example C29_case :
  ~ In "urn:mine" FUNCTION_NAMES /\
  fst (fm_get STD_CLASS_MAP "urn:mine" (fm_run STD_CLASS_MAP
    ([FLoadCustom "urn:mine" (FSObject (FOClass (FImpl FnAnd)))] ++
     FLoadCustom "urn:mine" (FSPath (FOClass (FImpl FnNot))) ::
     [FLoadCustom "urn:mine" (FSObject FOBad); FGetItem "urn:mine"]) fm_new)) = Ok (Some (FImpl FnNot)).
Proof.
  split; [|vm_compute; reflexivity].
  assert (H : str_in "urn:mine" FUNCTION_NAMES = false) by (vm_compute; reflexivity).
  intros Hin. unfold str_in in H.
  assert (existsb (String.eqb "urn:mine") FUNCTION_NAMES = true).
  { apply existsb_exists. exists "urn:mine". split; [exact Hin|reflexivity]. }
  congruence.
Qed.

Print Assumptions C27_sound.
Print Assumptions C27_complete.
Print Assumptions C27_complete_fixed.
Print Assumptions C27_unknown_type.
Print Assumptions C27_no_type.
Print Assumptions C27_raises.
Print Assumptions C27_config_error.
Print Assumptions C27_catalogue.
Print Assumptions C27_standard.
Print Assumptions C27_implemented_standard.
Print Assumptions C28_getitem_transparent.
Print Assumptions C28_get_transparent.
Print Assumptions C28_untouched.
Print Assumptions C29_refused.
Print Assumptions C29_standard_kept.
Print Assumptions C29_custom_last.
Print Assumptions C29_assignment_refuted.
