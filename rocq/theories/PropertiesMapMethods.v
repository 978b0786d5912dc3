(** C101: the function map under every method of a mapping. *)
From Verif Require Import SpecMapMethods MapMethodsFacts SettersFacts.
Open Scope string_scope.

(** The answers of any sequence of calls are the expected ones. *)
Theorem C101_answers : forall cm h,
  exists rs m, mm_run cm h fm_new = Some (rs, m) /\ rs = fst (expected_all cm h []).
Proof.
  intros cm h. destruct (run_does cm h fm_new (kept_new cm)) as (rs & m & H & E & _).
  exists rs, m. split; [exact H|]. change (fm_map fm_new) with (@nil (string * fclass)) in E.
  rewrite E. reflexivity.
Qed.

(** What an identifier gives is what was last put under it and not taken away, and
    otherwise what it gives in a new map. *)
Theorem C101_looked_up : forall cm h rs m id, mm_run cm h fm_new = Some (rs, m) ->
  fst (fm_getitem cm id m) = match put_by id h rs with Some c => Ok c | None => resolve cm id end.
Proof. exact looked_up. Qed.

(** Calls that only ask change what no identifier gives. *)
Theorem C101_asking : forall cm h asked rs ra m m' id, forallb only_asks asked = true ->
  mm_run cm h fm_new = Some (rs, m) -> mm_run cm (h ++ asked) fm_new = Some (ra, m') ->
  fst (fm_getitem cm id m') = fst (fm_getitem cm id m).
Proof. exact asking. Qed.

(** [setdefault] and [get] with a default look up, and the default is never used. *)
Theorem C101_defaults_unused : forall cm h rs m id v, mm_run cm h fm_new = Some (rs, m) ->
  mm_step cm (MSetDefault id v) m = mm_step cm (MLook id) m /\
  mm_step cm (MGet id [v]) m = mm_step cm (MLook id) m.
Proof.
  intros cm h rs m id v H. pose proof (run_kept cm h rs m H) as K.
  split; [apply setdefault_asks, K|apply get_asks, K].
Qed.

(** [pop] of an identifier which the map does not hold gives what a lookup gives, with
    any default, and leaves a map with the same answers. *)
Theorem C101_pop_absent : forall cm h rs m id d later, mm_run cm h fm_new = Some (rs, m) ->
  mm_step cm (MIn id) m = Some (Ok (GTruth false), m) ->
  exists m', mm_step cm (MPop id d) m = Some (answer (fst (fm_getitem cm id m)), m') /\
    option_map fst (mm_run cm later m') = option_map fst (mm_run cm later m).
Proof. exact popped_absent. Qed.

(** After [clear] the map answers like a new one. *)
Theorem C101_cleared : forall cm h rs m later, mm_run cm (h ++ [MClear]) fm_new = Some (rs, m) ->
  option_map fst (mm_run cm later m) = option_map fst (mm_run cm later fm_new).
Proof. exact cleared. Qed.

(** [id in m] does not tell whether [m[id]] gives a class; [update] replaces standard
    functions. *)
Theorem C101_contains_refuted : exists cm id c,
  mm_step cm (MIn id) fm_new = Some (Ok (GTruth false), fm_new) /\
  fst (fm_getitem cm id fm_new) = Ok c.
Proof.
  exists STD_CLASS_MAP, (v1 "string-equal"), (FImpl (FnEqual StringAV)).
  split; vm_compute; reflexivity.
Qed.
Theorem C101_update_standard_refuted : exists id c rs m,
  In id FUNCTION_NAMES /\
  mm_run STD_CLASS_MAP [MUpdate [(id, Some c)]] fm_new = Some (rs, m) /\
  fst (fm_getitem STD_CLASS_MAP id m) <> resolve STD_CLASS_MAP id.
Proof.
  exists (v1 "string-equal"), (FImpl FnAnd), [Ok GNone], (mkFmap [(v1 "string-equal", FImpl FnAnd)] []).
  split; [apply SettersFacts.str_in_iff; vm_compute; reflexivity|]. split; [vm_compute; reflexivity|]. vm_compute. discriminate.
Qed.

(** A history with most of the calls. *)
Definition eq_id : string := v1 "string-equal".
Definition mine : fclass := FImpl (FnCustom "mine").
Example C101_case :
  option_map fst (mm_run STD_CLASS_MAP
    [MIn eq_id; MGet eq_id [None]; MIn eq_id; MSetDefault "urn:mine" (Some mine);
     MLoadCustom "urn:mine" (FSObject (FOClass mine)); MKeys; MSetDefault "urn:mine" None;
     MPop (v1 "and") None; MLen; MPopItem; MItems; MUpdate [("a", Some mine); ("b", None); ("c", Some mine)];
     MKeys; MGet "z" [None; Some mine]; MPop "z" (Some None); MDel eq_id; MClear; MLen; MPopItem] fm_new) =
  Some
    [Ok (GTruth false); Ok (GClass (FImpl (FnEqual StringAV))); Ok (GTruth true);
     Raise EFunctionMapConfigError; Ok GNone; Ok (GKeys [eq_id; "urn:mine"]); Ok (GClass mine);
     Ok (GClass (FImpl FnAnd)); Ok (GNumber 2); Ok (GItem eq_id (FImpl (FnEqual StringAV)));
     Ok (GItems [("urn:mine", mine)]); Raise ETypeError; Ok (GKeys ["urn:mine"; "a"]);
     Ok (GClass mine); Raise EFunctionMapConfigError; Raise EKeyError; Ok GNone; Ok (GNumber 0);
     Raise EKeyError].
Proof. vm_compute. reflexivity. Qed.

Print Assumptions C101_answers.
Print Assumptions C101_looked_up.
Print Assumptions C101_asking.
Print Assumptions C101_defaults_unused.
Print Assumptions C101_pop_absent.
Print Assumptions C101_cleared.
Print Assumptions C101_contains_refuted.
Print Assumptions C101_update_standard_refuted.
