(** Property C74: one function map used by several threads. *)
From Coq Require Import Lia.
From Verif Require Import FuncMap FuncMapThreads SpecFuncMap SpecThreads SpecFuncMapThreads
  FuncMapFacts FuncMapFacts2 FuncMapThreadsFacts.

(** ** C74 *)

(** Whatever else the threads do and in whatever order their steps happen: a lookup of
    an identifier that no thread installs or deletes gives what it gives when no
    threads are running. *)
Theorem C74_lookup : forall cm d before threads sched i j id o r,
  ~ deleted_by_some threads id -> (forall c, ~ installed_by_some threads id c) ->
  o = FGetItem id \/ o = FGet id ->
  outcome_m cm (S d) before threads sched i j o r ->
  r = match fst (fm_getitem cm id (fm_run cm before fm_new)) with
      | Ok c => Ok (Some c)
      | Raise e => Raise e
      end.
Proof.
  intros cm d before threads sched i j id o r Hd Hi Ho H.
  pose proof (outcome_good cm d before threads id Hd sched i j o r H) as G.
  rewrite lookup_after. fold (expected cm before id).
  assert (K : (exists c, r = Ok (Some c) /\ may_find cm before threads id c) \/
              fails cm id (last_custom id before = None) r).
  { destruct Ho as [->| ->]; apply G; reflexivity. }
  destruct K as [(c & -> & [Hc|Hc])|(e & -> & Hr & Hp)].
  - rewrite Hc. reflexivity.
  - exfalso. exact (Hi c Hc).
  - unfold expected. rewrite Hp, Hr. reflexivity.
Qed.

(** Standard identifiers, if no thread assigns or deletes the item itself: always the
    built in function, also while custom functions are loaded, under any names. *)
Theorem C74_standard : forall cm d before threads sched i j id o r,
  In id FUNCTION_NAMES -> Forall no_assignment before ->
  (forall ops, In ops threads -> ~ In (FDelItem id) ops /\ forall v, ~ In (FSetItem id v) ops) ->
  o = FGetItem id \/ o = FGet id ->
  outcome_m cm (S d) before threads sched i j o r ->
  r = match resolve cm id with Ok c => Ok (Some c) | Raise e => Raise e end.
Proof.
  intros cm d before threads sched i j id o r Hin Hb Ht Ho H.
  rewrite (C74_lookup cm d before threads sched i j id o r); [| | |exact Ho|exact H].
  - rewrite lookup_after, (std_no_custom before id Hin Hb). reflexivity.
  - intros (ops & Hops & Hdel). exact (proj1 (Ht ops Hops) Hdel).
  - intros c (ops & o' & Hops & Ho' & Hc). destruct o'; cbn in Hc; try contradiction.
    + destruct Hc as (_ & Hn & _). contradiction.
    + destruct Hc as (-> & ->). exact (proj2 (Ht ops Hops) _ Ho').
Qed.

(** Identifiers that threads do install: a lookup gives what it would give without the
    threads or a class that one of them installs. *)
Theorem C74_installed_or_before : forall cm d before threads sched i j id o r,
  ~ deleted_by_some threads id -> o = FGetItem id \/ o = FGet id ->
  outcome_m cm (S d) before threads sched i j o r ->
  (exists c, r = Ok (Some c) /\ installed_by_some threads id c) \/
  r = match fst (fm_getitem cm id (fm_run cm before fm_new)) with
      | Ok c => Ok (Some c)
      | Raise e => Raise e
      end.
Proof.
  intros cm d before threads sched i j id o r Hd Ho H.
  pose proof (outcome_good cm d before threads id Hd sched i j o r H) as G.
  rewrite lookup_after. fold (expected cm before id).
  assert (K : (exists c, r = Ok (Some c) /\ may_find cm before threads id c) \/
              fails cm id (last_custom id before = None) r).
  { destruct Ho as [->| ->]; apply G; reflexivity. }
  destruct K as [(c & -> & [Hc|Hc])|(e & -> & Hr & Hp)].
  - right. rewrite Hc. reflexivity.
  - left. exists c. auto.
  - right. unfold expected. rewrite Hp, Hr. reflexivity.
Qed.

(** loadFunction raises only what a lookup raises without the threads; loading a custom
    function and assigning an item have the outcome they have on a new map. *)
Theorem C74_other_operations : forall cm d before threads sched i j o r,
  outcome_m cm (S d) before threads sched i j o r ->
  match o with
  | FLoad id => ~ deleted_by_some threads id ->
      r = Ok None \/
      exists e, r = Raise e /\ fst (fm_getitem cm id (fm_run cm before fm_new)) = Raise e
  | FLoadCustom _ _ | FSetItem _ _ => r = one_outcome cm o fm_new
  | _ => True
  end.
Proof.
  intros cm d before threads sched i j o r H. destruct o as [id|id|id| |id src|id v|id]; try exact I.
  - intros Hd. pose proof (outcome_good cm d before threads id Hd sched i j _ r H) as G.
    destruct (G eq_refl) as [->|(e & -> & Hr & Hp)]; [auto|right].
    exists e. split; [reflexivity|]. rewrite lookup_after, Hp. exact Hr.
  - destruct (never_deleted threads) as [z Hz].
    exact (outcome_good cm d before threads z Hz sched i j _ r H).
  - destruct (never_deleted threads) as [z Hz].
    exact (outcome_good cm d before threads z Hz sched i j _ r H).
Qed.

(** Wherever in their operations the threads are or have been stopped for good: the map
    they leave resolves the identifier as before. *)
Theorem C74_stopped : forall cm d before threads sched id,
  ~ deleted_by_some threads id -> (forall c, ~ installed_by_some threads id c) ->
  fst (fm_getitem cm id (map_after cm (S d) before threads sched)) =
  fst (fm_getitem cm id (fm_run cm before fm_new)).
Proof.
  intros cm d before threads sched id Hd Hi.
  pose proof (lookup_after_schedule cm d before threads id Hd sched) as K.
  rewrite lookup_after. fold (expected cm before id).
  destruct (fst (fm_getitem cm id (map_after cm (S d) before threads sched))) as [c|e]; [|symmetry; exact K].
  destruct K as [K|K]; [symmetry; exact K|exfalso; exact (Hi c K)].
Qed.

(** Once a thread that installs a function under an identifier outside the two standard
    namespaces has finished, lookups give an installed function. *)
Theorem C74_installed : forall cm d before threads sched i ops rs o c id,
  ~ deleted_by_some threads id ->
  startswith V1_NS id = false -> startswith V2_NS id = false ->
  nth_error threads i = Some ops -> In o ops -> installs id o c ->
  finished_m cm (S d) before threads sched i rs ->
  exists c', fst (fm_getitem cm id (map_after cm (S d) before threads sched)) = Ok c' /\
    (installed_by_some threads id c' \/ last_custom id before = Some c').
Proof.
  intros cm d before threads sched i ops rs o c id Hd H1 H2 Hops Hin Hi Hf.
  destruct (finished_present cm d before threads id Hd sched i ops rs o c Hops Hin Hi Hf) as (c' & Hc & K).
  exists c'. split.
  - unfold fm_getitem. rewrite Hc. cbn. rewrite Hc. reflexivity.
  - destruct K as [K|K]; [right|left; exact K]. unfold expected in K.
    destruct (last_custom id before); [congruence|].
    rewrite (proj2 (resolve_config_error cm id) (conj H1 H2)) in K. discriminate.
Qed.

(** Under an identifier in a standard namespace an installed function can be lost: a
    lookup in another thread that has just missed it stores its own result over it. *)
Theorem C74_lost_refuted : exists id f sched,
  ~ In id FUNCTION_NAMES /\
  let threads := [[FGetItem id]; [FLoadCustom id (FSObject (FOClass (FImpl f))); FGetItem id]] in
  finished_m STD_CLASS_MAP 1 [] threads sched 0 [Ok (Some FNotImplemented)] /\
  finished_m STD_CLASS_MAP 1 [] threads sched 1 [Ok None; Ok (Some FNotImplemented)] /\
  fst (fm_getitem STD_CLASS_MAP id (map_after STD_CLASS_MAP 1 [] threads sched)) = Ok FNotImplemented /\
  fst (fm_getitem STD_CLASS_MAP id (fm_run STD_CLASS_MAP (concat threads) fm_new)) = Ok (FImpl f).
Proof.
  exists (v1 "string-starts-with"), FnAnd, [0; 0; 0; 1; 0; 0; 1; 1; 1]. split.
  - intros Hin. assert (str_in (v1 "string-starts-with") FUNCTION_NAMES = true) as K.
    { unfold str_in. apply existsb_exists. exists (v1 "string-starts-with"). split; [exact Hin|reflexivity]. }
    vm_compute in K. discriminate.
  - unfold finished_m. repeat split; vm_compute; reflexivity.
Qed.

(** Deleting an item while another thread looks it up can make that lookup raise
    KeyError, which no lookup does otherwise. *)
Theorem C74_deletion_refuted : exists id threads sched,
  In id FUNCTION_NAMES /\
  finished_m STD_CLASS_MAP 1 [] threads sched 0 [Raise EKeyError] /\
  forall ops, fst (fm_getitem STD_CLASS_MAP id (fm_run STD_CLASS_MAP ops fm_new)) <> Raise EKeyError.
Proof.
  exists (v1 "string-equal"), [[FGetItem (v1 "string-equal")]; [FDelItem (v1 "string-equal")]],
    [0; 0; 0; 0; 0; 1; 0]. split; [cbn; tauto|]. split.
  - vm_compute. reflexivity.
  - intros ops. rewrite lookup_after. destruct (last_custom (v1 "string-equal") ops); [discriminate|].
    vm_compute. discriminate.
Qed.

(** A thread finishes with one outcome for each of its operations, whatever the others
    do; if it is scheduled again and again it does finish, and stays so. *)
Theorem C74_outcomes : forall cm d before threads sched i rs,
  finished_m cm d before threads sched i rs ->
  exists ops, nth_error threads i = Some ops /\ length rs = length ops.
Proof.
  intros cm d before threads sched i rs H. destruct (finished_shape _ _ _ _ _ _ _ H) as (ops & rs' & H1 & [= <-] & H2).
  exists ops. auto.
Qed.

Theorem C74_terminates : forall cm d before threads sched i,
  i < length threads -> recurring sched i ->
  exists n rs, forall m, finished_m cm d before threads (first_steps sched (n + m)) i rs.
Proof.
  intros cm d before threads sched i Hi Hr.
  destruct (nth_error (fst (start_m cm d before threads)) i) as [t|] eqn:E.
  2:{ apply nth_error_None in E. unfold start_m in E. cbn [fst] in E. rewrite map_length in E. lia. }
  destruct (thread_ends_m _ sched i Hr t 0 _ E) as (n & r & H).
  destruct (finished_shape _ _ _ _ _ _ _ H) as (ops & rs & _ & -> & _). exists n, rs.
  intros m. unfold finished_m, first_steps. rewrite seq_app, map_app, run_app_m.
  apply done_stays_m, H.
Qed.

(** A single thread is the sequential function map. *)
Theorem C74_alone : forall cm d before ops, exists n,
  finished_m cm (S d) before [ops] (repeat 0 n) 0 (outcomes_alone cm ops (fm_run cm before fm_new)) /\
  map_after cm (S d) before [ops] (repeat 0 n) = fm_run cm (before ++ ops) fm_new.
Proof.
  intros cm d before ops.
  destruct (alone_schedule_m _ (ops_m cm (S d) ops) (fm_run cm before fm_new)) as [n H]. exists n.
  unfold finished_m, map_after, start_m. cbn [map]. rewrite H, alone_ops. cbn [fst snd nth_error].
  split; [reflexivity|]. unfold fm_run. rewrite fold_left_app. reflexivity.
Qed.

(** Three threads: both of the first two miss the identifier and load it, the third
    loads a custom function and a standard one. *)
Example C74_case :
  let threads := [[FGetItem (v1 "string-equal"); FGet "urn:mine"]; [FGet (v1 "string-equal"); FGetItem "urn:none"];
                  [FLoadCustom "urn:mine" (FSPath (FOClass (FImpl FnNot))); FLoad (v1 "not")]] in
  let sched := ([0; 1; 0; 1; 2; 0; 1] ++ concat (repeat [0; 1; 2] 12))%list in
  ~ deleted_by_some threads (v1 "string-equal") /\
  (forall c, ~ installed_by_some threads (v1 "string-equal") c) /\
  finished_m STD_CLASS_MAP 1 [FLoad (v1 "and")] threads sched 0
    [Ok (Some (FImpl (FnEqual StringAV))); Ok (Some (FImpl FnNot))] /\
  finished_m STD_CLASS_MAP 1 [FLoad (v1 "and")] threads sched 1
    [Ok (Some (FImpl (FnEqual StringAV))); Raise EFunctionMapConfigError] /\
  finished_m STD_CLASS_MAP 1 [FLoad (v1 "and")] threads sched 2 [Ok None; Ok None].
Proof.
  cbv zeta. split; [|split].
  - intros (ops & [<-|[<-|[<-|[]]]] & Hin); cbn in Hin;
      repeat (destruct Hin as [Hin|Hin]; [discriminate|]); destruct Hin.
  - intros c (ops & o & [<-|[<-|[<-|[]]]] & Hin & Hi); cbn in Hin;
      repeat (destruct Hin as [<-|Hin]; [cbn in Hi; try contradiction; destruct Hi as (Hi & _); discriminate|]); destruct Hin.
  - unfold finished_m. repeat split; vm_compute; reflexivity.
Qed.

Example C74_custom_case :
  installs "urn:mine" (FLoadCustom "urn:mine" (FSPath (FOClass (FImpl FnNot)))) (FImpl FnNot) /\
  startswith V1_NS "urn:mine" = false /\ startswith V2_NS "urn:mine" = false.
Proof.
  split; [|split; reflexivity]. cbn. split; [reflexivity|]. split; [|reflexivity].
  intros Hin. assert (str_in "urn:mine" FUNCTION_NAMES = true) as K.
  { unfold str_in. apply existsb_exists. exists "urn:mine". split; [exact Hin|reflexivity]. }
  vm_compute in K. discriminate.
Qed.

Print Assumptions C74_lookup.
Print Assumptions C74_standard.
Print Assumptions C74_installed_or_before.
Print Assumptions C74_other_operations.
Print Assumptions C74_stopped.
Print Assumptions C74_installed.
Print Assumptions C74_lost_refuted.
Print Assumptions C74_deletion_refuted.
Print Assumptions C74_outcomes.
Print Assumptions C74_terminates.
Print Assumptions C74_alone.
