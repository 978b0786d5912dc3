(** C105: function class factories make a class for an identifier once, keep it, and
    make another only when told to. *)
From Coq Require Import Lia.
From Verif Require Import FunFactory SpecFuncMap SpecFunFactory FunFactoryFacts FunFactoryFacts2 FunFactoryFacts3.

Local Open Scope string_scope.

(** A factory can be made exactly if the suffix is a string, the base class is set and
    the names can be iterated over. *)
Theorem C105_constructor : forall k,
  (exists f, factory_new k = Ok f) <->
  (exists suffix, fk_suffix k = SufStr suffix) /\ fk_base k <> None /\ fk_names k <> NamesNotIterable.
Proof.
  intros k. split.
  - intros [f H]. apply new_cache in H. destruct H as (s & b & H1 & H2 & H3 & _).
    split; [exists s; exact H1|]. split; [congruence|exact H3].
  - intros ([s H1] & H2 & H3). unfold factory_new. rewrite H1.
    destruct (fk_base k); [|congruence]. destruct (fk_names k); [congruence| |]; eexists; reflexivity.
Qed.

(** What is missing is reported with TypeError. *)
Theorem C105_constructor_refuses : forall k,
  fk_suffix k = SufNone \/ fk_base k = None \/ fk_names k = NamesNotIterable ->
  factory_new k = Raise ETypeError.
Proof.
  intros k [H|[H|H]]; unfold factory_new; rewrite H.
  - reflexivity.
  - destruct (fk_suffix k); reflexivity.
  - destruct (fk_suffix k), (fk_base k); reflexivity.
Qed.

(** A class is made exactly for the identifiers that name a registered data type. *)
Theorem C105_loads : forall s id,
  (exists s', fa_load id s = (Ok tt, s')) <->
  fa_suffix (fs_factory s) <> "" /\
  exists name uri c fn, names_type (fa_suffix (fs_factory s)) id name uri /\
    dict_get uri (fs_types s) = Some c /\
    fa_base (fs_factory s) (name ++ fa_camel (fs_factory s)) c id = Ok fn.
Proof.
  intros s id. split.
  - intros [s' H]. destruct (load_ok _ _ _ H) as (n & c & fn & H1 & H2 & _).
    assert (N : fa_suffix (fs_factory s) <> "").
    { intros E. rewrite E, type_for_empty in H1. discriminate. }
    split; [exact N|]. apply type_for_spec in H1; [|exact N]. destruct H1 as (uri & H1 & H3).
    exists n, uri, c, fn. auto.
  - intros (N & n & uri & c & fn & H1 & H2 & H3).
    apply (load_does id s n c fn); [|exact H3]. apply type_for_spec; [exact N|]. exists uri. auto.
Qed.

(** The class is for that data type and identifier, and is named after both; the
    classes for other identifiers stay. *)
Theorem C105_loaded : forall s id s', fa_load id s = (Ok tt, s') ->
  exists name uri c, holds s' id c /\
    names_type (fa_suffix (fs_factory s)) id name uri /\
    dict_get uri (fs_types s) = Some (md_type c) /\ md_ns c = id /\
    md_name c = (name ++ fa_camel (fs_factory s))%string /\
    fa_base (fs_factory s) (md_name c) (md_type c) id = Ok (md_fn c) /\
    same_factory s s' /\
    forall i d, i <> id -> (holds s' i d <-> holds s i d).
Proof.
  intros s id s' H. destruct (load_ok _ _ _ H) as (n & c & fn & H1 & H2 & H3 & H4 & H5 & _).
  assert (N : fa_suffix (fs_factory s) <> "").
  { intros E. rewrite E, type_for_empty in H1. discriminate. }
  apply type_for_spec in H1; [|exact N]. destruct H1 as (uri & H1 & H6).
  eexists n, uri, _. split; [exact H3|]. cbn [md_type md_ns md_name md_fn].
  repeat (split; [assumption || reflexivity|]). intros i d Ne. unfold holds. rewrite (H4 _ Ne). reflexivity.
Qed.

(** If no class can be made, nothing changes; the exception tells an empty suffix, an
    identifier that names no registered type, or is that of the base class. *)
Theorem C105_failed : forall s id s' e, fa_load id s = (Raise e, s') ->
  s' = s /\
  ((fa_suffix (fs_factory s) = "" /\ e = EValueError) \/ e = ETypeError \/ e = EIndexError \/
   exists name c, fa_base (fs_factory s) name c id = Raise e).
Proof.
  intros s id s' e H. split; [exact (load_raise _ _ _ _ H)|].
  destruct (load_raises _ _ _ _ H) as [K|(n & c & _ & K)].
  - apply type_for_raises in K. tauto.
  - right. right. right. exists (n ++ fa_camel (fs_factory s))%string, c. exact K.
Qed.

(** A call gives the class that is held; if there is none, it makes it, with the
    outcome of loading it. *)
Theorem C105_call_held : forall s id c, holds s id c -> fa_call id s = (Ok (Some c), s).
Proof. intros. apply call_held; assumption. Qed.

Theorem C105_call_first : forall s id, holds_none s id ->
  (exists c s', fa_load id s = (Ok tt, s') /\ holds s' id c /\ fa_call id s = (Ok (Some c), s')) \/
  (exists e, fa_load id s = (Raise e, s) /\ fa_call id s = (Raise e, s)).
Proof. exact (fun s id => call_none id s). Qed.

(** No call gives None. *)
Theorem C105_never_none : forall s id, fst (fa_call id s) <> Ok None.
Proof.
  intros s id. destruct (dict_get id (fa_cache (fs_factory s))) as [c|] eqn:E.
  - rewrite (call_held _ _ _ E). discriminate.
  - destruct (call_none _ _ E) as [(c & s' & _ & _ & ->)|(e & _ & ->)]; discriminate.
Qed.

(** Until it is loaded again, every call gives the very same class, also after other
    data types have been registered. *)
Theorem C105_stable : forall os s id c, fst (fa_call id s) = Ok (Some c) ->
  (forall o, In o os -> ~ reloads s id o) ->
  fa_call id (fa_run os (snd (fa_call id s))) = (Ok (Some c), fa_run os (snd (fa_call id s))).
Proof.
  intros os s id c H N. apply call_held. apply stable.
  - destruct (dict_get id (fa_cache (fs_factory s))) as [d|] eqn:E.
    + rewrite (call_held _ _ _ E) in *. cbn in H. injection H as ->. exact E.
    + destruct (call_none _ _ E) as [(d & s' & _ & Hh & K)|(e & _ & K)]; rewrite K in *; cbn in H; [|discriminate].
      injection H as ->. exact Hh.
  - intros o Ho R. apply (N o Ho). exact (reloads_step s (FacCall id) o id R).
Qed.

(** Loading makes a class that differs from every class held before. *)
Theorem C105_reload_new : forall k types s os1 os2 i c id s2 c2, just_made k types s ->
  holds (fa_run os1 s) i c -> fa_load id (fa_run os2 (fa_run os1 s)) = (Ok tt, s2) ->
  holds s2 id c2 -> md_no c2 <> md_no c.
Proof.
  intros k types s os1 os2 i c id s2 c2 J H L H2.
  pose proof (so_old _ (sound_run os1 _ (sound_new _ _ _ J)) _ _ H) as A.
  pose proof (next_run os2 (fa_run os1 s)) as B.
  destruct (load_ok _ _ _ L) as (n & d & fn & _ & _ & Hh & _). unfold holds in *.
  rewrite Hh in H2. injection H2 as <-. cbn [md_no]. lia.
Qed.

(** The class held for an identifier is its own: no two identifiers share one. *)
Theorem C105_own : forall k types s os i j c, just_made k types s ->
  holds (fa_run os s) i c -> md_ns c = i /\ (holds (fa_run os s) j c -> j = i).
Proof.
  intros k types s os i j c J H. pose proof (sound_run os _ (sound_new _ _ _ J)) as S.
  split; [exact (so_own _ S _ _ H)|]. intros K. exact (one_each _ S _ _ _ K H).
Qed.

(** Making all classes: every name gets a new one ... *)
Theorem C105_init_all : forall s s', fa_init_all s = (Ok tt, s') ->
  same_factory s s' /\
  (forall id, In (ItemStr id) (fa_names (fs_factory s)) -> exists c, holds s' id c /\ fs_next s <= md_no c) /\
  (forall id c, ~ In (ItemStr id) (fa_names (fs_factory s)) -> (holds s' id c <-> holds s id c)).
Proof.
  intros s s' H. destruct (names_ok _ _ _ H) as [A _ B C]. split; [exact A|]. split.
  - intros id Hi. apply in_idents in Hi. destruct (C _ Hi) as (c & Hh & L). exists c. split; [exact Hh|lia].
  - intros id c Hi. unfold holds. rewrite B; [reflexivity|]. rewrite in_idents. exact Hi.
Qed.

(** ... or it stops at the first name that cannot be loaded: those before it have got
    theirs, and all others are as they were. *)
Theorem C105_init_all_stops : forall s s' e, fa_init_all s = (Raise e, s') ->
  exists before x after, fa_names (fs_factory s) = (before ++ x :: after)%list /\
    (x = ItemOther e \/ exists id, x = ItemStr id /\ fa_load id s' = (Raise e, s')) /\
    same_factory s s' /\
    (forall id, In (ItemStr id) before -> exists c, holds s' id c /\ fs_next s <= md_no c) /\
    (forall id c, ~ In (ItemStr id) before -> (holds s' id c <-> holds s id c)).
Proof.
  intros s s' e H. destruct (names_raise _ _ _ _ H) as (before & x & after & E & K & Hx).
  exists before, x, after. split; [exact E|]. split; [exact Hx|].
  destruct (names_ok _ _ _ K) as [A _ B C]. split; [exact A|]. split.
  - intros id Hi. apply in_idents in Hi. destruct (C _ Hi) as (c & Hh & L). exists c. split; [exact Hh|lia].
  - intros id c Hi. unfold holds. rewrite B; [reflexivity|]. rewrite in_idents. exact Hi.
Qed.

(** The factories of the package can make all their classes. *)
Theorem C105_standard : forall fam k types s, kind_of fam = Some k -> just_made k types s ->
  (forall name uri nt, In (name, (uri, nt)) TYPE_TABLE -> exists c, dict_get uri types = Some c) ->
  exists s', fa_init_all s = (Ok tt, s').
Proof. exact std_init_all. Qed.

(** Whatever was loaded and called before, a factory of the package answers a call with
    what a function map makes of a new factory. *)
Theorem C105_agrees : forall fam k types s os id, kind_of fam = Some k -> just_made k types s ->
  (forall o, In o os -> ~ registers o) ->
  behaviour (fst (fa_call id (fa_run os s))) = factory_call types fam id.
Proof. exact agree_call. Qed.

(** One name not put into a list is accepted by the constructor and taken for its
    letters: nothing can be loaded from it. *)
Theorem C105_one_string : forall k types s t, fk_names k = NamesStr t -> t <> "" ->
  just_made k types s -> exists e, fa_init_all s = (Raise e, s).
Proof. exact string_names. Qed.

(** ** Cases *)
Definition equal_kind : fkind :=
  mkKind (SufStr "-equal") (Some (fun _ c _ => Ok (FnEqual c)))
    (NamesOf [ItemStr (v1 "string-equal"); ItemStr (v1 "date-time-equal"); ItemStr (v1 "colour-equal");
              ItemStr (v1 "integer-equal")]).
Definition equal_factory : fstore :=
  mkFstore STD_CLASS_MAP 7
    (mkFactory "-equal" "Equal" (fun _ c _ => Ok (FnEqual c)) (names_of (fk_names equal_kind)) []).

Example C105_made : just_made equal_kind STD_CLASS_MAP equal_factory.
Proof. split; reflexivity. Qed.

Example C105_suffix : camel_suffix "-at-least-one-member-of" = "AtLeastOneMemberOf".
Proof. reflexivity. Qed.

(** It stops at the third name, with the first two loaded. *)
Example C105_init_all_case :
  fst (fa_init_all equal_factory) = Raise ETypeError /\
  map (fun p => (fst p, md_no (snd p), md_name (snd p)))
    (fa_cache (fs_factory (snd (fa_init_all equal_factory)))) =
  [ (v1 "string-equal", 7, "StringEqual"); (v1 "date-time-equal", 8, "DateTimeEqual") ].
Proof. vm_compute. auto. Qed.

(** A class made before its data type is registered anew keeps the old one; loading
    replaces it. *)
Example C105_old_type :
  let id := v1 "string-equal" in
  let other := AnyURIAV in
  let os := [FacCall id; FacRegister (xs "string") other true] in
  behaviour (fst (fa_call id (fa_run os equal_factory))) = Ok (Some (FnEqual StringAV)) /\
  behaviour (fst (fa_call id (fa_run (os ++ [FacLoad id])%list equal_factory))) = Ok (Some (FnEqual other)).
Proof. vm_compute. auto. Qed.

(** Not only the identifiers of its family: a factory also makes classes for identifiers
    without the suffix, and with anything after it, whatever the names are. *)
Theorem C105_own_family_refuted : exists fam k s id c,
  kind_of fam = Some k /\ just_made k STD_CLASS_MAP s /\
  ~ In (ItemStr id) (fa_names (fs_factory s)) /\ fst (fa_call id s) = Ok (Some c).
Proof.
  exists FamEqual, (match kind_of FamEqual with Some k => k | None => equal_kind end).
  eexists (mkFstore STD_CLASS_MAP 0 (mkFactory "-equal" "Equal" _ _ [])), "string", _.
  split; [reflexivity|]. split; [split; reflexivity|]. split; [|vm_compute; reflexivity].
  cbn. intuition discriminate.
Qed.

(** An identifier of a type that is not registered. *)
Example C105_failed_case :
  fa_load (v1 "colour-equal") equal_factory = (Raise ETypeError, equal_factory) /\
  fa_load (v1 "-equal") equal_factory = (Raise EIndexError, equal_factory).
Proof. vm_compute. auto. Qed.

Example C105_agrees_case :
  behaviour (fst (fa_call (v1 "integer-equal") (fa_run [FacInitAll; FacCall (v1 "colour-equal")] equal_factory)))
  = Ok (Some (FnEqual IntegerAV)).
Proof. vm_compute. reflexivity. Qed.

Example C105_one_string_case :
  let k := mkKind (SufStr "-equal") (Some (fun _ c _ => Ok (FnEqual c))) (NamesStr (v1 "string-equal")) in
  match factory_new k with
  | Ok f => fst (fa_init_all (mkFstore STD_CLASS_MAP 0 f)) = Raise ETypeError
  | Raise _ => False
  end.
Proof. vm_compute. reflexivity. Qed.

Print Assumptions C105_constructor.
Print Assumptions C105_constructor_refuses.
Print Assumptions C105_loads.
Print Assumptions C105_loaded.
Print Assumptions C105_failed.
Print Assumptions C105_call_held.
Print Assumptions C105_call_first.
Print Assumptions C105_never_none.
Print Assumptions C105_stable.
Print Assumptions C105_reload_new.
Print Assumptions C105_own.
Print Assumptions C105_init_all.
Print Assumptions C105_init_all_stops.
Print Assumptions C105_standard.
Print Assumptions C105_agrees.
Print Assumptions C105_one_string.
Print Assumptions C105_own_family_refuted.
