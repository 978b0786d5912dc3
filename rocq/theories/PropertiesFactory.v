(** C72: objects found and called by name.  C73: the readers of XACML types. *)
From Verif Require Import Factory SpecFactory StringFacts FactoryFacts.
From Coq Require Import Lia.
Local Open Scope string_scope.

Section Names.
Variables obj mods : Type.
Variable import_module : string -> interp mods -> res obj * interp mods.
Variable get_attribute : interp mods -> obj -> string -> res obj.
Variable is_subclass : obj -> obj -> res bool.
Variable path_exists : string -> interp mods -> bool.
Variable call_object : obj -> list obj -> list (string * obj) -> interp mods -> res obj * interp mods.

Notation import_obj := (import_module_object obj mods import_module get_attribute is_subclass).
Notation call_obj := (call_module_object obj mods import_module get_attribute is_subclass path_exists call_object).
Notation path_to := (follows obj mods get_attribute).
Notation fits := (of_type obj is_subclass).

(** The three ways to name an object of a module have the same outcome and effect. *)
Theorem C72_forms : forall m n t w, free_of ":" m -> simple_name n ->
  import_obj (m ++ "." ++ n) None t w = import_obj m (Some n) t w /\
  import_obj (m ++ ":" ++ n) None t w = import_obj m (Some n) t w.
Proof.
  intros m n t w M [D C]. unfold import_module_object.
  pose proof (split_paste m n [] C D (Forall_nil _) (Forall_nil _)) as P. cbn [dotted] in P.
  rewrite (split_dot m n M C D), P. auto.
Qed.

(** "a.b:c.d" is the attribute d of the attribute c of the module a.b: module a.b is
    imported, and from the package a the names b, c, d are followed. *)
Theorem C72_path : forall a bs c ds t w o w',
  simple_name a -> Forall simple_name bs -> simple_name c -> Forall simple_name ds ->
  import_obj (dotted a bs ++ ":" ++ dotted c ds) None t w = (Ok o, w') <->
  exists top, import_module (dotted a bs) w = (Ok top, w') /\
    path_to w' top (bs ++ c :: ds) o /\ fits t o.
Proof.
  intros a bs c ds t w o w' A B C D.
  rewrite (import_ok obj mods import_module get_attribute is_subclass _ (dotted a bs, c :: ds)).
  - cbn [fst snd]. rewrite split_dotted; [reflexivity | apply A |].
    eapply Forall_impl; [|exact B]. intros x X; apply X.
  - apply split_paste; try apply C; (eapply Forall_impl; [|exact D]); intros x X; apply X.
Qed.

(** The same for "a.b.c". *)
Theorem C72_dotted : forall a bs c t w o w',
  simple_name a -> Forall simple_name bs -> simple_name c ->
  import_obj (dotted a bs ++ "." ++ c) None t w = (Ok o, w') <->
  exists top, import_module (dotted a bs) w = (Ok top, w') /\ path_to w' top (bs ++ [c]) o /\ fits t o.
Proof.
  intros a bs c t w o w' A B C.
  rewrite (proj1 (C72_forms (dotted a bs) c t w
    ltac:(apply dotted_free; [discriminate | apply A | eapply Forall_impl; [|exact B]; intros x X; apply X]) C)).
  rewrite (import_ok obj mods import_module get_attribute is_subclass _ (dotted a bs, [c])) by reflexivity.
  cbn [fst snd]. rewrite split_dotted; [reflexivity | apply A |].
  eapply Forall_impl; [|exact B]. intros x X; apply X.
Qed.

(** Whatever the name: an object that is returned is of the wanted type. *)
Theorem C72_type : forall m n t w o w', import_obj m n (Some t) w = (Ok o, w') -> is_subclass o t = Ok true.
Proof.
  intros m n t w o w' E.
  destruct (split_name m n) as [p|e] eqn:S; [|unfold import_module_object in E; rewrite S in E; discriminate E].
  apply (import_ok obj mods import_module get_attribute is_subclass m p (Some t) w o w' n S) in E.
  destruct E as (top & _ & _ & T). exact T.
Qed.

(** An object of another type: TypeError. *)
Theorem C72_wrong_type : forall m n t w o w',
  import_obj m n None w = (Ok o, w') -> is_subclass o t = Ok false ->
  import_obj m n (Some t) w = (Raise ETypeError, w').
Proof.
  intros m n t w o w' E T. unfold import_module_object in *.
  destruct (split_name m n) as [[mn path]|e]; [|discriminate E].
  destruct (import_module mn w) as [r w1]. injection E as E <-.
  destruct r as [top|e]; [|discriminate E]. cbn in *.
  destruct (get_path _ _ get_attribute w1 top _) as [md|e]; [|discriminate E]. cbn in *.
  destruct (get_path _ _ get_attribute w1 md path) as [x|e]; [|discriminate E]. cbn in *.
  injection E as ->. rewrite T. reflexivity.
Qed.

(** A name without a separator is refused before anything is imported. *)
Theorem C72_bare : forall n t w, simple_name n -> import_obj n None t w = (Raise EValueError, w).
Proof.
  intros n t w [D C]. unfold import_module_object, split_name.
  rewrite (rsplit_free ":" n C), (rsplit_free "." n D). reflexivity.
Qed.

(** At most the named module is imported: the state afterwards is the one before, or the
    one after importing it. *)
Theorem C72_effect : forall m n t w r w', import_obj m n t w = (r, w') ->
  w' = w \/ exists module, w' = snd (import_module module w) /\
    (n <> None -> module = m) /\ (n = None -> exists sep rest, m = module ++ String sep rest).
Proof.
  intros m n t w r w' E. unfold import_module_object in E.
  destruct (split_name m n) as [[mn path]|e] eqn:S; [|injection E as _ <-; auto]. right. exists mn.
  destruct (import_module mn w) as [r1 w1]. injection E as _ <-. split; [reflexivity|].
  assert (K : forall c s l x, rsplit1 c s = Some (l, x) -> s = l ++ String c x).
  { intros c s. induction s as [|y s IH]; intros l x H; cbn in H; [discriminate H|].
    destruct (rsplit1 c s) as [[l1 x1]|].
    - injection H as <- <-. cbn. f_equal. apply IH. reflexivity.
    - destruct (Ascii.eqb_spec y c) as [->|]; [|discriminate H]. injection H as <- <-. reflexivity. }
  unfold split_name in S. destruct n as [n|].
  - injection S as <- <-. split; [reflexivity | discriminate].
  - split; [intros H; contradiction H; reflexivity|]. intros _.
    destruct (rsplit1 ":" m) as [[l x]|] eqn:Q; [injection S as -> _; eauto|].
    destruct (rsplit1 "." m) as [[l x]|] eqn:Q2; [injection S as -> _; eauto | discriminate S].
Qed.

(** Without a file path, or with an empty one, the object found is called once with the
    given arguments, and nothing is called if none is found. *)
Theorem C72_call : forall m n file t args props w, file = None \/ file = Some "" ->
  call_obj m n file t args props w =
    match import_obj m n t w with
    | (Ok o, w') => call_object o args props w'
    | (Raise e, w') => (Raise e, w')
    end.
Proof.
  intros m n file t args props w [-> | ->]; unfold call_module_object; cbn [String.eqb].
  - destruct (import_obj m n t w) as [[o|e] w']; reflexivity.
  - destruct (import_obj m n t w) as [[o|e] w']; reflexivity.
Qed.

(** A file path that does not exist: an exception, and nothing is imported, called or
    changed. *)
Theorem C72_no_file : forall m n p t args props w, p <> "" -> path_exists p w = false ->
  call_obj m n (Some p) t args props w = (Raise (EOther 5), w).
Proof.
  intros m n p t args props w D E. unfold call_module_object.
  apply String.eqb_neq in D. rewrite D, E. reflexivity.
Qed.

(** *** The module search path *)
Section Path.
Hypothesis quiet_import : forall m, leaves_path mods (import_module m).
Hypothesis quiet_call : forall o args props, leaves_path mods (call_object o args props).

Lemma quiet_import_obj : forall m n t, leaves_path mods (import_obj m n t).
Proof.
  intros m n t w. unfold import_module_object. destruct (split_name m n) as [[mn path]|e]; [|split; reflexivity].
  destruct (quiet_import mn w) as [A B]. destruct (import_module mn w) as [r w']. auto.
Qed.

(** Without a file path the module search path is left alone. *)
Theorem C72_search_path : forall m n t args props,
  leaves_path mods (call_obj m n None t args props).
Proof.
  intros m n t args props w. rewrite C72_call by auto.
  destruct (quiet_import_obj m n t w) as [A B]. destruct (import_obj m n t w) as [[o|e] w'].
  - destruct (quiet_call o args props w') as [C D]. cbn in *. rewrite C, D. auto.
  - auto.
Qed.

(** With a file path it stays extended, whatever the outcome: every call adds the
    directory at the end once more. *)
Theorem C72_search_path_extended : forall m n p t args props w path,
  p <> "" -> path_exists p w = true -> search_path mods w = Some path ->
  search_path mods (snd (call_obj m n (Some p) t args props w)) = Some (path ++ [p])%list.
Proof.
  intros m n p t args props w path D E S. unfold call_module_object.
  apply String.eqb_neq in D. rewrite D, E.
  set (w1 := mkInterp (in_mods w) (append_to (in_path w) p (in_lists w)) (in_path w)).
  assert (N : nth_error (in_lists w1) (in_path w) = Some (path ++ [p])%list).
  { unfold search_path in S. cbn. unfold append_to.
    assert (L : in_path w < length (in_lists w)) by (apply nth_error_Some; congruence).
    rewrite nth_error_app2 by (rewrite firstn_length; lia). rewrite firstn_length.
    replace (in_path w - Nat.min (in_path w) (length (in_lists w))) with 0 by lia.
    destruct (nth_error_split _ _ S) as (l1 & l2 & E1 & E2). rewrite E1, <- E2.
    rewrite skipn_app, skipn_all, Nat.sub_diag. reflexivity. }
  destruct (quiet_import_obj m n t w1) as [A B]. destruct (import_obj m n t w1) as [r w2]. cbn [snd] in A, B.
  rewrite A, N. destruct (path ++ [p])%list as [|x l] eqn:Q; [destruct path; discriminate Q|].
  destruct r as [o|e].
  - destruct (quiet_call o args props (mkInterp (in_mods w2) (in_lists w1) (in_path w))) as [F G].
    unfold search_path. rewrite F, G. exact N.
  - exact N.
Qed.
End Path.

(** ** C73 *)
Variable same : obj -> obj -> bool.
Variable name_of : obj -> res string.
Variables core_base abstract_reader : obj.
Hypothesis same_refl : forall k, same k k = true.
Hypothesis same_sym : forall a b, same a b = same b a.
Hypothesis same_trans : forall a b c, same a b = true -> same b c = true -> same a c = true.

Notation registry ops := (add_readers obj is_subclass same core_base abstract_reader ops []).
Notation reader := (get_reader obj mods import_module get_attribute is_subclass same name_of).
Notation last_for := (registered_last obj is_subclass same core_base abstract_reader).
Notation none_for := (never_registered obj is_subclass same core_base abstract_reader).

(** The reader of a type is the one last registered for it, and nothing is imported. *)
Theorem C73_registered : forall ops k v w, last_for ops k v -> reader k (registry ops) w = (Ok v, w).
Proof.
  intros ops k v w R. unfold get_reader.
  pose proof (registry_lookup obj is_subclass same core_base abstract_reader same_sym same_trans ops k) as L.
  destruct (reader_get obj same k (registry ops)) as [v'|].
  - rewrite (registered_unique obj is_subclass same core_base abstract_reader ops k v v' R L). reflexivity.
  - exfalso. exact (registered_not_never obj is_subclass same core_base abstract_reader ops k v R L).
Qed.

(** For a type named n without registration it is the class nReader in the module of
    that name in small letters. *)
Theorem C73_inferred : forall ops k n w o w', none_for ops k -> name_of k = Ok n -> simple_name n ->
  reader k (registry ops) w = (Ok o, w') <->
  exists top, import_module ("ndg.xacml.parsers.etree." ++ py_lower n ++ "reader") w = (Ok top, w') /\
    path_to w' top ["xacml"; "parsers"; "etree"; py_lower n ++ "reader"; n ++ "Reader"] o.
Proof.
  intros ops k n w o w' N E [D C]. unfold get_reader.
  pose proof (registry_lookup obj is_subclass same core_base abstract_reader same_sym same_trans ops k) as L.
  destruct (reader_get obj same k (registry ops)) as [v'|].
  - exfalso. exact (registered_not_never obj is_subclass same core_base abstract_reader ops k v' L N).
  - rewrite E.
    assert (lower_free : forall c s, ascii_lower c = c -> (forall x, ascii_lower x = c -> x = c) ->
              free_of c s -> free_of c (py_lower s)).
    { intros c s Lc Li. induction s as [|x s IH]; intros F; [exact F|]. apply free_cons in F.
      destruct F as [Dx F]. cbn. apply free_cons_intro; [intros Q; apply Dx, Li, Q | apply IH, F]. }
    assert (inj : forall c x, c = "."%char \/ c = ":"%char -> ascii_lower x = c -> x = c).
    { intros c x [-> | ->]; destruct x as [[] [] [] [] [] [] [] []]; vm_compute; congruence. }
    assert (Lo : simple_name (py_lower n ++ "reader")).
    { split; apply free_app; try (apply rsplit_none; reflexivity);
        (apply lower_free; [reflexivity | intros x; apply inj; auto | assumption]). }
    assert (Up : simple_name (n ++ "Reader")).
    { split; apply free_app; try assumption; apply rsplit_none; reflexivity. }
    assert (P : forall s, simple_name s -> True) by auto.
    assert (S : simple_name "ndg" /\ simple_name "xacml" /\ simple_name "parsers" /\ simple_name "etree").
    { repeat split; apply rsplit_none; reflexivity. }
    destruct S as (S1 & S2 & S3 & S4).
    assert (Q : reader_class_name n =
      dotted "ndg" ["xacml"; "parsers"; "etree"; py_lower n ++ "reader"] ++ "." ++ (n ++ "Reader")).
    { unfold reader_class_name. cbn [dotted append]. rewrite !app_assoc_s. reflexivity. }
    rewrite Q. rewrite C72_dotted by (try assumption; repeat (constructor; try assumption)).
    cbn [dotted append]. split.
    + intros (top & A & B & _). exists top. auto.
    + intros (top & A & B). exists top. cbn. auto.
Qed.

(** Registration: accepted for a subclass of XacmlCoreBase with a subclass of
    ETreeAbstractReader, and then only the reader of that type changes; otherwise it
    raises and changes nothing. *)
Theorem C73_registration : forall k v m r m',
  add_reader obj is_subclass same core_base abstract_reader k v m = (r, m') ->
  (accepted obj is_subclass core_base abstract_reader (k, v) /\ r = Ok tt /\
   forall j w, reader j m' w = if same j k then (Ok v, w) else reader j m w) \/
  (~ accepted obj is_subclass core_base abstract_reader (k, v) /\ m' = m /\ exists e, r = Raise e /\
   (is_subclass k core_base = Raise e \/ (is_subclass k core_base = Ok false /\ e = ETypeError) \/
    (is_subclass k core_base = Ok true /\
     (is_subclass v abstract_reader = Raise e \/ (is_subclass v abstract_reader = Ok false /\ e = ETypeError))))).
Proof.
  intros k v m r m' E. rewrite <- accepts_iff.
  destruct (accepts obj is_subclass core_base abstract_reader (k, v)) eqn:A.
  - left. split; [reflexivity|]. rewrite add_reader_eq, A in E. injection E as <- <-. split; [reflexivity|].
    intros j w. unfold get_reader. rewrite (rget_set obj same same_sym same_trans).
    destruct (same j k); reflexivity.
  - right. split; [discriminate|].
    destruct (add_reader_raises obj is_subclass same core_base abstract_reader k v m A) as (e & Q & W).
    rewrite Q in E. injection E as <- <-. eauto.
Qed.

(** Registered readers are readers; see below for inferred ones. *)
Theorem C73_readers : forall ops k v w, ~ none_for ops k -> fst (reader k (registry ops) w) = Ok v ->
  is_subclass v abstract_reader = Ok true.
Proof.
  intros ops k v w N E. unfold get_reader in E.
  pose proof (registry_lookup obj is_subclass same core_base abstract_reader same_sym same_trans ops k) as L.
  destruct (reader_get obj same k (registry ops)) as [v'|]; [|contradiction (N L)].
  injection E as ->. destruct L as (before & k' & after & _ & _ & [_ A] & _). exact A.
Qed.
End Names.

(** ** A concrete interpreter: objects are named by strings, two packages can be
    imported *)
Definition ex_import (m : string) (w : interp unit) : res string * interp unit :=
  if String.eqb m "pkg.mod" then (Ok "pkg", w)
  else if String.eqb m "ndg.xacml.parsers.etree.rulereader" then (Ok "ndg", w)
  else (Raise EImportError, w).
Definition ex_attr (w : interp unit) (o n : string) : res string :=
  if String.eqb n "missing" then Raise EAttributeError else Ok (o ++ "/" ++ n).
Definition ex_sub (o t : string) : res bool :=
  if String.eqb t "Base" then Ok (String.eqb o "pkg/mod/Class")
  else Ok (String.eqb o "Rule" || String.eqb o "MyReader")%bool.
Definition ex_call (o : string) (args : list string) (props : list (string * string)) (w : interp unit)
  : res string * interp unit := (Ok ("instance of " ++ o), w).
Definition ex_start : interp unit := mkInterp tt [["/lib"]] 0.

Example C72_case :
  simple_name "pkg" /\ simple_name "mod" /\ simple_name "Class" /\
  import_module_object _ _ ex_import ex_attr ex_sub "pkg.mod.Class" None (Some "Base") ex_start
    = (Ok "pkg/mod/Class", ex_start) /\
  import_module_object _ _ ex_import ex_attr ex_sub "pkg.mod:Class" None (Some "Base") ex_start
    = (Ok "pkg/mod/Class", ex_start) /\
  import_module_object _ _ ex_import ex_attr ex_sub "pkg.mod:Class.inner" None (Some "Base") ex_start
    = (Raise ETypeError, ex_start) /\
  import_module_object _ _ ex_import ex_attr ex_sub "pkg.mod:Class.missing" None None ex_start
    = (Raise EAttributeError, ex_start) /\
  import_module_object _ _ ex_import ex_attr ex_sub "pkg.other.Class" None None ex_start
    = (Raise EImportError, ex_start) /\
  (forall m, leaves_path unit (ex_import m)) /\
  (forall o args props, leaves_path unit (ex_call o args props)) /\
  call_module_object _ _ ex_import ex_attr ex_sub (fun _ _ => true) ex_call "pkg.mod.Class" None None
    (Some "Base") [] [] ex_start = (Ok "instance of pkg/mod/Class", ex_start).
Proof.
  unfold simple_name. repeat match goal with |- _ /\ _ => split end;
    try (apply rsplit_none; reflexivity); try (vm_compute; reflexivity).
  - intros m w. unfold ex_import. destruct (String.eqb m "pkg.mod"); [auto|].
    destruct (String.eqb m _); auto.
  - intros o args props w. auto.
Qed.

(** "Temporarily extend system path": it is not set back. *)
Theorem C72_search_path_refuted : exists p w,
  call_module_object _ _ ex_import ex_attr ex_sub (fun _ _ => true) ex_call "pkg.mod.Class" None (Some p)
    None [] [] w = (Ok "instance of pkg/mod/Class", mkInterp tt [["/lib"; p]] 0) /\
  search_path unit w = Some ["/lib"].
Proof. exists "/plugins", ex_start. split; reflexivity. Qed.

(** An inferred reader need not be a reader. *)
Theorem C73_inferred_type_refuted : exists k o w',
  get_reader _ _ ex_import ex_attr ex_sub String.eqb (fun k => Ok k) k [] ex_start = (Ok o, w') /\
  ex_sub o "ETreeAbstractReader" = Ok false.
Proof.
  exists "Rule", "ndg/xacml/parsers/etree/rulereader/RuleReader", ex_start. split; vm_compute; reflexivity.
Qed.

Example C73_case :
  let ops := [("Rule", "NoReader"); ("Rule", "MyReader"); ("NoType", "MyReader"); ("Rule", "NoReader")] in
  registered_last _ ex_sub String.eqb "XacmlCoreBase" "ETreeAbstractReader" ops "Rule" "MyReader" /\
  never_registered _ ex_sub String.eqb "XacmlCoreBase" "ETreeAbstractReader" ops "NoType" /\
  get_reader _ _ ex_import ex_attr ex_sub String.eqb (fun k => Ok k) "Rule"
    (add_readers _ ex_sub String.eqb "XacmlCoreBase" "ETreeAbstractReader" ops []) ex_start = (Ok "MyReader", ex_start).
Proof.
  intro ops. split; [|split].
  - exists [("Rule", "NoReader")], "Rule", [("NoType", "MyReader"); ("Rule", "NoReader")].
    split; [reflexivity|]. split; [reflexivity|]. split; [split; reflexivity|].
    intros e [<-|[<-|[]]] S A; [discriminate S | destruct A as [_ A]; discriminate A].
  - intros e [<-|[<-|[<-|[<-|[]]]]] S A; try discriminate S. destruct A as [A _]; discriminate A.
  - vm_compute. reflexivity.
Qed.

Print Assumptions C72_forms.
Print Assumptions C72_path.
Print Assumptions C72_dotted.
Print Assumptions C72_type.
Print Assumptions C72_wrong_type.
Print Assumptions C72_bare.
Print Assumptions C72_effect.
Print Assumptions C72_call.
Print Assumptions C72_no_file.
Print Assumptions C72_search_path.
Print Assumptions C72_search_path_extended.
Print Assumptions C73_registered.
Print Assumptions C73_inferred.
Print Assumptions C73_registration.
Print Assumptions C73_readers.
Print Assumptions C72_search_path_refuted.
Print Assumptions C73_inferred_type_refuted.
