(** The factories of the package; names given as one string. *)
From Coq Require Import Lia.
From Verif Require Import FunFactory SpecFuncMap SpecFunFactory StringFacts StateFacts FunFactoryFacts FunFactoryFacts2.

Local Open Scope string_scope.

(** ** Names that all load *)
Lemma names_all : forall l s,
  (forall x, In x l -> exists id, x = ItemStr id /\
     exists n c, type_for (fs_types s) (fa_suffix (fs_factory s)) id = Ok (n, c) /\
     exists fn, fa_base (fs_factory s) (n ++ fa_camel (fs_factory s)) c id = Ok fn) ->
  exists s', fa_load_names l s = (Ok tt, s').
Proof.
  induction l as [|x l IH]; intros s H; [eexists; reflexivity|].
  destruct (H x (or_introl eq_refl)) as (id & -> & n & c & H1 & fn & H2).
  destruct (load_does _ _ _ _ _ H1 H2) as [s1 E]. cbn [fa_load_names]. rewrite E.
  apply IH. destruct (load_ok _ _ _ E) as (_ & _ & _ & _ & _ & _ & _ & (S1 & S2 & S3 & S4 & S5) & _).
  rewrite S1, S2, S3, S4. intros y Hy. apply H. right. exact Hy.
Qed.

Definition family_suffix (fam : family) : string :=
  match fam with
  | FamAtLeastOne => "-at-least-one-member-of"
  | FamBag => "-bag" | FamEqual => "-equal" | FamMatch => "-match"
  | FamOneAndOnly => "-one-and-only" | FamConcat => "-concatenate" | FamRegexp2 => "-regexp-match"
  | _ => ""
  end.
Definition family_mk (fam : family) : avclass -> fn :=
  match fam with
  | FamAtLeastOne => FnAtLeastOne
  | FamBag => FnBag | FamEqual => FnEqual | FamMatch => FnMatch
  | FamOneAndOnly => FnOneAndOnly | FamConcat => FnConcat | _ => FnRegexp
  end.

Lemma kind_new : forall fam k types s, kind_of fam = Some k -> just_made k types s ->
  fs_types s = types /\ fa_suffix (fs_factory s) = family_suffix fam /\
  fa_base (fs_factory s) = (fun _ c _ => Ok (family_mk fam c)) /\
  fa_cache (fs_factory s) = [] /\ family_suffix fam <> "" /\
  (forall types id, factory_call types fam id = typed (function_type types (family_suffix fam) id) (family_mk fam)).
Proof.
  intros fam k types s H [T N]. apply new_cache in N. destruct N as (x & b & E1 & E2 & _ & E).
  rewrite E. cbn [fa_suffix fa_base fa_cache].
  destruct fam; cbn in H; try discriminate; injection H as <-; cbn in E1, E2;
    injection E1 as <-; injection E2 as <-; repeat split; try exact T; discriminate.
Qed.

Definition all_std (l : list name_item) (suffix : string) : bool :=
  forallb (fun x => match x with
                    | ItemStr id => match type_for STD_CLASS_MAP suffix id with Ok _ => true | _ => false end
                    | ItemOther _ => false
                    end) l.

Lemma kind_names : forall fam k, kind_of fam = Some k ->
  all_std (names_of (fk_names k)) (family_suffix fam) = true.
Proof. intros fam k H. destruct fam; cbn in H; try discriminate; injection H as <-; vm_compute; reflexivity. Qed.

Lemma registered_type : forall types suffix id n c, suffix <> "" ->
  (forall name uri nt, In (name, (uri, nt)) TYPE_TABLE -> exists c, dict_get uri types = Some c) ->
  type_for STD_CLASS_MAP suffix id = Ok (n, c) -> exists c', type_for types suffix id = Ok (n, c').
Proof.
  intros types suffix id n c N R H. apply type_for_spec in H; [|exact N]. destruct H as (uri & Hn & _).
  assert (U : exists c', dict_get uri types = Some c').
  { destruct Hn as (last & t & _ & _ & _ & [[nt Hi]|[[_ ->]|[_ ->]]]).
    - exact (R _ _ _ Hi).
    - apply (R "AnyURI" _ NTStr). right. left. reflexivity.
    - apply (R "String" _ NTStr). left. reflexivity. }
  destruct U as [c' U]. exists c'. apply type_for_spec; [exact N|]. exists uri. auto.
Qed.

Lemma std_init_all : forall fam k types s, kind_of fam = Some k -> just_made k types s ->
  (forall name uri nt, In (name, (uri, nt)) TYPE_TABLE -> exists c, dict_get uri types = Some c) ->
  exists s', fa_init_all s = (Ok tt, s').
Proof.
  intros fam k types s Hk Hj R. destruct (kind_new _ _ _ _ Hk Hj) as (T & Su & B & _ & N & _).
  pose proof (kind_names _ _ Hk) as A. unfold fa_init_all. apply names_all.
  destruct Hj as [_ Hn]. apply new_cache in Hn. destruct Hn as (x & b & _ & _ & _ & E).
  replace (fa_names (fs_factory s)) with (names_of (fk_names k)) by (rewrite E; reflexivity).
  intros y Hy. unfold all_std in A. rewrite forallb_forall in A. specialize (A _ Hy).
  destruct y as [id|e]; [|discriminate]. exists id. split; [reflexivity|].
  destruct (type_for STD_CLASS_MAP (family_suffix fam) id) as [[n c]|e] eqn:F; [|discriminate].
  destruct (registered_type types _ _ _ _ N R F) as [c' F'].
  exists n, c'. rewrite T, Su, B. split; [exact F'|]. exists (family_mk fam c'). reflexivity.
Qed.

(** ** Agreement with the factories of FuncMap.v *)
Record agrees (fam : family) (types : list (string * avclass)) (s : fstore) : Prop := mkAgrees {
  ag_types : fs_types s = types;
  ag_suffix : fa_suffix (fs_factory s) = family_suffix fam;
  ag_base : fa_base (fs_factory s) = (fun _ c _ => Ok (family_mk fam c));
  ag_held : forall id c, holds s id c -> factory_call types fam id = Ok (Some (md_fn c))
}.

Lemma agree_type : forall fam types s id, family_suffix fam <> "" ->
  (forall types id, factory_call types fam id = typed (function_type types (family_suffix fam) id) (family_mk fam)) ->
  agrees fam types s ->
  factory_call types fam id =
  match type_for (fs_types s) (fa_suffix (fs_factory s)) id with
  | Ok (_, c) => Ok (Some (family_mk fam c)) | Raise e => Raise e end.
Proof.
  intros fam types s id N F [T Su B H]. rewrite F, T, Su. destruct (family_suffix fam) as [|x suf]; [congruence|].
  rewrite type_for_function_type. unfold typed.
  destruct (type_for types (String x suf) id) as [[n c]|e]; reflexivity.
Qed.

Lemma agree_load : forall fam types s s' id, family_suffix fam <> "" ->
  (forall types id, factory_call types fam id = typed (function_type types (family_suffix fam) id) (family_mk fam)) ->
  agrees fam types s -> fa_load id s = (Ok tt, s') -> agrees fam types s'.
Proof.
  intros fam types s s' id N F A E. pose proof (agree_type _ _ _ id N F A) as G. destruct A as [T Su B H].
  destruct (load_ok _ _ _ E) as (n & c & fn & E1 & E2 & Hh & Ho & (S1 & S2 & S3 & S4 & S5) & _).
  split; try congruence. intros i d Hd. unfold holds in *.
  destruct (String.string_dec i id) as [->|Ne].
  - rewrite Hh in Hd. injection Hd as <-. cbn [md_fn]. rewrite G, E1. rewrite B in E2. congruence.
  - rewrite Ho in Hd by exact Ne. exact (H _ _ Hd).
Qed.

Lemma agree_names : forall fam types l s, family_suffix fam <> "" ->
  (forall types id, factory_call types fam id = typed (function_type types (family_suffix fam) id) (family_mk fam)) ->
  agrees fam types s -> agrees fam types (snd (fa_load_names l s)).
Proof.
  intros fam types l s N F. revert s. induction l as [|[id|e] l IH]; intros s A; cbn [fa_load_names]; try exact A.
  destruct (fa_load id s) as [[[]|e] s1] eqn:E; cbn [snd].
  - apply IH. exact (agree_load _ _ _ _ _ N F A E).
  - pose proof (load_raise _ _ _ _ E). subst s1. exact A.
Qed.

Lemma agree_step : forall fam types s o, family_suffix fam <> "" ->
  (forall types id, factory_call types fam id = typed (function_type types (family_suffix fam) id) (family_mk fam)) ->
  ~ registers o -> agrees fam types s -> agrees fam types (fa_step s o).
Proof.
  intros fam types s [id|id| |u c ov] N F R A; cbn [fa_step].
  - destruct (fa_load id s) as [[[]|e] s1] eqn:E; cbn [snd]; [exact (agree_load _ _ _ _ _ N F A E)|].
    pose proof (load_raise _ _ _ _ E). subst s1. exact A.
  - destruct (dict_get id (fa_cache (fs_factory s))) as [d|] eqn:E.
    + rewrite (call_held _ _ _ E). exact A.
    + destruct (call_none _ _ E) as [(d & s' & H & _ & ->)|(e & _ & ->)]; cbn [snd]; [|exact A].
      exact (agree_load _ _ _ _ _ N F A H).
  - apply agree_names; assumption.
  - exfalso. apply R. exact I.
Qed.

Lemma agree_call : forall fam k types s os id, kind_of fam = Some k -> just_made k types s ->
  (forall o, In o os -> ~ registers o) ->
  behaviour (fst (fa_call id (fa_run os s))) = factory_call types fam id.
Proof.
  intros fam k types s os id Hk Hj R. destruct (kind_new _ _ _ _ Hk Hj) as (T & Su & B & C & N & F).
  assert (A : agrees fam types s).
  { split; try assumption. intros i d Hd. unfold holds in Hd. rewrite C in Hd. discriminate. }
  clear T Su B C. assert (A' : agrees fam types (fa_run os s)).
  { clear Hj id. revert s A. induction os as [|o os IH]; intros s A; [exact A|].
    change (fa_run (o :: os) s) with (fa_run os (fa_step s o)). apply IH.
    - intros o' Ho. apply R. right. exact Ho.
    - apply agree_step; auto. apply R. left. reflexivity. }
  generalize dependent (fa_run os s). clear Hj. intros s' A'.
  pose proof (agree_type _ _ _ id N F A') as G. destruct A' as [T Su B H].
  destruct (dict_get id (fa_cache (fs_factory s'))) as [d|] eqn:E.
  - rewrite (call_held _ _ _ E). symmetry. exact (H _ _ E).
  - destruct (call_none _ _ E) as [(d & s1 & H1 & Hh & ->)|(e & H1 & ->)]; cbn [fst behaviour].
    + destruct (load_ok _ _ _ H1) as (n & c & fn & E1 & E2 & Hh' & _). unfold holds in *.
      rewrite Hh in Hh'. injection Hh' as ->. cbn [md_fn]. rewrite G, E1. rewrite B in E2. congruence.
    + rewrite G. destruct (load_raises _ _ _ _ H1) as [->|(n & c & _ & E2)]; [reflexivity|].
      rewrite B in E2. discriminate.
Qed.

(** ** Names given as one string *)
Lemma camel_length : forall t n, camel_case t n -> String.length n <= String.length t.
Proof.
  intros t n H. induction H as [w n _ (c & r & -> & ->)|w n rest m _ (c & r & -> & ->) _ IH]; cbn [String.length].
  - lia.
  - rewrite !app_length_s in *. cbn [String.length append] in *. lia.
Qed.

Lemma character_no_type : forall types suffix ch, exists e, type_for types suffix (String ch "") = Raise e.
Proof.
  intros types suffix ch. destruct (type_for types suffix (String ch "")) as [[n c]|e] eqn:E; [exfalso|exists e; reflexivity].
  destruct suffix as [|x suf]; [rewrite type_for_empty in E; discriminate|].
  apply type_for_spec in E; [|discriminate]. destruct E as (uri & (last & t & (_ & L) & B & C & D) & _).
  assert (L1 : String.length last <= 1).
  { destruct L as [<-|[a E]]; [cbn; lia|]. apply (f_equal String.length) in E.
    rewrite !app_length_s in E. cbn in E. lia. }
  assert (L2 : String.length t <= 1).
  { destruct B as [[-> _]|[[r ->] _]]; [exact L1|]. rewrite !app_length_s in L1. lia. }
  pose proof (camel_length _ _ C) as L3. destruct D as [[nt D]|[[-> _]|[-> _]]]; [|cbn in L2; lia|cbn in L2; lia].
  assert (G : forallb (fun p => Nat.leb 2 (String.length (fst p))) TYPE_TABLE = true) by (vm_compute; reflexivity).
  rewrite forallb_forall in G. specialize (G _ D). apply PeanoNat.Nat.leb_le in G. cbn [fst] in G. lia.
Qed.

Lemma string_names : forall k types s t, fk_names k = NamesStr t -> t <> "" -> just_made k types s ->
  exists e, fa_init_all s = (Raise e, s).
Proof.
  intros k types s [|ch t] Hn Ht [_ H]; [congruence|]. apply new_cache in H.
  destruct H as (x & b & _ & _ & _ & E). unfold fa_init_all.
  replace (fa_names (fs_factory s)) with (names_of (fk_names k)) by (rewrite E; reflexivity).
  rewrite Hn. cbn [names_of list_ascii_of_string map fa_load_names]. unfold fa_load.
  destruct (character_no_type (fs_types s) (fa_suffix (fs_factory s)) ch) as [e ->]. exists e. reflexivity.
Qed.
