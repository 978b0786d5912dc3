(** Proofs about the function map as a mapping. *)
From Verif Require Import SpecMapMethods FuncMapFacts StringFacts StateFacts SettersFacts FuncErrorsFacts.
From Coq Require Import Lia.

Lemma on_shelf_get : forall id s, on_shelf id s = dict_get id s.
Proof.
  intros id. induction s as [|[i c] s IH]; [reflexivity|]. cbn [on_shelf dict_get].
  rewrite String.eqb_sym, IH. reflexivity.
Qed.
Lemma shelve_set : forall id c s, shelve id c s = dict_set id c s.
Proof.
  intros id c. induction s as [|[i d] s IH]; [reflexivity|]. cbn [shelve dict_set].
  rewrite String.eqb_sym, IH. reflexivity.
Qed.
Lemma take_off_del : forall id s, take_off id s = dict_del id s.
Proof.
  intros id. induction s as [|[i d] s IH]; [reflexivity|]. cbn [take_off].
  unfold dict_del. cbn [filter fst]. rewrite String.eqb_sym.
  destruct (String.eqb id i); cbn [negb]; [exact IH|]. f_equal. exact IH.
Qed.

Lemma shelve_keys : forall id c s,
  map fst (shelve id c s) = map fst s \/ (~ In id (map fst s) /\ map fst (shelve id c s) = (map fst s ++ [id])%list).
Proof.
  intros id c. induction s as [|[i d] s IH]; [right; split; [intros []|reflexivity]|].
  cbn [shelve map fst]. destruct (String.eqb_spec i id) as [->|Hn]; [left; reflexivity|].
  cbn [map fst]. destruct IH as [IH|[Hi IH]]; [left; f_equal; exact IH|].
  right. split; [intros [E|E]; [apply Hn, E|apply Hi, E]|]. cbn [app]. f_equal. exact IH.
Qed.
Lemma shelve_nodup : forall id c s, NoDup (map fst s) -> NoDup (map fst (shelve id c s)).
Proof.
  intros id c s H. destruct (shelve_keys id c s) as [->|[Hi ->]]; [exact H|].
  revert Hi. induction (map fst s) as [|k l IH]; intros Hi; cbn [app].
  - constructor; [intros []|constructor].
  - inversion H as [|k9 l9 Hk Hl E]; subst. constructor.
    + intros Hin. apply in_app_or in Hin. destruct Hin as [Hin|[->|[]]]; [exact (Hk Hin)|].
      apply Hi. left. reflexivity.
    + apply IH; [exact Hl|]. intros Hin. apply Hi. right. exact Hin.
Qed.
Lemma take_off_in : forall id s k, In k (map fst (take_off id s)) -> In k (map fst s).
Proof.
  intros id. induction s as [|[i d] s IH]; intros k; [intros []|]. cbn [take_off map fst].
  destruct (String.eqb i id); [intros H; right; apply IH, H|].
  intros [H|H]; [left; exact H|right; apply IH, H].
Qed.
Lemma take_off_nodup : forall id s, NoDup (map fst s) -> NoDup (map fst (take_off id s)).
Proof.
  intros id. induction s as [|[i d] s IH]; intros H; [exact H|]. cbn [take_off map fst] in *.
  inversion H as [|k9 l9 Hk Hl E]; subst. destruct (String.eqb i id); [apply IH, Hl|].
  cbn [map fst]. constructor; [|apply IH, Hl]. intros Hin. apply Hk, (take_off_in id), Hin.
Qed.
Lemma take_off_none : forall id s, on_shelf id s = None -> take_off id s = s.
Proof.
  intros id. induction s as [|[i d] s IH]; [reflexivity|]. cbn [on_shelf take_off].
  destruct (String.eqb i id); [discriminate|]. intros H. f_equal. exact (IH H).
Qed.
Lemma take_off_shelve : forall id c s, on_shelf id s = None -> take_off id (shelve id c s) = s.
Proof.
  intros id c. induction s as [|[i d] s IH]; cbn [on_shelf shelve take_off]; intros H.
  - rewrite String.eqb_refl. reflexivity.
  - destruct (String.eqb i id) eqn:E; [discriminate|]. cbn [take_off]. rewrite E. f_equal. exact (IH H).
Qed.
Lemma on_shelf_in : forall id s, on_shelf id s = None <-> ~ In id (map fst s).
Proof.
  intros id. induction s as [|[i d] s IH]; cbn [on_shelf map fst]; [split; [intros _ []|reflexivity]|].
  destruct (String.eqb_spec i id) as [->|Hn].
  - split; [discriminate|]. intros H. destruct H. left. reflexivity.
  - split; [intros H [E|E]; [exact (Hn E)|exact (proj1 IH H E)]|].
    intros H. apply IH. intros E. apply H. right. exact E.
Qed.
Lemma take_off_first : forall id c s, NoDup (map fst ((id, c) :: s)) -> take_off id ((id, c) :: s) = s.
Proof.
  intros id c s H. cbn [take_off]. rewrite String.eqb_refl. apply take_off_none, on_shelf_in.
  inversion H; assumption.
Qed.
Lemma on_shelve : forall id c s i,
  on_shelf i (shelve id c s) = if String.eqb id i then Some c else on_shelf i s.
Proof.
  intros id c s i. rewrite !on_shelf_get, shelve_set. destruct (String.eqb_spec id i) as [->|Hn].
  - apply dict_get_set_same.
  - apply dict_get_set_other. congruence.
Qed.
Lemma on_take_off : forall id s i,
  on_shelf i (take_off id s) = if String.eqb id i then None else on_shelf i s.
Proof.
  intros id s i. rewrite !on_shelf_get, take_off_del. destruct (String.eqb_spec id i) as [->|Hn].
  - apply dict_get_del_same.
  - apply dict_get_del_other, Hn.
Qed.

Section Map.
Variable cm : list (string * avclass).

(** What stays true of a map: each key once, and the factories kept are those by which
    a new map would get the function. *)
Record kept (m : fmap) : Prop := {
  kept_once : NoDup (map fst (fm_map m));
  kept_factory : forall id fam, dict_get id (fm_factories m) = Some fam ->
    exists pkg2 n f, namespace_of id = Some (pkg2, n) /\
                     import_factory pkg2 (module_name n) = Some fam /\
                     factory_call cm fam id = Ok (Some f)
}.
Lemma kept_new : kept fm_new.
Proof. split; [constructor|discriminate]. Qed.
Lemma kept_map : forall m s, kept m -> NoDup (map fst s) -> kept (mkFmap s (fm_factories m)).
Proof. intros m s [_ H] Hs. split; [exact Hs|exact H]. Qed.

Lemma load_kept : forall id m, kept m ->
  kept (snd (fm_load cm id m)) /\
  fm_map (snd (fm_load cm id m)) = snd (fetch cm id (fm_map m)) /\
  fst (fm_load cm id m) = match fst (fetch cm id (fm_map m)) with Ok _ => Ok tt | Raise e => Raise e end.
Proof.
  intros id m K. unfold fm_load, fetch, dict_mem. rewrite on_shelf_get.
  destruct (dict_get id (fm_map m)) as [c0|] eqn:Eg; [cbn [fst snd]; auto|].
  rewrite resolve_fresh. unfold fresh_load.
  assert (Hput : forall c fac,
    (forall i fam, dict_get i fac = Some fam ->
         exists pkg2 n f, namespace_of i = Some (pkg2, n) /\
                          import_factory pkg2 (module_name n) = Some fam /\
                          factory_call cm fam i = Ok (Some f)) ->
    kept (mkFmap (dict_set id c (fm_map m)) fac)).
  { intros c fac H. split; [cbn [fm_map]|exact H]. rewrite <- shelve_set. apply shelve_nodup, (kept_once _ K). }
  destruct (dict_get id (fm_factories m)) as [fam|] eqn:Ef.
  - destruct (kept_factory _ K id fam Ef) as (pkg2 & n & f & Hn & Him & Hf).
    rewrite Hn, Him, Hf. unfold fm_put. cbn [fst snd fm_map]. rewrite shelve_set.
    split; [apply Hput, (kept_factory _ K)|auto].
  - destruct (namespace_of id) as [[pkg2 n]|] eqn:Hn; [|cbn [fst snd]; auto].
    destruct (import_factory pkg2 (module_name n)) as [fam|] eqn:Him.
    + destruct (factory_call cm fam id) as [[f|]|e] eqn:Ec; cbn [fst snd]; auto.
      unfold fm_put. cbn [fm_map fm_factories]. rewrite shelve_set. split; [|auto].
      apply Hput. intros i fam' Hg. destruct (String.eqb_spec id i) as [<-|E].
      * rewrite dict_get_set_same in Hg. injection Hg as <-. exists pkg2, n, f. auto.
      * rewrite dict_get_set_other in Hg by congruence. apply (kept_factory _ K), Hg.
    + unfold fm_put. cbn [fst snd fm_map]. rewrite shelve_set. split; [apply Hput, (kept_factory _ K)|auto].
Qed.

Lemma fetched : forall id s c, fst (fetch cm id s) = Ok c -> on_shelf id (snd (fetch cm id s)) = Some c.
Proof.
  intros id s c. unfold fetch. destruct (on_shelf id s) as [d|] eqn:E.
  - cbn [fst snd]. intros H. injection H as <-. exact E.
  - destruct (resolve cm id) as [d|e]; cbn [fst snd]; [|discriminate].
    intros H. injection H as <-. rewrite on_shelve, String.eqb_refl. reflexivity.
Qed.

Lemma getitem_kept : forall id m, kept m ->
  kept (snd (fm_getitem cm id m)) /\
  fm_map (snd (fm_getitem cm id m)) = snd (fetch cm id (fm_map m)) /\
  fst (fm_getitem cm id m) = fst (fetch cm id (fm_map m)).
Proof.
  intros id m K. unfold fm_getitem. destruct (dict_get id (fm_map m)) as [c0|] eqn:Eg.
  - unfold fetch. rewrite on_shelf_get, Eg. cbn [fst snd]. auto.
  - destruct (load_kept id m K) as (K1 & M1 & R1). destruct (fm_load cm id m) as [r m1].
    cbn [fst snd] in *. subst r. destruct (fst (fetch cm id (fm_map m))) as [c|e] eqn:Ef; cbn [fst snd].
    + pose proof (fetched id (fm_map m) c Ef) as Hs. rewrite <- M1, on_shelf_get in Hs. rewrite Hs. auto.
    + auto.
Qed.

Lemma resolve_no_keyerror : forall id, resolve cm id <> Raise EKeyError.
Proof.
  intros id H. apply resolve_raises in H. destruct H as [H|[[H _]|[H|H]]]; discriminate.
Qed.
Lemma fetch_no_keyerror : forall id s, fst (fetch cm id s) <> Raise EKeyError.
Proof.
  intros id s. unfold fetch. destruct (on_shelf id s); [discriminate|].
  pose proof (resolve_no_keyerror id) as H. destruct (resolve cm id); cbn [fst]; [discriminate|].
  intros E. apply H. congruence.
Qed.
Lemma fetch_take : forall id s, take_off id (snd (fetch cm id s)) = take_off id s.
Proof.
  intros id s. unfold fetch. destruct (on_shelf id s) eqn:E; [reflexivity|].
  destruct (resolve cm id); cbn [snd]; [|reflexivity].
  rewrite take_off_shelve by exact E. symmetry. apply take_off_none, E.
Qed.
Lemma fetch_raise : forall id s e, fst (fetch cm id s) = Raise e -> snd (fetch cm id s) = s /\ on_shelf id s = None.
Proof.
  intros id s e. unfold fetch. destruct (on_shelf id s) eqn:E; [discriminate|].
  destruct (resolve cm id); [discriminate|]. auto.
Qed.

(** A step does what is expected. *)
Definition does (x : res given * fmap) (y : res given * shelf) : Prop :=
  fst x = fst y /\ fm_map (snd x) = snd y /\ kept (snd x).

Lemma put_kept : forall id c m, kept m -> kept (fm_put id c m) /\ fm_map (fm_put id c m) = shelve id c (fm_map m).
Proof.
  intros id c m K. unfold fm_put. cbn [fm_map]. rewrite <- shelve_set. split; [|reflexivity].
  apply kept_map; [exact K|]. apply shelve_nodup, (kept_once _ K).
Qed.
Lemma delete_kept : forall id m, kept m ->
  let s := fm_map m in
  fst (fm_delitem id m) = match on_shelf id s with Some _ => Ok tt | None => Raise EKeyError end /\
  fm_map (snd (fm_delitem id m)) = take_off id s /\ kept (snd (fm_delitem id m)).
Proof.
  intros id m K. unfold fm_delitem, dict_mem. rewrite <- on_shelf_get, <- take_off_del.
  destruct (on_shelf id (fm_map m)) as [c|] eqn:E; cbn [fst snd fm_map].
  - split; [reflexivity|]. split; [reflexivity|]. apply kept_map; [exact K|].
    apply take_off_nodup, (kept_once _ K).
  - split; [reflexivity|]. split; [symmetry; apply take_off_none, E|exact K].
Qed.

Lemma get_does : forall id args m, kept m -> does (mm_get cm id args m) (expected cm (MGet id args) (fm_map m)).
Proof.
  intros id args m K. unfold does, mm_get, vget. cbn [expected].
  destruct (load_kept id m K) as (K1 & M1 & R1).
  assert (Hd : forall d, match dict_get id (fm_map m) with Some c => Some c | None => Some d end =
     Some (match on_shelf id (fm_map m) with Some c => c | None => d end)).
  { intros d. rewrite on_shelf_get. destruct (dict_get id (fm_map m)); reflexivity. }
  assert (Hplain : forall args', (forall a d rest, args' <> a :: Some d :: rest) ->
    does (match match dict_get id (fm_map m) with Some c => Some c
                | None => match args' with _ :: d :: _ => d | _ => None end end with
          | Some c => (Ok (GClass c), m)
          | None => let '(r, m1) := fm_load cm id m in
             match r with Raise e => (Raise e, m1)
             | Ok _ => (Ok (gclass (match dict_get id (fm_map m1) with Some c => Some c
                | None => match args' with _ :: d :: _ => d | _ => None end end)), m1) end end)
         (answer (fst (fetch cm id (fm_map m))), snd (fetch cm id (fm_map m)))).
  { intros args' Ha. destruct (dict_get id (fm_map m)) as [c|] eqn:Eg.
    - unfold does, fetch. rewrite on_shelf_get, Eg. cbn [fst snd answer]. auto.
    - replace (match args' with _ :: d :: _ => d | _ => None end) with (@None fclass).
      2:{ destruct args' as [|a [|[d|] rest]]; try reflexivity. exfalso. exact (Ha _ _ _ eq_refl). }
      destruct (fm_load cm id m) as [r m1]. cbn [fst snd] in *. subst r.
      destruct (fst (fetch cm id (fm_map m))) as [c|e] eqn:Ef; unfold does; cbn [fst snd answer]; [|auto].
      pose proof (fetched id (fm_map m) c Ef) as Hs. rewrite <- M1, on_shelf_get in Hs. rewrite Hs. auto. }
  destruct args as [|a [|[d|] rest]].
  - apply (Hplain []). discriminate.
  - apply (Hplain [a]). discriminate.
  - rewrite Hd. cbn [fst snd]. auto.
  - apply (Hplain (a :: None :: rest)). discriminate.
Qed.

Lemma pop_does : forall id d m, kept m -> does (mm_pop cm id d m) (expected cm (MPop id d) (fm_map m)).
Proof.
  intros id d m K. unfold does, mm_pop. cbn [expected].
  destruct (getitem_kept id m K) as (K1 & M1 & R1). destruct (fm_getitem cm id m) as [r m1].
  cbn [fst snd] in *. subst r. destruct (fst (fetch cm id (fm_map m))) as [c|e] eqn:Ef.
  - destruct (delete_kept id m1 K1) as (D1 & D2 & D3). destruct (fm_delitem id m1) as [r2 m2].
    cbn [fst snd] in *. rewrite M1, (fetched _ _ _ Ef) in D1. subst r2. cbn [fst snd answer].
    rewrite M1, fetch_take in D2. auto.
  - destruct (fetch_raise _ _ _ Ef) as [Es Eo]. rewrite Es in M1.
    pose proof (fetch_no_keyerror id (fm_map m)) as Hk. rewrite Ef in Hk.
    assert (Hx : does (Raise e, m1) (answer (Raise e), take_off id (fm_map m))).
    { split; [reflexivity|]. cbn [snd]. rewrite take_off_none by exact Eo. auto. }
    destruct e; try exact Hx. exfalso. apply Hk. reflexivity.
Qed.

Lemma popitem_does : forall m, kept m -> does (mm_popitem cm m) (expected cm MPopItem (fm_map m)).
Proof.
  intros m K. unfold mm_popitem. cbn [expected].
  destruct (fm_map m) as [|[id c] rest] eqn:Em.
  - split; [reflexivity|]. split; [exact Em|exact K].
  - destruct (getitem_kept id m K) as (K1 & M1 & R1). destruct (fm_getitem cm id m) as [r m1].
    cbn [fst snd] in *.
    assert (Ef : fetch cm id (fm_map m) = (Ok c, fm_map m)).
    { unfold fetch. rewrite Em. cbn [on_shelf]. rewrite String.eqb_refl. reflexivity. }
    rewrite Ef in M1, R1. cbn [fst snd] in *. subst r.
    destruct (delete_kept id m1 K1) as (D1 & D2 & D3). destruct (fm_delitem id m1) as [r2 m2].
    cbn [fst snd] in *. rewrite M1, Em in D1. cbn [on_shelf] in D1. rewrite String.eqb_refl in D1.
    subst r2. split; [reflexivity|]. split; [|exact D3]. cbn [snd]. rewrite D2, M1, Em.
    apply take_off_first. rewrite <- Em. apply (kept_once _ K).
Qed.

Lemma clear_does : forall n m, kept m -> length (fm_map m) = n ->
  exists x, mm_clear cm (S n) m = Some x /\ does x (Ok GNone, []).
Proof.
  induction n as [|n IH]; intros m K Hn.
  - destruct (fm_map m) as [|p l] eqn:Em; [|discriminate].
    exists (Ok GNone, m). cbn [mm_clear]. unfold mm_popitem. rewrite Em. split; [reflexivity|].
    split; [reflexivity|]. auto.
  - destruct (popitem_does m K) as (P1 & P2 & P3).
    change (exists x, (let '(r, m1) := mm_popitem cm m in
           match r with
           | Ok _ => mm_clear cm (S n) m1
           | Raise EKeyError => Some (Ok GNone, m1)
           | Raise e => Some (Raise e, m1)
           end) = Some x /\ does x (Ok GNone, [])).
    destruct (mm_popitem cm m) as [r m1]. cbn [fst snd] in *.
    destruct (fm_map m) as [|[id c] rest] eqn:Em; [discriminate|]. cbn [expected fst snd] in *.
    subst r. apply IH; [exact P3|]. rewrite P2. cbn [length] in Hn. lia.
Qed.

Lemma setdefault_does : forall id v m, kept m ->
  does (mm_setdefault cm id v m) (expected cm (MSetDefault id v) (fm_map m)).
Proof.
  intros id v m K. unfold mm_setdefault. cbn [expected].
  destruct (getitem_kept id m K) as (K1 & M1 & R1). destruct (fm_getitem cm id m) as [r m1].
  cbn [fst snd] in *. pose proof (fetch_no_keyerror id (fm_map m)) as Hk. rewrite <- R1 in *.
  destruct r as [c|e]; [split; [reflexivity|auto]|].
  assert (Hx : does (Raise e, m1) (answer (Raise e), snd (fetch cm id (fm_map m)))).
  { split; [reflexivity|]. auto. }
  destruct e; try exact Hx. exfalso. apply Hk. reflexivity.
Qed.

Lemma update_does : forall kvs m, kept m -> does (mm_update kvs m) (expected cm (MUpdate kvs) (fm_map m)).
Proof.
  induction kvs as [|[id [c|]] kvs IH]; intros m K; cbn [mm_update fm_setitem].
  - split; [reflexivity|]. auto.
  - destruct (put_kept id c m K) as [K1 M1]. specialize (IH _ K1). rewrite M1 in IH. exact IH.
  - split; [reflexivity|]. auto.
Qed.

Lemma load_all_does : forall ids m, kept m ->
  does (mm_unit (fm_load_all cm ids m)) (fetch_all cm ids (fm_map m)).
Proof.
  induction ids as [|id ids IH]; intros m K; cbn [fm_load_all fetch_all].
  - split; [reflexivity|]. auto.
  - destruct (load_kept id m K) as (K1 & M1 & R1). destruct (fm_load cm id m) as [r m1].
    cbn [fst snd] in *. subst r. destruct (fetch cm id (fm_map m)) as [[c|e] s1]; cbn [fst snd] in *.
    + specialize (IH _ K1). rewrite M1 in IH. exact IH.
    + split; [reflexivity|]. auto.
Qed.

Lemma str_in_no : forall id l, ~ In id l -> str_in id l = false.
Proof.
  intros id l H. destruct (str_in id l) eqn:E; [|reflexivity]. exfalso. apply H, str_in_iff, E.
Qed.

Lemma step_does : forall c m, kept m ->
  exists x, mm_step cm c m = Some x /\ does x (expected cm c (fm_map m)).
Proof.
  intros c m K.
  destruct c as [id|id args|id| |id src|id v|id|id d| | |id v|kvs|id| | | |]; cbn [mm_step];
    try (eexists; split; [reflexivity|]).
  - destruct (getitem_kept id m K) as (K1 & M1 & R1). destruct (fm_getitem cm id m) as [r m1].
    cbn [fst snd expected] in *. rewrite <- R1. split; [reflexivity|]. auto.
  - apply get_does, K.
  - destruct (load_kept id m K) as (K1 & M1 & R1). destruct (fm_load cm id m) as [r m1].
    cbn [fst snd expected mm_unit] in *. subst r. split; [|auto].
    cbn [fst]. destruct (fst (fetch cm id (fm_map m))); reflexivity.
  - apply load_all_does, K.
  - cbn [expected]. unfold fm_load_custom. destruct (in_dec string_dec id FUNCTION_NAMES) as [Hi|Hi].
    + apply str_in_iff in Hi. rewrite Hi. split; [reflexivity|]. auto.
    + rewrite (str_in_no _ _ Hi). unfold unsupported_error. rewrite (str_in_no _ _ Hi).
      destruct src as [[e| |c|]| |e|[e| |c|]]; cbn [mm_unit];
        try (split; [reflexivity|]; split; [reflexivity|exact K]);
        (destruct (put_kept id c m K) as [K1 M1]; split; [reflexivity|]; auto).
  - destruct v as [c|]; cbn [fm_setitem mm_unit expected].
    + destruct (put_kept id c m K) as [K1 M1]. split; [reflexivity|]. auto.
    + split; [reflexivity|]. auto.
  - cbn [expected]. destruct (delete_kept id m K) as (D1 & D2 & D3). destruct (fm_delitem id m) as [r m1].
    cbn [fst snd mm_unit] in *. subst r. destruct (on_shelf id (fm_map m)) eqn:E.
    + split; [reflexivity|]. auto.
    + split; [reflexivity|]. split; [|exact D3]. cbn [snd]. rewrite D2. apply take_off_none, E.
  - apply pop_does, K.
  - apply popitem_does, K.
  - exact (clear_does (length (fm_map m)) m K eq_refl).
  - apply setdefault_does, K.
  - apply update_does, K.
  - cbn [expected]. unfold dict_mem. rewrite on_shelf_get. split; [reflexivity|]. auto.
  - split; [reflexivity|]. auto.
  - split; [reflexivity|]. auto.
  - split; [reflexivity|]. auto.
  - split; [reflexivity|]. auto.
Qed.

Lemma run_does : forall h m, kept m ->
  exists rs m', mm_run cm h m = Some (rs, m') /\ expected_all cm h (fm_map m) = (rs, fm_map m') /\ kept m'.
Proof.
  induction h as [|c h IH]; intros m K; cbn [mm_run expected_all].
  - exists [], m. auto.
  - destruct (step_does c m K) as ([r m1] & -> & H1 & H2 & K1). cbn [fst snd] in *.
    destruct (IH m1 K1) as (rs & m' & -> & H3 & K2). exists (r :: rs), m'. split; [reflexivity|].
    split; [|exact K2]. destruct (expected cm c (fm_map m)) as [r' s']. cbn [fst snd] in *. subst r' s'.
    rewrite H3. reflexivity.
Qed.

(** ** What was put *)

(** A shelf holds what was put, and otherwise what a new map gives. *)
Definition agrees (cu : string -> option fclass) (s : shelf) : Prop :=
  forall id, match cu id with
             | Some c => on_shelf id s = Some c
             | None => on_shelf id s = None \/ exists c, on_shelf id s = Some c /\ resolve cm id = Ok c
             end.

Lemma fetch_agrees : forall cu id s, agrees cu s ->
  fst (fetch cm id s) = match cu id with Some c => Ok c | None => resolve cm id end /\
  agrees cu (snd (fetch cm id s)).
Proof.
  intros cu id s H. pose proof (H id) as Hi. unfold fetch. destruct (cu id) as [c|] eqn:Ec.
  - rewrite Hi. auto.
  - destruct Hi as [Hi|(c & Hi & Hr)].
    + rewrite Hi. destruct (resolve cm id) as [c|e] eqn:Er; cbn [fst snd]; [|auto]. split; [reflexivity|].
      intros i. pose proof (H i) as Hj. rewrite on_shelve. destruct (String.eqb_spec id i) as [<-|Hn]; [|exact Hj].
      rewrite Ec. right. exists c. auto.
    + rewrite Hi, Hr. auto.
Qed.
Lemma shelve_agrees : forall cu id c s, agrees cu s ->
  agrees (fun i => if String.eqb id i then Some c else cu i) (shelve id c s).
Proof.
  intros cu id c s H i. rewrite on_shelve. destruct (String.eqb id i); [reflexivity|apply H].
Qed.
Lemma take_agrees : forall cu id s, agrees cu s ->
  agrees (fun i => if String.eqb id i then None else cu i) (take_off id s).
Proof.
  intros cu id s H i. rewrite on_take_off. destruct (String.eqb id i); [left; reflexivity|apply H].
Qed.
Lemma agrees_ext : forall cu cu' s, (forall i, cu i = cu' i) -> agrees cu s -> agrees cu' s.
Proof. intros cu cu' s He H i. rewrite <- He. apply H. Qed.
Lemma fetch_all_agrees : forall cu ids s, agrees cu s -> agrees cu (snd (fetch_all cm ids s)).
Proof.
  intros cu. induction ids as [|id ids IH]; intros s H; cbn [fetch_all]; [exact H|].
  destruct (fetch_agrees cu id s H) as [_ H1]. destruct (fetch cm id s) as [[c|e] s1]; cbn [snd] in *; auto.
Qed.
Lemma update_agrees : forall l cu s, agrees cu s ->
  agrees (fun i => of_items i l (cu i)) (fold_left (fun s p => shelve (fst p) (snd p) s) l s).
Proof.
  induction l as [|[id c] l IH]; intros cu s H; [exact H|]. cbn [fold_left fst snd].
  apply (agrees_ext (fun i => of_items i l (if String.eqb id i then Some c else cu i))); [reflexivity|].
  apply (IH (fun i => if String.eqb id i then Some c else cu i)). apply shelve_agrees, H.
Qed.

Lemma expected_agrees : forall cu c s, NoDup (map fst s) -> agrees cu s ->
  agrees (fun i => put_effect i (cu i) (c, fst (expected cm c s))) (snd (expected cm c s)).
Proof.
  intros cu c s Hd H.
  assert (Hf : forall id, agrees cu (snd (fetch cm id s))) by (intros id; apply fetch_agrees, H).
  destruct c as [id|id args|id| |id src|id v|id|id d| | |id v|kvs|id| | | |]; cbn [expected put_effect fst snd];
    try exact H; try exact (Hf id).
  - destruct args as [|a [|[d|] rest]]; cbn [fst snd]; [exact (Hf id)|exact (Hf id)|exact H|exact (Hf id)].
  - apply fetch_all_agrees, H.
  - destruct (in_dec string_dec id FUNCTION_NAMES) as [Hi|Hi]; cbn [fst snd]; [exact H|].
    destruct src as [[e| |c|]| |e|[e| |c|]]; cbn [fst snd yields]; try exact H; apply shelve_agrees, H.
  - destruct v as [c|]; cbn [fst snd]; [apply shelve_agrees, H|exact H].
  - destruct (on_shelf id s) eqn:E; cbn [fst snd]; [apply take_agrees, H|exact H].
  - destruct (fst (fetch cm id s)) as [c|e] eqn:Ef; cbn [answer]; [apply take_agrees, H|].
    destruct (fetch_raise _ _ _ Ef) as [_ Eo]. rewrite take_off_none by exact Eo. exact H.
  - destruct s as [|[id c] rest]; cbn [fst snd]; [exact H|].
    rewrite <- (take_off_first id c rest Hd). apply take_agrees, H.
  - intros i. left. reflexivity.
  - apply update_agrees, H.
Qed.

Lemma expected_nodup : forall c s, NoDup (map fst s) -> NoDup (map fst (snd (expected cm c s))).
Proof.
  intros c s H. set (m := mkFmap s []).
  assert (K : kept m) by (split; [exact H|discriminate]).
  destruct (step_does c m K) as (x & _ & _ & H2 & K1). cbn [fm_map m] in H2. rewrite <- H2.
  apply (kept_once _ K1).
Qed.

Lemma expected_all_agrees : forall h cu s, NoDup (map fst s) -> agrees cu s ->
  agrees (fun i => fold_left (put_effect i) (combine h (fst (expected_all cm h s))) (cu i))
         (snd (expected_all cm h s)).
Proof.
  induction h as [|c h IH]; intros cu s Hd H; [exact H|]. cbn [expected_all].
  pose proof (expected_agrees cu c s Hd H) as H1. pose proof (expected_nodup c s Hd) as Hd1.
  destruct (expected cm c s) as [r s1]. cbn [fst snd] in *.
  specialize (IH _ _ Hd1 H1). destruct (expected_all cm h s1) as [rs s2]. cbn [fst snd combine fold_left] in *.
  exact IH.
Qed.

Lemma looked_up : forall h rs m id, mm_run cm h fm_new = Some (rs, m) ->
  fst (fm_getitem cm id m) = match put_by id h rs with Some c => Ok c | None => resolve cm id end.
Proof.
  intros h rs m id H. destruct (run_does h fm_new (kept_new)) as (rs' & m' & H1 & H2 & K).
  rewrite H in H1. injection H1 as <- <-. change (fm_map fm_new) with (@nil (string * fclass)) in H2.
  pose proof (expected_all_agrees h (fun _ => None) [] (NoDup_nil _) (fun i => or_introl eq_refl)) as Ha.
  rewrite H2 in Ha. cbn [fst snd] in Ha.
  destruct (getitem_kept id m K) as (_ & _ & ->).
  exact (proj1 (fetch_agrees _ id _ Ha)).
Qed.
End Map.

Section More.
Variable cm : list (string * avclass).

Lemma mm_run_app : forall a b m,
  mm_run cm (a ++ b) m = match mm_run cm a m with
                         | None => None
                         | Some (ra, m1) => match mm_run cm b m1 with
                                            | None => None
                                            | Some (rb, m2) => Some ((ra ++ rb)%list, m2)
                                            end
                         end.
Proof.
  induction a as [|c a IH]; intros b m; cbn [app mm_run].
  - destruct (mm_run cm b m) as [[rb m2]|]; reflexivity.
  - destruct (mm_step cm c m) as [[r m1]|]; [|reflexivity]. rewrite IH.
    destruct (mm_run cm a m1) as [[ra m2]|]; [|reflexivity].
    destruct (mm_run cm b m2) as [[rb m3]|]; reflexivity.
Qed.
Lemma run_kept : forall h rs m, mm_run cm h fm_new = Some (rs, m) -> kept cm m.
Proof.
  intros h rs m H. destruct (run_does cm h fm_new (kept_new cm)) as (rs' & m' & H1 & _ & K).
  rewrite H in H1. injection H1 as <- <-. exact K.
Qed.
Lemma same_answers : forall h m1 m2, kept cm m1 -> kept cm m2 -> fm_map m1 = fm_map m2 ->
  option_map fst (mm_run cm h m1) = option_map fst (mm_run cm h m2).
Proof.
  intros h m1 m2 K1 K2 E. destruct (run_does cm h m1 K1) as (r1 & x1 & -> & H1 & _).
  destruct (run_does cm h m2 K2) as (r2 & x2 & -> & H2 & _). rewrite E in H1. cbn [option_map fst].
  congruence.
Qed.

Lemma run_length : forall h m rs m', mm_run cm h m = Some (rs, m') -> length rs = length h.
Proof.
  induction h as [|c h IH]; intros m rs m' H; cbn [mm_run] in H; [injection H as <- <-; reflexivity|].
  destruct (mm_step cm c m) as [[r m1]|]; [|discriminate].
  destruct (mm_run cm h m1) as [[rs1 m2]|] eqn:E; [|discriminate]. injection H as <- <-.
  cbn [Datatypes.length]. f_equal. exact (IH _ _ _ E).
Qed.
Lemma combine_app : forall A B (a c : list A) (b d : list B), length a = length b ->
  combine (a ++ c) (b ++ d) = (combine a b ++ combine c d)%list.
Proof.
  intros A B. induction a as [|x a IH]; intros c [|y b] d H; try discriminate; [reflexivity|].
  cbn [app combine]. f_equal. apply IH. injection H as H. exact H.
Qed.
Lemma asking_keeps : forall id asked ra acc, forallb only_asks asked = true ->
  fold_left (put_effect id) (combine asked ra) acc = acc.
Proof.
  intros id. induction asked as [|c asked IH]; intros [|r ra] acc H; try reflexivity.
  cbn [forallb] in H. apply Bool.andb_true_iff in H. destruct H as [Hc H]. cbn [combine fold_left].
  rewrite IH by exact H. destruct c; try discriminate Hc; reflexivity.
Qed.
Lemma asking : forall h asked rs ra m m' id, forallb only_asks asked = true ->
  mm_run cm h fm_new = Some (rs, m) -> mm_run cm (h ++ asked) fm_new = Some (ra, m') ->
  fst (fm_getitem cm id m') = fst (fm_getitem cm id m).
Proof.
  intros h asked rs ra m m' id Ha H H'. rewrite (looked_up cm _ _ _ id H), (looked_up cm _ _ _ id H').
  rewrite mm_run_app, H in H'. destruct (mm_run cm asked m) as [[rb m2]|]; [|discriminate].
  injection H' as <- <-. unfold put_by. rewrite combine_app by (symmetry; exact (run_length _ _ _ _ H)).
  rewrite fold_left_app, asking_keeps by exact Ha. reflexivity.
Qed.
Lemma setdefault_asks : forall m id v, kept cm m -> mm_step cm (MSetDefault id v) m = mm_step cm (MLook id) m.
Proof.
  intros m id v K. cbn [mm_step]. unfold mm_setdefault.
  destruct (getitem_kept cm id m K) as (K1 & M1 & R1). destruct (fm_getitem cm id m) as [r m1].
  cbn [fst snd] in *. pose proof (fetch_no_keyerror cm id (fm_map m)) as Hk. rewrite <- R1 in Hk.
  destruct r as [c|e]; [reflexivity|]. destruct e; try reflexivity. exfalso. apply Hk. reflexivity.
Qed.
Lemma get_asks : forall m id d, kept cm m -> mm_step cm (MGet id [d]) m = mm_step cm (MLook id) m.
Proof.
  intros m id d K. cbn [mm_step]. unfold mm_get, vget, fm_getitem.
  destruct (dict_get id (fm_map m)) as [c|] eqn:Eg; [rewrite Eg; reflexivity|].
  destruct (load_kept cm id m K) as (K1 & M1 & R1). destruct (fm_load cm id m) as [r m1]. cbn [fst snd] in *.
  subst r. destruct (fst (fetch cm id (fm_map m))) as [c|e] eqn:Ef; [|reflexivity].
  pose proof (fetched cm id (fm_map m) c Ef) as Hs. rewrite <- M1, on_shelf_get in Hs. rewrite Hs. reflexivity.
Qed.
Lemma cleared : forall h rs m later, mm_run cm (h ++ [MClear]) fm_new = Some (rs, m) ->
  option_map fst (mm_run cm later m) = option_map fst (mm_run cm later fm_new).
Proof.
  intros h rs m later H. apply same_answers; [exact (run_kept _ _ _ H)|apply kept_new|].
  rewrite mm_run_app in H. destruct (mm_run cm h fm_new) as [[r1 m1]|] eqn:E; [|discriminate].
  cbn [mm_run] in H. destruct (step_does cm MClear m1 (run_kept _ _ _ E)) as ([r x] & Hx & D1 & D2 & D3).
  rewrite Hx in H. injection H as _ <-. exact D2.
Qed.
Lemma popped_absent : forall h rs m id d later, mm_run cm h fm_new = Some (rs, m) ->
  mm_step cm (MIn id) m = Some (Ok (GTruth false), m) ->
  exists m', mm_step cm (MPop id d) m = Some (answer (fst (fm_getitem cm id m)), m') /\
    option_map fst (mm_run cm later m') = option_map fst (mm_run cm later m).
Proof.
  intros h rs m id d later H Hi. pose proof (run_kept _ _ _ H) as K.
  destruct (step_does cm (MPop id d) m K) as ([r x] & Hx & D1 & D2 & D3). cbn [expected fst snd] in *.
  destruct (getitem_kept cm id m K) as (_ & _ & R1). exists x. rewrite Hx, D1, R1. split; [reflexivity|].
  apply same_answers; [exact D3|exact K|]. rewrite D2. apply take_off_none. rewrite on_shelf_get.
  cbn [mm_step] in Hi. unfold dict_mem in Hi. destruct (dict_get id (fm_map m)); [|reflexivity]. discriminate.
Qed.
End More.
