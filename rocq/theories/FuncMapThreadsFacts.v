(** Proofs about function maps shared by threads. *)
From Coq Require Import Lia.
From Verif Require Import FuncMap FuncMapThreads SpecFuncMap SpecThreads SpecFuncMapThreads StringFacts StateFacts
  FuncMapFacts FuncMapFacts2.

Section Safe.
Variable cm : list (string * avclass).
Variable x : string.              (* the identifier of interest *)
Variable V : fclass -> Prop.      (* the classes that may be found under it *)
Variable P : Prop.                (* it may be absent *)
Hypothesis HV : forall c, P -> resolve cm x = Ok c -> V c.

Definition good_family (fam : family) : Prop :=
  exists pkg2 n f, namespace_of x = Some (pkg2, n) /\
    import_factory pkg2 (module_name n) = Some fam /\ factory_call cm fam x = Ok (Some f).

(** The flag says that the thread knows the identifier to be present. *)
Inductive safe {A} (Q : bool -> res A -> Prop) : bool -> MT A -> Prop :=
| s_done b r : Q b r -> safe Q b (MDone r)
| s_get b k : (forall c, V c -> safe Q true (k (Some c))) ->
    (b = false -> safe Q false (k None)) -> safe Q b (MGet x k)
| s_get_o b y k : y <> x -> (forall o, safe Q b (k o)) -> safe Q b (MGet y k)
| s_put b c k : V c -> safe Q true k -> safe Q b (MPut x c k)
| s_put_o b y c k : y <> x -> safe Q b k -> safe Q b (MPut y c k)
| s_del_o b y k : y <> x -> (forall o, safe Q b (k o)) -> safe Q b (MDel y k)
| s_fac b k : (forall fam, good_family fam -> safe Q b (k (Some fam))) -> safe Q b (k None) ->
    safe Q b (MFactory x k)
| s_fac_o b y k : y <> x -> (forall o, safe Q b (k o)) -> safe Q b (MFactory y k)
| s_pfac b fam k : good_family fam -> safe Q b k -> safe Q b (MPutFactory x fam k)
| s_pfac_o b y fam k : y <> x -> safe Q b k -> safe Q b (MPutFactory y fam k).

Lemma safe_then : forall A B (Q : bool -> res A -> Prop) (Q' : bool -> res B -> Prop) b t f,
  safe Q b t -> (forall b' r, Q b' r -> safe Q' b' (f r)) -> safe Q' b (then_m t f).
Proof.
  intros A B Q Q' b t f H K. induction H; cbn [then_m].
  - apply K, H.
  - apply s_get; auto.
  - apply s_get_o; auto.
  - apply s_put; auto.
  - apply s_put_o; auto.
  - apply s_del_o; auto.
  - apply s_fac; auto.
  - apply s_fac_o; auto.
  - apply s_pfac; auto.
  - apply s_pfac_o; auto.
Qed.

Lemma safe_bind : forall A B (Q : bool -> res A -> Prop) (Q' : bool -> res B -> Prop) b t f,
  safe Q b t -> (forall b' a, Q b' (Ok a) -> safe Q' b' (f a)) ->
  (forall b' e, Q b' (Raise e) -> Q' b' (Raise e)) -> safe Q' b (bind_m t f).
Proof.
  intros A B Q Q' b t f H K E. apply (safe_then _ _ Q); [exact H|].
  intros b' [a|e] Hq; [apply K, Hq|]. apply s_done, E, Hq.
Qed.

Lemma safe_weaken : forall A (Q Q' : bool -> res A -> Prop) b t,
  safe Q b t -> (forall b' r, Q b' r -> Q' b' r) -> safe Q' b t.
Proof.
  intros A Q Q' b t H K. induction H.
  - apply s_done, K, H.
  - apply s_get; auto.
  - apply s_get_o; auto.
  - apply s_put; auto.
  - apply s_put_o; auto.
  - apply s_del_o; auto.
  - apply s_fac; auto.
  - apply s_fac_o; auto.
  - apply s_pfac; auto.
  - apply s_pfac_o; auto.
Qed.

(** ** Loading and looking up the identifier *)

Definition fails {A} (r : res A) : Prop := exists e, r = Raise e /\ resolve cm x = Raise e /\ P.

Lemma load_x : forall d b, (b = false -> P) ->
  safe (fun b' (r : res unit) => (r = Ok tt /\ b' = true) \/ (b' = b /\ fails r)) b (load_m cm (S d) x).
Proof.
  intros d b Hp. cbn [load_m]. apply s_get.
  - intros c Hc. unfold getitem_with. cbn [bind_m then_m].
    apply s_get; [|discriminate]. intros c1 H1. cbn. apply s_get; [|discriminate].
    intros c2 H2. cbn. apply s_done. left. auto.
  - intros ->. specialize (Hp eq_refl). apply s_fac.
    + intros fam (pkg2 & n & f & Hn & Hi & Hf). rewrite Hf. apply s_put; [|apply s_done; auto].
      apply (HV _ Hp). rewrite resolve_fresh. unfold fresh_load. rewrite Hn, Hi, Hf. reflexivity.
    + destruct (namespace_of x) as [[pkg2 n]|] eqn:Hn.
      * destruct (import_factory pkg2 (module_name n)) as [fam|] eqn:Hi.
        -- destruct (factory_call cm fam x) as [[f|]|e] eqn:Hf.
           ++ apply s_put; [|apply s_pfac; [exists pkg2, n, f; auto|apply s_done; auto]].
              apply (HV _ Hp). rewrite resolve_fresh. unfold fresh_load. rewrite Hn, Hi, Hf. reflexivity.
           ++ apply s_done. right. split; [reflexivity|]. eexists. split; [reflexivity|].
              split; [|exact Hp]. rewrite resolve_fresh. unfold fresh_load. rewrite Hn, Hi, Hf. reflexivity.
           ++ apply s_done. right. split; [reflexivity|]. eexists. split; [reflexivity|].
              split; [|exact Hp]. rewrite resolve_fresh. unfold fresh_load. rewrite Hn, Hi, Hf. reflexivity.
        -- apply s_put; [|apply s_done; auto].
           apply (HV _ Hp). rewrite resolve_fresh. unfold fresh_load. rewrite Hn, Hi. reflexivity.
      * apply s_done. right. split; [reflexivity|]. eexists. split; [reflexivity|].
        split; [|exact Hp]. rewrite resolve_fresh. unfold fresh_load. rewrite Hn. reflexivity.
Qed.

Lemma getitem_x : forall d b, (b = false -> P) ->
  safe (fun b' (r : res fclass) => (exists c, r = Ok c /\ V c /\ b' = true) \/ (b' = b /\ fails r))
    b (getitem_m cm (S d) x).
Proof.
  intros d b Hp. unfold getitem_m, getitem_with. apply s_get.
  - intros c Hc. cbn. apply s_get; [|discriminate]. intros c1 H1. apply s_done. left. eauto.
  - intros ->. eapply safe_bind; [apply load_x, Hp| |].
    + intros b' a [[_ ->]|[-> (e & He & _)]]; [|discriminate].
      apply s_get; [|discriminate]. intros c1 H1. apply s_done. left. eauto.
    + intros b' e [[He _]|[-> (e' & He & Hr)]]; [discriminate|]. injection He as ->. right.
      split; [reflexivity|]. exists e'. auto.
Qed.

Lemma get_x : forall d b, (b = false -> P) ->
  safe (fun b' (r : res (option fclass)) =>
          (exists c, r = Ok (Some c) /\ V c /\ b' = true) \/ (b' = b /\ fails r))
    b (get_m cm (S d) x).
Proof.
  intros d b Hp. unfold get_m. apply s_get.
  - intros c Hc. apply s_done. left. eauto.
  - intros ->. eapply safe_bind; [apply load_x, Hp| |].
    + intros b' a [[_ ->]|[-> (e & He & _)]]; [|discriminate].
      apply s_get; [|discriminate]. intros c1 H1. apply s_done. left. eauto.
    + intros b' e [[He _]|[-> (e' & He & Hr)]]; [discriminate|]. injection He as ->. right.
      split; [reflexivity|]. exists e'. auto.
Qed.

(** ** Other identifiers *)

Lemma load_o : forall d y b, y <> x -> safe (fun b' (_ : res unit) => b' = b) b (load_m cm d y).
Proof.
  induction d as [|d IH]; intros y b Hy; cbn [load_m]; apply s_get_o; auto; intros [c|].
  - apply s_done. reflexivity.
  - apply s_fac_o; auto. intros [fam|].
    + destruct (factory_call cm fam y) as [[f|]|e]; [apply s_put_o; auto| |]; apply s_done; reflexivity.
    + destruct (namespace_of y) as [[pkg2 n]|]; [|apply s_done; reflexivity].
      destruct (import_factory pkg2 (module_name n)) as [fam|].
      * destruct (factory_call cm fam y) as [[f|]|e];
          [apply s_put_o; auto; apply s_pfac_o; auto| |]; apply s_done; reflexivity.
      * apply s_put_o; auto. apply s_done; reflexivity.
  - unfold getitem_with. cbn [bind_m then_m]. apply s_get_o; auto. intros o.
    eapply safe_then with (Q := fun b' _ => b' = b).
    + destruct o as [c1|].
      * cbn. apply s_get_o; auto. intros [c2|]; apply s_done; reflexivity.
      * eapply safe_bind; [apply IH, Hy| |]; [|auto].
        intros b' a ->. apply s_get_o; auto. intros [c2|]; apply s_done; reflexivity.
    + intros b' [a|e] ->; apply s_done; reflexivity.
  - apply s_fac_o; auto. intros [fam|].
    + destruct (factory_call cm fam y) as [[f|]|e]; [apply s_put_o; auto| |]; apply s_done; reflexivity.
    + destruct (namespace_of y) as [[pkg2 n]|]; [|apply s_done; reflexivity].
      destruct (import_factory pkg2 (module_name n)) as [fam|].
      * destruct (factory_call cm fam y) as [[f|]|e];
          [apply s_put_o; auto; apply s_pfac_o; auto| |]; apply s_done; reflexivity.
      * apply s_put_o; auto. apply s_done; reflexivity.
Qed.

Lemma load_any : forall d y b, (b = false -> P) ->
  safe (fun b' (_ : res unit) => b = true -> b' = true) b (load_m cm (S d) y).
Proof.
  intros d y b Hp. destruct (string_dec y x) as [->|Hy].
  - eapply safe_weaken; [apply load_x, Hp|]. intros b' r [[_ ->]|[-> _]] H; auto.
  - eapply safe_weaken; [apply load_o, Hy|]. intros b' r -> H; auto.
Qed.

Lemma load_all_any : forall d ids b, (b = false -> P) ->
  safe (fun b' (_ : res unit) => b = true -> b' = true) b (load_all_m cm (S d) ids).
Proof.
  induction ids as [|y ids IH]; intros b Hp; cbn [load_all_m]; [apply s_done; auto|].
  eapply safe_bind; [apply load_any, Hp| |auto].
  intros b' a Hb. eapply safe_weaken; [apply IH|].
  - intros ->. apply Hp. destruct b; [|reflexivity]. discriminate (Hb eq_refl).
  - cbn. intros b2 r H1 H2. auto.
Qed.

(** ** Operations *)

(** Acceptable outcomes. *)
Definition good (o : fop) (r : res (option fclass)) : Prop :=
  match o with
  | FGetItem id | FGet id => id = x -> (exists c, r = Ok (Some c) /\ V c) \/ fails r
  | FLoad id => id = x -> r = Ok None \/ fails r
  | FLoadCustom _ _ | FSetItem _ _ => r = one_outcome cm o fm_new
  | _ => True
  end.

Lemma op_safe : forall d o b, (b = false -> P) -> o <> FDelItem x ->
  (forall c, installs x o c -> V c) ->
  safe (fun b' r => good o r /\ (b = true -> b' = true) /\ (forall c, installs x o c -> b' = true))
    b (op_m cm (S d) o).
Proof.
  intros d o b Hp Hd Hi. destruct o as [y|y|y| |y src|y v|y]; cbn [op_m good].
  - destruct (string_dec y x) as [->|Hy].
    + eapply safe_bind; [apply getitem_x, Hp| |].
      * intros b' c [(c' & [= <-] & Hc & ->)|[-> (e & He & _)]]; [|discriminate].
        apply s_done. split; [|split; [auto|intros ? []]]. intros _. left. eauto.
      * intros b' e [(c' & He & _)|[-> (e' & [= <-] & Hr)]]; [discriminate|].
        split; [|split; [auto|intros ? []]]. intros _. right. exists e. auto.
    + apply safe_bind with (Q := fun b' (_ : res fclass) => b' = b).
      * unfold getitem_m, getitem_with. apply s_get_o; auto. intros o.
        apply safe_bind with (Q := fun b' (_ : res unit) => b' = b).
        -- destruct o; [apply s_done; reflexivity|apply load_o, Hy].
        -- intros b' a ->. apply s_get_o; auto. intros [c2|]; apply s_done; reflexivity.
        -- auto.
      * intros b' c ->. apply s_done. split; [congruence|]. split; [auto|intros ? []].
      * intros b' e ->. split; [congruence|]. split; [auto|intros ? []].
  - destruct (string_dec y x) as [->|Hy].
    + eapply safe_weaken; [apply get_x, Hp|].
      intros b' r [(c' & -> & Hc & ->)|[-> Hf]].
      * split; [|split; [auto|intros ? []]]. intros _. left. eauto.
      * split; [|split; [auto|intros ? []]]. intros _. right. exact Hf.
    + unfold get_m. apply s_get_o; auto. intros [c|].
      * apply s_done. split; [congruence|]. split; [auto|intros ? []].
      * apply safe_bind with (Q := fun b' (_ : res unit) => b' = b).
        -- apply load_o, Hy.
        -- intros b' a ->. apply s_get_o; auto. intros o. apply s_done.
           split; [congruence|]. split; [auto|intros ? []].
        -- intros b' e ->. split; [congruence|]. split; [auto|intros ? []].
  - destruct (string_dec y x) as [->|Hy].
    + eapply safe_bind; [apply load_x, Hp| |].
      * intros b' c [(_ & ->)|[-> (e & He & _)]]; [|discriminate].
        apply s_done. split; [|split; [auto|intros ? []]]. auto.
      * intros b' e [(He & _)|[-> (e' & [= <-] & Hr)]]; [discriminate|].
        split; [|split; [auto|intros ? []]]. intros _. right. exists e. auto.
    + apply safe_bind with (Q := fun b' (_ : res unit) => b' = b).
      * apply load_o, Hy.
      * intros b' a ->. apply s_done. split; [congruence|]. split; [auto|intros ? []].
      * intros b' e ->. split; [congruence|]. split; [auto|intros ? []].
  - eapply safe_bind; [apply load_all_any, Hp| |].
    + intros b' a H. apply s_done. split; [exact I|]. split; [exact H|intros ? []].
    + intros b' e H. split; [exact I|]. split; [exact H|intros ? []].
  - unfold load_custom_m, one_outcome, fm_load_custom. destruct (str_in y FUNCTION_NAMES) eqn:Es.
    + apply s_done. split; [reflexivity|]. split; [auto|]. intros c (-> & Hn & _). exfalso. apply Hn.
      unfold str_in in Es. apply existsb_exists in Es. destruct Es as (z & Hz & He).
      apply String.eqb_eq in He. subst. exact Hz.
    + assert (Hn : ~ In y FUNCTION_NAMES).
      { intros Hin. assert (str_in y FUNCTION_NAMES = true) as K; [|congruence].
        unfold str_in. apply existsb_exists. exists y. split; [exact Hin|apply String.eqb_refl]. }
      assert (K : forall c, yields src = Some c ->
        safe (fun b' (r : res (option fclass)) => r = Ok None /\ (b = true -> b' = true) /\
             (forall c0, installs x (FLoadCustom y src) c0 -> b' = true)) b
             (MPut y c (MDone (Ok None)))).
      { intros c Hy. destruct (string_dec y x) as [->|Hx].
        - apply s_put; [apply (Hi c); cbn; auto|]. apply s_done. split; [reflexivity|]. split; auto.
        - apply s_put_o; auto. apply s_done. split; [reflexivity|]. split; [auto|].
          cbn. intros c0 (? & _). contradiction. }
      assert (N : forall c0 b0, yields src = None -> installs x (FLoadCustom y src) c0 -> b0 = true).
      { intros c0 b0 H (_ & _ & H1). congruence. }
      destruct src as [[e| |c|]| |e|[e| |c|]]; cbn [yields] in *; cbn;
        try (apply s_done; split; [reflexivity|]; split; [auto|]; intros c0 Hc0; apply (N c0); auto);
        apply (K c eq_refl).
  - destruct v as [c|]; cbn.
    + destruct (string_dec y x) as [->|Hy].
      * apply s_put; [apply (Hi c); cbn; auto|]. apply s_done. split; [reflexivity|]. split; auto.
      * apply s_put_o; auto. apply s_done. split; [reflexivity|]. split; [auto|].
        intros c0 (? & _). contradiction.
    + apply s_done. split; [reflexivity|]. split; [auto|]. intros c0 (_ & He). discriminate.
  - cbn. apply s_del_o; [congruence|]. intros []; apply s_done; (split; [exact I|]; split; [auto|intros ? []]).
Qed.

Lemma ops_safe : forall d ops b, (b = false -> P) -> ~ In (FDelItem x) ops ->
  (forall o c, In o ops -> installs x o c -> V c) ->
  safe (fun b' r => (b = true -> b' = true) /\
          exists rs, r = Ok rs /\ Forall2 good ops rs /\
            (forall o c, In o ops -> installs x o c -> b' = true))
    b (ops_m cm (S d) ops).
Proof.
  induction ops as [|o ops IH]; intros b Hp Hd Hi; cbn [ops_m].
  - apply s_done. split; [auto|]. exists []. split; [reflexivity|]. split; [constructor|]. intros ? ? [].
  - eapply safe_then; [apply op_safe; [exact Hp| |]|].
    + intros ->. apply Hd. left. reflexivity.
    + intros c. apply Hi. left. reflexivity.
    + intros b1 r (Hg & Hb1 & Hi1). eapply safe_bind; [apply IH| |].
      * intros ->. apply Hp. destruct b; [|reflexivity]. discriminate (Hb1 eq_refl).
      * intros Hin. apply Hd. right. exact Hin.
      * intros o' c Hin. apply Hi. right. exact Hin.
      * cbn. intros b2 rs (Hb2 & rs' & [= <-] & HF & Hi2). apply s_done. split; [auto|].
        exists (r :: rs). split; [reflexivity|]. split; [constructor; assumption|].
        intros o' c [<-|Hin] Hc; [apply Hb2, (Hi1 c Hc)|apply (Hi2 o' c Hin Hc)].
      * cbn. intros b2 e (_ & rs' & He & _). discriminate.
Qed.

(** ** The threads together *)

Definition map_ok (m : fmap) : Prop :=
  (forall c, dict_get x (fm_map m) = Some c -> V c) /\
  (forall fam, dict_get x (fm_factories m) = Some fam -> good_family fam).

Definition pool_ok_m {A} (Q : nat -> bool -> res A -> Prop) (s : list (MT A) * fmap) : Prop :=
  map_ok (snd s) /\
  forall i t, nth_error (fst s) i = Some t ->
    exists b, safe (Q i) b t /\ (b = true -> dict_get x (fm_map (snd s)) <> None).

Lemma nth_replace_same : forall A i (t y : A) l, nth_error l i = Some y ->
  nth_error (replace_nth i t l) i = Some t.
Proof. induction i as [|i IH]; intros t y [|z l] H; cbn in *; try discriminate; [reflexivity|eauto]. Qed.
Lemma nth_replace_other : forall A i j (t : A) l, i <> j ->
  nth_error (replace_nth i t l) j = nth_error l j.
Proof.
  induction i as [|i IH]; intros [|j] t [|z l] H; cbn; try reflexivity; try congruence. apply IH. lia.
Qed.

Lemma step_ok : forall A (Q : bool -> res A -> Prop) b t m,
  safe Q b t -> map_ok m -> (b = true -> dict_get x (fm_map m) <> None) ->
  let '(t', m') := step_m t m in
  map_ok m' /\
  (exists b', safe Q b' t' /\ (b' = true -> dict_get x (fm_map m') <> None)) /\
  (dict_get x (fm_map m) <> None -> dict_get x (fm_map m') <> None).
Proof.
  intros A Q b t m H MM Hb. pose proof MM as [M1 M2]. inversion H; subst; cbn [step_m].
  - split; [exact MM|]. split; [exists b; auto|auto].
  - destruct (dict_get x (fm_map m)) as [c|] eqn:E.
    + split; [exact MM|]. split; [exists true; split; [apply H0, M1; congruence|congruence]|congruence].
    + split; [exact MM|]. destruct b; [exfalso; apply (Hb eq_refl); congruence|].
      split; [exists false; split; [auto|discriminate]|congruence].
  - split; [exact MM|]. split; [exists b; auto|auto].
  - unfold fm_put, map_ok. cbn [fm_map fm_factories]. rewrite dict_get_set_same.
    split; [split; [intros c' [= <-]; assumption|auto]|]. split; [exists true; split; [assumption|discriminate]|discriminate].
  - unfold fm_put, map_ok. cbn [fm_map fm_factories].
    rewrite dict_get_set_other by congruence.
    split; [split; auto|]. split; [exists b; auto|auto].
  - destruct (dict_mem y (fm_map m)); [|split; [split; auto|]; split; [exists b; auto|auto]].
    unfold map_ok. cbn [fm_map fm_factories]. rewrite dict_get_del_other by congruence.
    split; [split; auto|]. split; [exists b; auto|auto].
  - split; [exact MM|]. split; [exists b; split; [|auto]|auto].
    destruct (dict_get x (fm_factories m)) as [fam|] eqn:E; [apply H0, M2; congruence|assumption].
  - split; [exact MM|]. split; [exists b; auto|auto].
  - unfold map_ok. cbn [fm_map fm_factories]. rewrite dict_get_set_same.
    split; [split; [auto|intros f [= <-]; assumption]|]. split; [exists b; auto|auto].
  - unfold map_ok. cbn [fm_map fm_factories]. rewrite dict_get_set_other by congruence.
    split; [split; auto|]. split; [exists b; auto|auto].
Qed.

Lemma pool_step : forall A (Q : nat -> bool -> res A -> Prop) i s,
  pool_ok_m Q s -> pool_ok_m Q (schedule_step_m i s).
Proof.
  intros A Q i [l m] [Hm Hl]. unfold schedule_step_m. cbn [fst snd] in *.
  destruct (nth_error l i) as [t|] eqn:E; [|split; assumption].
  destruct (Hl i t E) as (b & Hs & Hb). pose proof (step_ok _ _ _ _ _ Hs Hm Hb) as K.
  destruct (step_m t m) as [t' m']. destruct K as (K1 & (b' & K2 & K3) & K4).
  split; [exact K1|]. cbn [fst snd]. intros j u Hj. destruct (Nat.eq_dec i j) as [<-|Hne].
  - rewrite (nth_replace_same _ _ _ _ _ E) in Hj. injection Hj as <-. exists b'. auto.
  - rewrite nth_replace_other in Hj by exact Hne. destruct (Hl j u Hj) as (bj & H1 & H2).
    exists bj. split; [exact H1|]. auto.
Qed.

Lemma pool_run_m : forall A (Q : nat -> bool -> res A -> Prop) sched s,
  pool_ok_m Q s -> pool_ok_m Q (run_schedule_m sched s).
Proof.
  induction sched as [|i sched IH]; intros s H; [exact H|]. cbn [run_schedule_m]. apply IH, pool_step, H.
Qed.
End Safe.

(** ** From a history *)

(** The classes that may be found under [x]. *)
Definition may_find (cm : list (string * avclass)) (before : list fop) (threads : list (list fop))
  (x : string) (c : fclass) : Prop :=
  expected cm before x = Ok c \/ installed_by_some threads x c.

Section History.
Variable cm : list (string * avclass).
Variable d : nat.
Variable before : list fop.
Variable threads : list (list fop).
Variable x : string.
Hypothesis Hdel : ~ deleted_by_some threads x.

Local Notation V := (may_find cm before threads x).
Local Notation P := (last_custom x before = None).

Lemma history_inv : inv cm (fun id => last_custom id before) (fm_run cm before fm_new).
Proof. exact (fm_run_inv cm before (fun _ => None) fm_new (inv_new cm)). Qed.

Lemma start_ok_m : pool_ok_m cm x V
  (fun i b r => forall ops, nth_error threads i = Some ops ->
     exists rs, r = Ok rs /\ Forall2 (good cm x V P) ops rs /\
       (forall o c, In o ops -> installs x o c -> b = true))
  (start_m cm (S d) before threads).
Proof.
  assert (HVP : forall c, P -> resolve cm x = Ok c -> V c).
  { intros c H1 H2. left. unfold expected. rewrite H1. exact H2. }
  pose proof history_inv as I. unfold start_m. split; cbn [fst snd].
  - split.
    + intros c Hc. left. unfold expected. destruct (last_custom x before) as [c'|] eqn:E.
      * pose proof (inv_custom _ _ _ I x c' E) as K. congruence.
      * apply (inv_std _ _ _ I x c E Hc).
    + intros fam Hf. exact (inv_factory _ _ _ I x fam Hf).
  - intros i t Ht. rewrite nth_error_map in Ht. destruct (nth_error threads i) as [ops|] eqn:E; [|discriminate].
    injection Ht as <-.
    exists (match last_custom x before with Some _ => true | None => false end). split.
    + eapply safe_weaken; [apply (ops_safe cm x V P HVP)|].
      * destruct (last_custom x before); [discriminate|reflexivity].
      * intros Hin. apply Hdel. exists ops. split; [apply (nth_error_In _ _ E)|exact Hin].
      * intros o c Hin Hc. right. exists ops, o. split; [apply (nth_error_In _ _ E)|auto].
      * cbn. intros b r (_ & H) ops' [= <-]. exact H.
    + destruct (last_custom x before) as [c|] eqn:Ec; [|discriminate]. intros _.
      rewrite (inv_custom _ _ _ I x c Ec). discriminate.
Qed.

Lemma after_ok : forall sched, pool_ok_m cm x V
  (fun i b r => forall ops, nth_error threads i = Some ops ->
     exists rs, r = Ok rs /\ Forall2 (good cm x V P) ops rs /\
       (forall o c, In o ops -> installs x o c -> b = true))
  (run_schedule_m sched (start_m cm (S d) before threads)).
Proof. intros sched. apply pool_run_m, start_ok_m. Qed.

Lemma forall2_nth : forall A B (R : A -> B -> Prop) l l' j a b,
  Forall2 R l l' -> nth_error l j = Some a -> nth_error l' j = Some b -> R a b.
Proof.
  intros A B R l l' j a b H. revert j. induction H as [|y z l l' Hyz H IH]; intros [|j] Ha Hb; cbn in *; try discriminate.
  - congruence.
  - eauto.
Qed.

Lemma outcome_good : forall sched i j o r,
  outcome_m cm (S d) before threads sched i j o r -> good cm x V P o r.
Proof.
  intros sched i j o r (ops & rs & Hops & Ho & Hf & Hr).
  destruct (after_ok sched) as [_ K]. destruct (K i _ Hf) as (b & Hs & _).
  inversion Hs as [b' r' Hq| | | | | | | | |]; subst.
  destruct (Hq ops Hops) as (rs' & [= <-] & HF & _). exact (forall2_nth _ _ _ _ _ _ _ _ HF Ho Hr).
Qed.

Lemma finished_present : forall sched i ops rs o c,
  nth_error threads i = Some ops -> In o ops -> installs x o c ->
  finished_m cm (S d) before threads sched i rs ->
  exists c', dict_get x (fm_map (map_after cm (S d) before threads sched)) = Some c' /\ V c'.
Proof.
  intros sched i ops rs o c Hops Hin Hi Hf.
  destruct (after_ok sched) as [[K1 _] K]. destruct (K i _ Hf) as (b & Hs & Hp).
  inversion Hs as [b' r' Hq| | | | | | | | |]; subst.
  destruct (Hq ops Hops) as (rs' & _ & _ & H). specialize (Hp (H o c Hin Hi)).
  unfold map_after. destruct (dict_get x (fm_map (snd (run_schedule_m sched (start_m cm (S d) before threads)))))
    as [c'|] eqn:E; [|congruence]. exists c'. split; [reflexivity|]. apply K1. congruence.
Qed.

(** A lookup after any schedule *)
Lemma lookup_after_schedule : forall sched,
  match fst (fm_getitem cm x (map_after cm (S d) before threads sched)) with
  | Ok c => V c
  | Raise e => expected cm before x = Raise e
  end.
Proof.
  intros sched. destruct (after_ok sched) as [[K1 K2] K].
  unfold map_after. set (m := snd (run_schedule_m sched (start_m cm (S d) before threads))) in *.
  unfold fm_getitem. destruct (dict_get x (fm_map m)) as [c|] eqn:E.
  - cbn. rewrite E. cbn. apply K1. reflexivity.
  - assert (Hp : P).
    { destruct (last_custom x before) as [c|] eqn:Ec; [|reflexivity]. exfalso.
      assert (G : forall sched', dict_get x (fm_map (snd (run_schedule_m sched' (start_m cm (S d) before threads)))) <> None).
      { clear -Ec Hdel. intros sched'.
        set (s0 := start_m cm (S d) before threads).
        assert (H0 : dict_get x (fm_map (snd s0)) <> None).
        { unfold s0, start_m. cbn [snd]. rewrite (inv_custom _ _ _ history_inv x c Ec). discriminate. }
        pose proof start_ok_m as Hs. fold s0 in Hs.
        clearbody s0. revert s0 H0 Hs. induction sched' as [|i sched' IH]; intros s0 H0 Hs; [exact H0|].
        cbn [run_schedule_m]. apply IH; [|apply pool_step, Hs].
        unfold schedule_step_m. destruct (nth_error (fst s0) i) as [t|] eqn:Et; [|exact H0].
        destruct Hs as [Hm Hl]. destruct (Hl i t Et) as (b & H1 & H2).
        pose proof (step_ok cm x V _ _ _ _ _ H1 Hm H2) as Kx.
        destruct (step_m t (snd s0)) as [t' m']. cbn [snd]. apply Kx, H0. }
      apply (G sched), E. }
    assert (Hexp : expected cm before x = resolve cm x) by (unfold expected; rewrite Hp; reflexivity).
    rewrite Hexp. unfold fm_load, dict_mem. rewrite E.
    assert (Hfresh : resolve cm x = fresh_load cm x) by apply resolve_fresh. unfold fresh_load in Hfresh.
    destruct (dict_get x (fm_factories m)) as [fam|] eqn:Ef.
    + destruct (K2 fam eq_refl) as (pkg2 & n & f & Hn & Hi & Hc). rewrite Hn, Hi, Hc in Hfresh. rewrite Hc.
      unfold fm_put. cbn [fm_map]. rewrite dict_get_set_same. cbn. left. congruence.
    + destruct (namespace_of x) as [[pkg2 n]|]; [|cbn; exact Hfresh].
      destruct (import_factory pkg2 (module_name n)) as [fam|].
      * destruct (factory_call cm fam x) as [[f|]|e]; [|cbn; exact Hfresh|cbn; exact Hfresh].
        unfold fm_put. cbn [fm_map fm_factories]. rewrite dict_get_set_same. cbn. left. congruence.
      * unfold fm_put. cbn [fm_map]. rewrite dict_get_set_same. cbn. left. congruence.
Qed.
End History.

(** ** One thread alone *)

Fixpoint run_alone_m {A} (t : MT A) (m : fmap) : res A * fmap :=
  match t with
  | MDone r => (r, m)
  | MGet id k => run_alone_m (k (dict_get id (fm_map m))) m
  | MPut id c k => run_alone_m k (fm_put id c m)
  | MDel id k =>
      if dict_mem id (fm_map m)
      then run_alone_m (k true) (mkFmap (dict_del id (fm_map m)) (fm_factories m))
      else run_alone_m (k false) m
  | MFactory id k => run_alone_m (k (dict_get id (fm_factories m))) m
  | MPutFactory id fam k => run_alone_m k (mkFmap (fm_map m) (dict_set id fam (fm_factories m)))
  end.

Lemma alone_then_m : forall A B (t : MT A) (f : res A -> MT B) m,
  run_alone_m (then_m t f) m = let '(r, m1) := run_alone_m t m in run_alone_m (f r) m1.
Proof.
  induction t as [r|id k IH|id c t IH|id k IH|id k IH|id fam t IH]; intros f m; cbn [then_m run_alone_m]; auto.
  destruct (dict_mem id (fm_map m)); apply IH.
Qed.

Lemma alone_bind_m : forall A B (t : MT A) (f : A -> MT B) m,
  run_alone_m (bind_m t f) m =
  let '(r, m1) := run_alone_m t m in match r with Ok a => run_alone_m (f a) m1 | Raise e => (Raise e, m1) end.
Proof.
  intros. unfold bind_m. rewrite alone_then_m. destruct (run_alone_m t m) as [[a|e] m1]; reflexivity.
Qed.

Lemma alone_load : forall cm d id m, run_alone_m (load_m cm (S d) id) m = fm_load cm id m.
Proof.
  intros cm d id m. cbn [load_m run_alone_m]. unfold fm_load, dict_mem.
  destruct (dict_get id (fm_map m)) as [c|] eqn:E.
  - rewrite alone_bind_m. unfold getitem_with. cbn [run_alone_m]. rewrite E, alone_bind_m. cbn [run_alone_m].
    rewrite E. reflexivity.
  - cbn [run_alone_m]. destruct (dict_get id (fm_factories m)) as [fam|].
    + destruct (factory_call cm fam id) as [[f|]|e]; reflexivity.
    + destruct (namespace_of id) as [[pkg2 n]|]; [|reflexivity].
      destruct (import_factory pkg2 (module_name n)) as [fam|]; [|reflexivity].
      destruct (factory_call cm fam id) as [[f|]|e]; reflexivity.
Qed.

Lemma alone_getitem : forall cm d id m, run_alone_m (getitem_m cm (S d) id) m = fm_getitem cm id m.
Proof.
  intros cm d id m. unfold getitem_m, getitem_with, fm_getitem. cbn [run_alone_m]. rewrite alone_bind_m.
  destruct (dict_get id (fm_map m)) as [c|] eqn:E.
  - cbn [run_alone_m]. rewrite E. reflexivity.
  - rewrite alone_load. destruct (fm_load cm id m) as [[u|e] m1]; [|reflexivity].
    cbn [run_alone_m]. destruct (dict_get id (fm_map m1)); reflexivity.
Qed.

Lemma alone_get : forall cm d id m, run_alone_m (get_m cm (S d) id) m = fm_get cm id m.
Proof.
  intros cm d id m. unfold get_m, fm_get. cbn [run_alone_m].
  destruct (dict_get id (fm_map m)) as [c|] eqn:E; [reflexivity|].
  rewrite alone_bind_m, alone_load. destruct (fm_load cm id m) as [[u|e] m1]; reflexivity.
Qed.

Lemma alone_load_all : forall cm d ids m, run_alone_m (load_all_m cm (S d) ids) m = fm_load_all cm ids m.
Proof.
  induction ids as [|id ids IH]; intros m; [reflexivity|]. cbn [load_all_m fm_load_all].
  rewrite alone_bind_m, alone_load. destruct (fm_load cm id m) as [[u|e] m1]; [apply IH|reflexivity].
Qed.

Lemma alone_op : forall cm d o m,
  run_alone_m (op_m cm (S d) o) m = (one_outcome cm o m, fm_step cm o m).
Proof.
  intros cm d o m. destruct o as [id|id|id| |id src|id v|id]; cbn [op_m one_outcome fm_step].
  - rewrite alone_bind_m, alone_getitem. destruct (fm_getitem cm id m) as [[c|e] m1]; reflexivity.
  - rewrite alone_get. destruct (fm_get cm id m); reflexivity.
  - rewrite alone_bind_m, alone_load. destruct (fm_load cm id m) as [[c|e] m1]; reflexivity.
  - rewrite alone_bind_m, alone_load_all. destruct (fm_load_all cm FUNCTION_NAMES m) as [[c|e] m1]; reflexivity.
  - rewrite alone_bind_m. unfold load_custom_m, fm_load_custom.
    destruct (str_in id FUNCTION_NAMES); [reflexivity|].
    destruct src as [[e| |c|]| |e|[e| |c|]]; reflexivity.
  - rewrite alone_bind_m. destruct v; reflexivity.
  - rewrite alone_bind_m. unfold delitem_m, fm_delitem. cbn [run_alone_m].
    destruct (dict_mem id (fm_map m)); reflexivity.
Qed.

Lemma alone_ops : forall cm d ops m,
  run_alone_m (ops_m cm (S d) ops) m = (Ok (outcomes_alone cm ops m), fm_run cm ops m).
Proof.
  induction ops as [|o ops IH]; intros m; [reflexivity|]. cbn [ops_m outcomes_alone].
  rewrite alone_then_m, alone_op, alone_bind_m, IH. reflexivity.
Qed.

Lemma alone_schedule_m : forall A (t : MT A) m, exists n,
  run_schedule_m (repeat 0 n) ([t], m) = ([MDone (fst (run_alone_m t m))], snd (run_alone_m t m)).
Proof.
  induction t as [r|id k IH|id c t IH|id k IH|id k IH|id fam t IH]; intros m.
  - exists 0. reflexivity.
  - destruct (IH (dict_get id (fm_map m)) m) as [n H]. exists (S n). exact H.
  - destruct (IH (fm_put id c m)) as [n H]. exists (S n). exact H.
  - destruct (dict_mem id (fm_map m)) eqn:E.
    + destruct (IH true (mkFmap (dict_del id (fm_map m)) (fm_factories m))) as [n H]. exists (S n).
      cbn [repeat run_schedule_m run_alone_m]. unfold schedule_step_m. cbn [nth_error fst snd step_m].
      rewrite E. exact H.
    + destruct (IH false m) as [n H]. exists (S n).
      cbn [repeat run_schedule_m run_alone_m]. unfold schedule_step_m. cbn [nth_error fst snd step_m].
      rewrite E. exact H.
  - destruct (IH (dict_get id (fm_factories m)) m) as [n H]. exists (S n). exact H.
  - destruct (IH (mkFmap (fm_map m) (dict_set id fam (fm_factories m)))) as [n H]. exists (S n). exact H.
Qed.

(** ** Termination *)

Lemma run_app_m : forall A a b (s : list (MT A) * fmap),
  run_schedule_m (a ++ b)%list s = run_schedule_m b (run_schedule_m a s).
Proof. induction a as [|i a IH]; intros b s; [reflexivity|]. cbn [run_schedule_m app]. apply IH. Qed.

Lemma done_stays_m : forall A sched i (s : list (MT A) * fmap) r,
  nth_error (fst s) i = Some (MDone r) -> nth_error (fst (run_schedule_m sched s)) i = Some (MDone r).
Proof.
  induction sched as [|j sched IH]; intros i s r H; [exact H|]. cbn [run_schedule_m]. apply IH.
  unfold schedule_step_m. destruct (nth_error (fst s) j) as [t|] eqn:E; [|exact H].
  destruct (Nat.eq_dec j i) as [->|Hne].
  - rewrite E in H. injection H as ->. cbn [step_m fst]. apply (nth_replace_same _ _ _ _ _ E).
  - destruct (step_m t (snd s)). cbn [fst]. rewrite nth_replace_other by exact Hne. exact H.
Qed.

(** Steps of the others leave a thread as it is. *)
Lemma others_m : forall A sched i (s : list (MT A) * fmap) t,
  ~ In i sched -> nth_error (fst s) i = Some t -> nth_error (fst (run_schedule_m sched s)) i = Some t.
Proof.
  induction sched as [|j sched IH]; intros i s t Hn H; [exact H|]. cbn [run_schedule_m].
  apply IH; [intros Hin; apply Hn; right; exact Hin|].
  unfold schedule_step_m. destruct (nth_error (fst s) j) as [u|] eqn:E; [|exact H].
  destruct (step_m u (snd s)). cbn [fst]. rewrite nth_replace_other; [exact H|].
  intros ->. apply Hn. left. reflexivity.
Qed.

(** The next time the thread is scheduled. *)
Lemma next_turn : forall (sched : nat -> nat) i n, recurring sched i ->
  exists m, n <= m /\ sched m = i /\ forall j, n <= j < m -> sched j <> i.
Proof.
  intros sched i n Hr. destruct (Hr n) as (m & Hm & Hs).
  remember (m - n) as k eqn:Hk. assert (K : m = n + k) by lia. clear Hk. subst m. clear Hm.
  revert n Hs. induction k as [|k IH]; intros n Hs.
  - exists n. split; [lia|]. split; [rewrite Nat.add_0_r in Hs; exact Hs|]. intros j Hj. lia.
  - destruct (Nat.eq_dec (sched n) i) as [E|E].
    + exists n. split; [lia|]. split; [exact E|]. intros j Hj. lia.
    + replace (n + S k) with (S n + k) in Hs by lia. destruct (IH (S n) Hs) as (m & H1 & H2 & H3).
      exists m. split; [lia|]. split; [exact H2|]. intros j Hj.
      destruct (Nat.eq_dec j n) as [->|]; [exact E|]. apply H3. lia.
Qed.

Lemma thread_ends_m : forall A (sched : nat -> nat) i, recurring sched i ->
  forall (t : MT A) n (s : list (MT A) * fmap), nth_error (fst s) i = Some t ->
  exists k r, nth_error (fst (run_schedule_m (map sched (seq n k)) s)) i = Some (MDone r).
Proof.
  intros A sched i Hr t.
  assert (Step : forall n (s : list (MT A) * fmap) u, nth_error (fst s) i = Some u ->
    exists k s1, run_schedule_m (map sched (seq n k)) s = s1 /\ exists m0, nth_error (fst s1) i = Some (fst (step_m u m0))).
  { intros n s u Hu. destruct (next_turn sched i n Hr) as (m & Hm & Hs & Hno).
    exists (S (m - n)), (run_schedule_m (map sched (seq n (S (m - n)))) s). split; [reflexivity|].
    replace (S (m - n)) with (m - n + 1) by lia. rewrite seq_app, map_app, run_app_m.
    set (s1 := run_schedule_m (map sched (seq n (m - n))) s).
    assert (H1 : nth_error (fst s1) i = Some u).
    { apply others_m; [|exact Hu]. intros Hin. apply in_map_iff in Hin. destruct Hin as (j & Hj & Hin).
      apply in_seq in Hin. apply (Hno j); [lia|exact Hj]. }
    replace (n + (m - n)) with m by lia. cbn [seq map run_schedule_m]. rewrite Hs.
    unfold schedule_step_m. rewrite H1. exists (snd s1).
    destruct (step_m u (snd s1)) as [u' m']. cbn [fst]. apply (nth_replace_same _ _ _ _ _ H1). }
  assert (Go : forall (u : MT A), (forall m0 n s, nth_error (fst s) i = Some (fst (step_m u m0)) ->
      exists k r, nth_error (fst (run_schedule_m (map sched (seq n k)) s)) i = Some (MDone r)) ->
    forall n s, nth_error (fst s) i = Some u ->
      exists k r, nth_error (fst (run_schedule_m (map sched (seq n k)) s)) i = Some (MDone r)).
  { intros u Hu n s Hs. destruct (Step n s u Hs) as (k & s1 & H1 & m0 & H2).
    destruct (Hu m0 (n + k) s1 H2) as (k2 & r & H3). exists (k + k2), r.
    rewrite seq_app, map_app, run_app_m, H1. exact H3. }
  induction t as [r|id k IH|id c t IH|id k IH|id k IH|id fam t IH].
  - intros n s H. exists 0, r. exact H.
  - apply Go. intros m0 n s H. apply (IH _ _ _ H).
  - apply Go. intros m0 n s H. apply (IH _ _ H).
  - apply Go. intros m0 n s H. cbn [step_m] in H. destruct (dict_mem id (fm_map m0)); apply (IH _ _ _ H).
  - apply Go. intros m0 n s H. apply (IH _ _ _ H).
  - apply Go. intros m0 n s H. apply (IH _ _ H).
Qed.

(** ** Threads only ever finish with a list of outcomes, one for each operation *)

Inductive ends_with_m {A} (R : res A -> Prop) : MT A -> Prop :=
| e_done r : R r -> ends_with_m R (MDone r)
| e_get id k : (forall o, ends_with_m R (k o)) -> ends_with_m R (MGet id k)
| e_put id c k : ends_with_m R k -> ends_with_m R (MPut id c k)
| e_del id k : (forall o, ends_with_m R (k o)) -> ends_with_m R (MDel id k)
| e_fac id k : (forall o, ends_with_m R (k o)) -> ends_with_m R (MFactory id k)
| e_pfac id fam k : ends_with_m R k -> ends_with_m R (MPutFactory id fam k).

Lemma ends_then : forall A B (R : res A -> Prop) (R' : res B -> Prop) t f,
  ends_with_m R t -> (forall r, R r -> ends_with_m R' (f r)) -> ends_with_m R' (then_m t f).
Proof. intros A B R R' t f H K. induction H; cbn [then_m]; [apply K, H|constructor; auto ..]. Qed.

Lemma ends_any : forall A (t : MT A), ends_with_m (fun _ => True) t.
Proof. induction t; constructor; auto. Qed.

Lemma ends_ops : forall cm d ops,
  ends_with_m (fun r => exists rs, r = Ok rs /\ length rs = length ops) (ops_m cm d ops).
Proof.
  induction ops as [|o ops IH]; cbn [ops_m].
  - apply e_done. exists []. auto.
  - eapply ends_then; [apply ends_any|]. intros r _. unfold bind_m. eapply ends_then; [exact IH|].
    intros r' (rs & -> & Hl). apply e_done. exists (r :: rs). cbn. auto.
Qed.

Lemma ends_schedule : forall A (R : nat -> res A -> Prop) sched (s : list (MT A) * fmap),
  (forall i t, nth_error (fst s) i = Some t -> ends_with_m (R i) t) ->
  forall i t, nth_error (fst (run_schedule_m sched s)) i = Some t -> ends_with_m (R i) t.
Proof.
  induction sched as [|j sched IH]; intros s H; [exact H|]. cbn [run_schedule_m]. apply IH.
  intros i t. unfold schedule_step_m. destruct (nth_error (fst s) j) as [u|] eqn:E; [|apply H].
  destruct (step_m u (snd s)) as [u' m'] eqn:Es. cbn [fst]. destruct (Nat.eq_dec j i) as [->|Hne].
  - rewrite (nth_replace_same _ _ _ _ _ E). intros [= <-]. specialize (H i u E).
    inversion H; subst; cbn [step_m] in Es; try (injection Es as <- _; auto).
    destruct (dict_mem id (fm_map (snd s))); injection Es as <- _; auto.
  - rewrite nth_replace_other by exact Hne. apply H.
Qed.

Lemma finished_shape : forall cm d before threads sched i r,
  nth_error (fst (run_schedule_m sched (start_m cm d before threads))) i = Some (MDone r) ->
  exists ops rs, nth_error threads i = Some ops /\ r = Ok rs /\ length rs = length ops.
Proof.
  intros cm d before threads sched i r H.
  assert (K : ends_with_m (fun r => exists ops rs, nth_error threads i = Some ops /\ r = Ok rs /\ length rs = length ops)
                (MDone r)).
  { refine (ends_schedule _ (fun i r => exists ops rs, nth_error threads i = Some ops /\ r = Ok rs /\ length rs = length ops)
              sched (start_m cm d before threads) _ i _ H).
    clear. intros i t Ht. unfold start_m in Ht. cbn [fst] in Ht. rewrite nth_error_map in Ht.
    destruct (nth_error threads i) as [ops|] eqn:E; [|discriminate]. injection Ht as <-.
    pose proof (ends_ops cm d ops) as K. revert K. generalize (ops_m cm d ops) as t.
    induction 1 as [r (rs & -> & Hl)| | | | |]; constructor; auto. exists ops, rs. auto. }
  inversion K; subst. assumption.
Qed.

(** Some identifier is not deleted. *)
Lemma never_deleted : forall threads, exists z, ~ deleted_by_some threads z.
Proof.
  intros threads.
  set (names := flat_map (fun ops => flat_map (fun o => match o with FDelItem z => [z] | _ => [] end) ops) threads).
     assert (Hn : exists z, ~ In z names).
     { exists (String.concat "" names ++ "x")%string. intros Hin.
       assert (L : forall l (y : string), In y l -> String.length y <= String.length (String.concat "" l)).
       { clear. induction l as [|a l IH]; intros y Hy; [destruct Hy|]. destruct l as [|b l].
         - destruct Hy as [<-|[]]. cbn. lia.
         - change (String.concat "" (a :: b :: l)) with (a ++ "" ++ String.concat "" (b :: l))%string.
           rewrite app_length_s. cbn [append]. destruct Hy as [<-|Hy]; [lia|]. specialize (IH y Hy). lia. }
       specialize (L _ _ Hin). rewrite app_length_s in L. cbn [String.length] in L. lia. }
     destruct Hn as [z Hz]. exists z. intros (ops & H1 & H2). apply Hz. apply in_flat_map.
     exists ops. split; [exact H1|]. apply in_flat_map. exists (FDelItem z). split; [exact H2|left; reflexivity].
Qed.
