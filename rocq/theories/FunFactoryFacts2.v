(** Lemmas about the operations of function class factories. *)
From Coq Require Import Lia.
From Verif Require Import FunFactory SpecFuncMap SpecFunFactory StringFacts StateFacts FunFactoryFacts.

Local Open Scope string_scope.

Lemma load_ok : forall id s s', fa_load id s = (Ok tt, s') ->
  exists n c fn, type_for (fs_types s) (fa_suffix (fs_factory s)) id = Ok (n, c) /\
    fa_base (fs_factory s) (n ++ fa_camel (fs_factory s)) c id = Ok fn /\
    holds s' id (mkMade (fs_next s) (n ++ fa_camel (fs_factory s)) c id fn) /\
    (forall i, i <> id -> dict_get i (fa_cache (fs_factory s')) = dict_get i (fa_cache (fs_factory s))) /\
    same_factory s s' /\ fs_next s' = S (fs_next s).
Proof.
  intros id s s' H. unfold fa_load in H.
  destruct (type_for _ _ id) as [[n c]|e]; [|discriminate].
  destruct (fa_base _ _ c id) as [fn|e] eqn:E; [|discriminate].
  injection H as <-. exists n, c, fn. split; [reflexivity|]. split; [exact E|].
  split; [apply dict_get_set_same|]. split; [intros i N; apply dict_get_set_other; congruence|].
  split; [repeat split|reflexivity].
Qed.

Lemma load_raise : forall id s s' e, fa_load id s = (Raise e, s') -> s' = s.
Proof.
  intros id s s' e H. unfold fa_load in H.
  destruct (type_for _ _ id) as [[n c]|e0]; [|congruence].
  destruct (fa_base _ _ c id); congruence.
Qed.

Lemma load_does : forall id s n c fn,
  type_for (fs_types s) (fa_suffix (fs_factory s)) id = Ok (n, c) ->
  fa_base (fs_factory s) (n ++ fa_camel (fs_factory s)) c id = Ok fn ->
  exists s', fa_load id s = (Ok tt, s').
Proof. intros id s n c fn H K. unfold fa_load. rewrite H, K. eexists. reflexivity. Qed.

Lemma load_raises : forall id s s' e, fa_load id s = (Raise e, s') ->
  type_for (fs_types s) (fa_suffix (fs_factory s)) id = Raise e \/
  exists n c, type_for (fs_types s) (fa_suffix (fs_factory s)) id = Ok (n, c) /\
    fa_base (fs_factory s) (n ++ fa_camel (fs_factory s)) c id = Raise e.
Proof.
  intros id s s' e H. unfold fa_load in H.
  destruct (type_for _ _ id) as [[n c]|e0]; [|left; congruence].
  right. exists n, c. destruct (fa_base _ _ c id); [discriminate|]. split; congruence.
Qed.

Lemma call_held : forall id s c, holds s id c -> fa_call id s = (Ok (Some c), s).
Proof. intros id s c H. unfold fa_call. unfold holds in H. rewrite H. reflexivity. Qed.

Lemma call_none : forall id s, holds_none s id ->
  (exists c s', fa_load id s = (Ok tt, s') /\ holds s' id c /\ fa_call id s = (Ok (Some c), s')) \/
  (exists e, fa_load id s = (Raise e, s) /\ fa_call id s = (Raise e, s)).
Proof.
  intros id s H. unfold fa_call. unfold holds_none in H. rewrite H.
  destruct (fa_load id s) as [[[]|e] s'] eqn:E.
  - left. destruct (load_ok _ _ _ E) as (n & c & fn & _ & _ & Hh & _).
    eexists _, s'. split; [reflexivity|]. split; [exact Hh|]. unfold holds in Hh. rewrite Hh. reflexivity.
  - right. pose proof (load_raise _ _ _ _ E). subst s'. exists e. auto.
Qed.

(** ** Steps *)
Lemma same_refl : forall s, same_factory s s.
Proof. intros. repeat split. Qed.
Lemma same_trans : forall a b c, same_factory a b -> same_factory b c -> same_factory a c.
Proof.
  intros a b c (A1 & A2 & A3 & A4 & A5) (B1 & B2 & B3 & B4 & B5). unfold same_factory.
  repeat split; congruence.
Qed.

(** What loading keeps and changes. *)
Record moved (s s' : fstore) (ids : list string) : Prop := mkMoved {
  mv_same : same_factory s s';
  mv_next : fs_next s <= fs_next s';
  mv_others : forall i, ~ In i ids -> dict_get i (fa_cache (fs_factory s')) = dict_get i (fa_cache (fs_factory s));
  mv_new : forall i, In i ids -> exists c, holds s' i c /\ fs_next s <= md_no c < fs_next s'
}.

Lemma moved_refl : forall s, moved s s [].
Proof. intros s. split; [apply same_refl|lia|reflexivity|intros i []]. Qed.

Lemma moved_load : forall id s s', fa_load id s = (Ok tt, s') -> moved s s' [id].
Proof.
  intros id s s' H. destruct (load_ok _ _ _ H) as (n & c & fn & _ & _ & Hh & Ho & Hs & Hn). split.
  - exact Hs.
  - lia.
  - intros i N. apply Ho. intros ->. apply N. left. reflexivity.
  - intros i [<-|[]]. eexists. split; [exact Hh|]. cbn. lia.
Qed.

Lemma moved_trans : forall a b c l1 l2, moved a b l1 -> moved b c l2 -> moved a c (l1 ++ l2)%list.
Proof.
  intros a b c l1 l2 [S1 N1 O1 W1] [S2 N2 O2 W2]. split.
  - exact (same_trans _ _ _ S1 S2).
  - lia.
  - intros i Hi. rewrite in_app_iff in Hi. rewrite O2, O1 by tauto. reflexivity.
  - intros i Hi. destruct (in_dec String.string_dec i l2) as [H2|H2].
    + destruct (W2 i H2) as (c2 & Hh & L). exists c2. split; [exact Hh|]. lia.
    + apply in_app_iff in Hi. destruct Hi as [H1|H1]; [|tauto].
      destruct (W1 i H1) as (c1 & Hh & L). exists c1. split; [|lia].
      unfold holds in *. rewrite O2 by exact H2. exact Hh.
Qed.

Definition idents (l : list name_item) : list string :=
  flat_map (fun x => match x with ItemStr i => [i] | ItemOther _ => [] end) l.
Lemma in_idents : forall l i, In i (idents l) <-> In (ItemStr i) l.
Proof.
  intros l i. unfold idents. rewrite in_flat_map. split.
  - intros ([j|e] & H & K); cbn in K; [destruct K as [<-|[]]; exact H|destruct K].
  - intros H. exists (ItemStr i). split; [exact H|left; reflexivity].
Qed.

Lemma names_ok : forall l s s', fa_load_names l s = (Ok tt, s') -> moved s s' (idents l).
Proof.
  induction l as [|[id|e] l IH]; intros s s' H; cbn [fa_load_names] in H.
  - injection H as <-. apply moved_refl.
  - destruct (fa_load id s) as [[[]|e] s1] eqn:E; [|discriminate].
    change (idents (ItemStr id :: l)) with (app [id] (idents l)).
    exact (moved_trans _ _ _ _ _ (moved_load _ _ _ E) (IH _ _ H)).
  - discriminate.
Qed.

Lemma names_raise : forall l s s' e, fa_load_names l s = (Raise e, s') ->
  exists before x after, l = (before ++ x :: after)%list /\ fa_load_names before s = (Ok tt, s') /\
    (x = ItemOther e \/ exists id, x = ItemStr id /\ fa_load id s' = (Raise e, s')).
Proof.
  induction l as [|[id|e0] l IH]; intros s s' e H; cbn [fa_load_names] in H.
  - discriminate.
  - destruct (fa_load id s) as [[[]|e1] s1] eqn:E.
    + destruct (IH _ _ _ H) as (before & x & after & -> & K & Hx).
      exists (ItemStr id :: before)%list, x, after. split; [reflexivity|]. split; [|exact Hx].
      cbn [fa_load_names]. rewrite E. exact K.
    + injection H as -> ->. pose proof (load_raise _ _ _ _ E). subst s'.
      exists [], (ItemStr id), l. split; [reflexivity|]. split; [reflexivity|]. right. exists id. auto.
  - injection H as -> ->. exists [], (ItemOther e), l. auto.
Qed.

(** What a step does to the classes held. *)
Lemma step_moved : forall s o, exists s1 ids, moved s s1 ids /\
  (fa_step s o = s1 \/ exists t, fa_step s o = mkFstore t (fs_next s1) (fs_factory s1)) /\
  (forall i, In i ids -> reloads s i o \/ holds_none s i) /\
  (registers o \/ fa_step s o = s1).
Proof.
  intros s [id|id| |uri c ov]; cbn [fa_step].
  - destruct (fa_load id s) as [[[]|e] s'] eqn:E; cbn [snd].
    + exists s', [id]. split; [exact (moved_load _ _ _ E)|]. split; [auto|]. split; [|auto].
      intros i [<-|[]]. left. reflexivity.
    + pose proof (load_raise _ _ _ _ E). subst s'. exists s, []. split; [apply moved_refl|].
      split; [auto|]. split; [intros i []|auto].
  - destruct (dict_get id (fa_cache (fs_factory s))) as [c|] eqn:E.
    + rewrite (call_held _ _ _ E). exists s, []. split; [apply moved_refl|].
      split; [auto|]. split; [intros i []|auto].
    + destruct (call_none _ _ E) as [(c & s' & H & _ & ->)|(e & _ & ->)]; cbn [snd].
      * exists s', [id]. split; [exact (moved_load _ _ _ H)|]. split; [auto|]. split; [|auto].
        intros i [<-|[]]. right. exact E.
      * exists s, []. split; [apply moved_refl|]. split; [auto|]. split; [intros i []|auto].
  - unfold fa_init_all. destruct (fa_load_names _ s) as [[[]|e] s'] eqn:E; cbn [snd].
    + exists s', (idents (fa_names (fs_factory s))). split; [exact (names_ok _ _ _ E)|].
      split; [auto|]. split; [|auto]. intros i Hi. left. apply in_idents, Hi.
    + destruct (names_raise _ _ _ _ E) as (before & x & after & El & K & _).
      exists s', (idents before). split; [exact (names_ok _ _ _ K)|]. split; [auto|]. split; [|auto].
      intros i Hi. left. cbn. rewrite El. apply in_or_app. left. apply in_idents, Hi.
  - exists s, []. split; [apply moved_refl|]. split; [|split; [intros i []|left; exact I]].
    right. eexists. reflexivity.
Qed.

Lemma step_names : forall s o, fa_names (fs_factory (fa_step s o)) = fa_names (fs_factory s).
Proof.
  intros s o. destruct (step_moved s o) as (s1 & ids & [(S1 & S2 & S3 & S4 & S5) _ _ _] & [->|[t ->]] & _); exact S5.
Qed.

Lemma reloads_step : forall s o o' id, reloads (fa_step s o) id o' -> reloads s id o'.
Proof. intros s o [i|i| |u c ov] id; cbn; try (intros H; exact H). rewrite step_names. intros H; exact H. Qed.

Lemma stable : forall os s id c, holds s id c -> (forall o, In o os -> ~ reloads s id o) ->
  holds (fa_run os s) id c.
Proof.
  induction os as [|o os IH]; intros s id c H N; [exact H|].
  change (fa_run (o :: os) s) with (fa_run os (fa_step s o)). apply IH.
  - destruct (step_moved s o) as (s1 & ids & [_ _ O _] & E & K & _).
    assert (G : ~ In id ids).
    { intros Hi. destruct (K _ Hi) as [R|R]; [exact (N o (or_introl eq_refl) R)|].
      unfold holds in H. unfold holds_none in R. congruence. }
    destruct E as [->|[t ->]]; unfold holds; cbn [fs_factory]; rewrite (O _ G); exact H.
  - intros o' Ho R. apply (N o' (or_intror Ho)). exact (reloads_step _ _ _ _ R).
Qed.

(** ** The invariant *)
Record sound (s : fstore) : Prop := mkSound {
  so_old : forall i c, holds s i c -> md_no c < fs_next s;
  so_own : forall i c, holds s i c -> md_ns c = i
}.

Lemma one_each : forall s, sound s -> forall i j c, holds s i c -> holds s j c -> i = j.
Proof. intros s [_ W] i j c H K. rewrite <- (W _ _ H), <- (W _ _ K). reflexivity. Qed.

Lemma sound_load : forall id s s', sound s -> fa_load id s = (Ok tt, s') -> sound s'.
Proof.
  intros id s s' [A B] H. destruct (load_ok _ _ _ H) as (n & c & fn & _ & _ & Hh & Ho & Hs & Hn).
  split; intros i d Hd; unfold holds in *; destruct (String.string_dec i id) as [->|N].
  - rewrite Hh in Hd. injection Hd as <-. cbn. lia.
  - rewrite Ho in Hd by exact N. pose proof (A _ _ Hd). lia.
  - rewrite Hh in Hd. injection Hd as <-. reflexivity.
  - rewrite Ho in Hd by exact N. exact (B _ _ Hd).
Qed.

Lemma sound_names : forall l s, sound s -> sound (snd (fa_load_names l s)).
Proof.
  induction l as [|[id|e] l IH]; intros s S; cbn [fa_load_names]; try exact S.
  destruct (fa_load id s) as [[[]|e] s1] eqn:E; cbn [snd].
  - apply IH. exact (sound_load _ _ _ S E).
  - pose proof (load_raise _ _ _ _ E). subst s1. exact S.
Qed.

Lemma sound_call : forall id s, sound s -> sound (snd (fa_call id s)).
Proof.
  intros id s S. destruct (dict_get id (fa_cache (fs_factory s))) as [c|] eqn:E.
  - rewrite (call_held _ _ _ E). exact S.
  - destruct (call_none _ _ E) as [(c & s' & H & _ & ->)|(e & _ & ->)]; cbn [snd]; [|exact S].
    exact (sound_load _ _ _ S H).
Qed.

Lemma sound_step : forall s o, sound s -> sound (fa_step s o).
Proof.
  intros s [id|id| |uri c ov] S; cbn [fa_step].
  - destruct (fa_load id s) as [[[]|e] s1] eqn:E; cbn [snd]; [exact (sound_load _ _ _ S E)|].
    pose proof (load_raise _ _ _ _ E). subst s1. exact S.
  - apply sound_call, S.
  - apply sound_names, S.
  - destruct S as [A B]. split; [exact A|exact B].
Qed.

Lemma sound_run : forall os s, sound s -> sound (fa_run os s).
Proof. induction os as [|o os IH]; intros s S; [exact S|]. apply IH, sound_step, S. Qed.

Lemma next_run : forall os s, fs_next s <= fs_next (fa_run os s).
Proof.
  induction os as [|o os IH]; intros s; [apply le_n|].
  change (fa_run (o :: os) s) with (fa_run os (fa_step s o)).
  destruct (step_moved s o) as (s1 & ids & [_ Hn _ _] & E & _).
  pose proof (IH (fa_step s o)) as G. destruct E as [E|[t E]]; rewrite E in G |- *; cbn [fs_next] in *; lia.
Qed.

Lemma new_cache : forall k f, factory_new k = Ok f ->
  exists s b, fk_suffix k = SufStr s /\ fk_base k = Some b /\ fk_names k <> NamesNotIterable /\
    f = mkFactory s (camel_suffix s) b (names_of (fk_names k)) [].
Proof.
  intros [suf [b|] nm] f H; unfold factory_new in H; cbn [fk_suffix fk_base fk_names] in *; destruct suf as [|s|e]; try discriminate;
    destruct nm as [|l|t]; try discriminate; exists s, b; (split; [reflexivity|]; split; [reflexivity|];
    split; [discriminate|]; congruence).
Qed.

Lemma sound_new : forall k types s, just_made k types s -> sound s.
Proof.
  intros k types s [_ H]. apply new_cache in H. destruct H as (x & b & _ & _ & _ & E).
  split; intros i c K; unfold holds in K; rewrite E in K; discriminate.
Qed.
