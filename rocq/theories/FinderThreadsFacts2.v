(** Lemmas about finders shared by threads: whole processes. *)
From Verif Require Import FinderThreads SpecText SpecRead SpecFinderThreads.
From Verif Require Import EvalFacts StringFacts TextFacts ReadFacts ReadFacts3 FinderThreadsFacts.
From Coq Require Import Lia.
Local Open Scope list_scope.

Lemma run_schedule_app : forall web T s1 s2 (s : list (FT T) * fstate),
  run_schedule_f web (s1 ++ s2) s = run_schedule_f web s2 (run_schedule_f web s1 s).
Proof. intros web T. induction s1 as [|i s1 IH]; intros s2 s; [reflexivity|]. cbn [app run_schedule_f]. apply IH. Qed.

(** What the finder holds under a name. *)
Definition at_name (x : name) (s : fstate) : option policybase :=
  match x with
  | PolicyName k => key_get k (rg_policies (fs_reg s))
  | SetName k => key_get k (rg_sets (fs_reg s))
  end.
Lemma at_nm : forall m k s, at_name (nm m k) s = key_get k (map_at m (fs_reg s)).
Proof. intros [|] k s; reflexivity. Qed.
Lemma nm_at : forall x, exists m k, x = nm m k.
Proof. intros [k|k]; [exists InPolicies, k|exists InSets, k]; reflexivity. Qed.
Lemma nm_inj : forall m k m' k', nm m k = nm m' k' -> m = m' /\ k = k'.
Proof. intros [|] k [|] k' H; cbn in H; inversion H; split; reflexivity. Qed.

Lemma at_put : forall x m k p s, at_name x (mkFstate (put_at m k p (fs_reg s)) (fs_fetched s)) =
  if name_eq_dec (nm m k) x then Some p else at_name x s.
Proof.
  intros x m k p s. destruct (nm_at x) as (m' & k' & ->). rewrite !at_nm. cbn [fs_reg].
  destruct (name_eq_dec (nm m k) (nm m' k')) as [He|Hne].
  - apply nm_inj in He. destruct He as [<- <-]. apply put_at_same.
  - apply put_at_other, Hne.
Qed.

Lemma holding_at : forall K x F, at_name x (mkFstate (holding K) F) = lookup x K.
Proof. intros K [k|k] F; reflexivity. Qed.

(** ** Meaning *)
Section Meaning.
Variable limit : nat.
Variable E : renv.
Hypothesis HE : default_readers E.
Variable fd : finder.
Variable web : list string -> string -> res node.
Variable K : list policybase.
Variable threads : list (list node).

Notation D := (available web threads).
Notation known := (said E D K).
Definition F1 (u : string) (r : res node) : Prop := forall d, r = Ok d -> D d.

Lemma start_pool : pool_ok_f (A0 known) F1 (list (res policybase)) (fun _ => L0 D) (fun _ => G0 D known)
  (fun i r => forall docs, nth_error threads i = Some docs -> exists rs, r = Ok rs /\ Forall2 (reads_as E known) docs rs)
  (start_f limit E fd K threads).
Proof.
  split.
  - intros m k p Hp. unfold start_f in Hp. cbn [snd] in Hp. rewrite <- at_nm, holding_at in Hp.
    apply lookup_some in Hp. destruct Hp as [Hi Hn]. split; [exact Hn|apply said_before, Hi].
  - intros i t Ht. unfold start_f in Ht. cbn [fst] in Ht. rewrite nth_error_map in Ht.
    destruct (nth_error threads i) as [docs|] eqn:Ei; [|discriminate Ht]. injection Ht as <-.
    eapply safe_weaken; [|apply (loads_ok_t E HE fd D known F1)].
    + intros r (rs & -> & Hrs) docs' [= <-]. exists rs. split; [reflexivity|exact Hrs].
    + intros base d m r url d' _ _ _ _ _ _ Hr. apply Hr. reflexivity.
    + intros d m q Hd Hi Hw Hm. apply (said_in E D K d m q Hd Hi Hw Hm).
    + intros d Hd. left. exists docs. split; [apply (nth_error_In _ _ Ei)|exact Hd].
Qed.

Lemma after_pool : forall sched,
  pool_ok_f (A0 known) F1 (list (res policybase)) (fun _ => L0 D) (fun _ => G0 D known)
  (fun i r => forall docs, nth_error threads i = Some docs -> exists rs, r = Ok rs /\ Forall2 (reads_as E known) docs rs)
  (run_schedule_f web sched (start_f limit E fd K threads)).
Proof.
  intros sched. apply pool_run_f; [intros i m k p; apply G0_A0| |apply start_pool].
  intros before u d Hd. right. exists before, u. exact Hd.
Qed.

Lemma outcome_means : forall sched i j d p,
  outcome_f limit E fd web K threads sched i j d (Ok p) -> doc_means E known d p.
Proof.
  intros sched i j d p (docs & rs & Hi & Hd & Hf & Hr).
  destruct (after_pool sched) as [_ Hp]. specialize (Hp i _ Hf). cbn [safe] in Hp.
  destruct (Hp docs Hi) as (rs' & [= <-] & H2).
  assert (G : forall docs rs j, Forall2 (reads_as E known) docs rs -> nth_error docs j = Some d ->
    nth_error rs j = Some (Ok p) -> doc_means E known d p).
  { clear. intros docs rs j H. revert j. induction H as [|d' r' docs rs Hr _ IH]; intros [|j] H1 H2; try discriminate.
    - injection H1 as ->. injection H2 as ->. exact (Hr p eq_refl).
    - exact (IH j H1 H2). }
  exact (G docs rs j H2 Hd Hr).
Qed.

Lemma held_said : forall sched x p,
  held_f limit E fd web K threads sched x = Some p -> name_of p = x /\ known p.
Proof.
  intros sched x p H. destruct (after_pool sched) as [Hr _]. destruct (nm_at x) as (m & k & ->).
  apply (Hr m k p). rewrite <- at_nm. exact H.
Qed.
End Meaning.

(** ** Names stay *)
Lemma step_keeps : forall web T (t : FT T) s x, at_name x s <> None -> at_name x (snd (step_f web t s)) <> None.
Proof.
  intros web T [r|m k c|m k p c|u c] s x H; cbn [step_f snd]; try exact H.
  rewrite at_put. destruct (name_eq_dec _ _); [discriminate|exact H].
Qed.
Lemma run_keeps : forall web T sched (s : list (FT T) * fstate) x, at_name x (snd s) <> None ->
  at_name x (snd (run_schedule_f web sched s)) <> None.
Proof.
  intros web T. induction sched as [|i sched IH]; intros s x H; [exact H|]. cbn [run_schedule_f]. apply IH.
  unfold schedule_step_f. destruct (nth_error (fst s) i) as [t|]; [|exact H].
  pose proof (step_keeps web T t (snd s) x H) as Hk. destruct (step_f web t (snd s)) as [t' s']. exact Hk.
Qed.

(** A thread that is not scheduled does not move. *)
Lemma run_other : forall web T sched (s : list (FT T) * fstate) i, ~ In i sched ->
  nth_error (fst (run_schedule_f web sched s)) i = nth_error (fst s) i.
Proof.
  intros web T. induction sched as [|j sched IH]; intros s i H; [reflexivity|]. cbn [run_schedule_f].
  rewrite IH by (intros H'; apply H; right; exact H'). unfold schedule_step_f.
  destruct (nth_error (fst s) j) as [t|]; [|reflexivity]. destruct (step_f web t (snd s)) as [t' s']. cbn [fst].
  apply nth_replace_other'. intros ->. apply H. left. reflexivity.
Qed.

(** ** Loading a name that is there *)
Section Once.
Variable limit : nat.
Variable E : renv.
Hypothesis HE : default_readers E.
Variable fd : finder.
Variable x : name.

Definition A2 (m : pmap) (k : option string) (o : option policybase) : Prop := nm m k = x -> o <> None.
Notation ok2 := (safe (fun _ _ => True) A2 (fun _ _ _ => True) (fun _ _ => True)).

Lemma any2 : forall T (t : FT T), ok2 (fun _ => True) t.
Proof. intros T t. induction t as [r|m k c IH|m k p c IH|u c IH]; cbn [safe]; auto. Qed.

Definition raises {T} (r : res T) : Prop := match r with Ok _ => False | Raise _ => True end.

Lemma policy_once : forall n, root_name n = x -> ok2 raises (read_policy_t E n).
Proof.
  intros n Hx. unfold read_policy_t. apply safe_ret; [intros e; exact I|]. intros p Hp.
  apply read_policy_iff in Hp; [|exact HE].
  destruct Hp as (Hc & Hall & id & ai & al & de & xp & t & rs & -> & Hid & Hrest).
  unfold root_name in Hx. rewrite Hc, Hid in Hx.
  cbn [add_policy_t pm_id bind_f then_f safe]. split; [exact I|].
  intros [q|] Ho; cbn [safe then_f]; [exact I|]. exfalso. apply (Ho Hx). reflexivity.
Qed.

Lemma set_once : forall nested n, is_elem n -> root_name n = x ->
  ok2 raises (read_set_t E fd nested n).
Proof.
  intros nested n He Hx. destruct n as [tag attrs text kids|t]; [|destruct He].
  cbn [read_set_t]. set (n := Elem tag attrs text kids) in *.
  destruct (negb (String.eqb (get_local_part tag) "PolicySet")) eqn:Etag; [exact I|].
  assert (Hln : ln n = "PolicySet"%string) by (apply String.eqb_eq, Bool.negb_false_iff, Etag).
  assert (Hc : called "Policy" n = false) by (rewrite called_ln by (reflexivity || exact He); rewrite Hln; reflexivity).
  apply safe_ret; [intros e; exact I|]. intros id Hid. apply required_ok in Hid.
  apply safe_ret; [intros e; exact I|]. intros ai Hai.
  apply safe_ret; [intros e; exact I|]. intros alg Halg.
  apply (safe_bind _ _ _ _ _ _ (fun _ => True)).
  - eapply safe_weaken; [|apply any2]. intros [a|e] _; exact I.
  - intros a _. cbn [add_policy_set_t pm_id bind_f then_f safe]. split; [exact I|].
    intros [q|] Ho; cbn [safe then_f]; [exact I|]. exfalso. apply (Ho); [|reflexivity].
    unfold root_name in Hx. rewrite Hc, Hid in Hx. exact Hx.
Qed.

Lemma doc_once : forall n, root_name n = x -> ok2 raises (read_doc_t limit E fd n).
Proof.
  intros n Hx. destruct limit as [|lim]; cbn [read_doc_t]; [exact I|].
  apply safe_ret; [intros e; exact I|]. intros l Hl.
  assert (is_elem n) as He by (destruct n; [exact I|discriminate Hl]).
  destruct (String.eqb l "Policy"); [apply policy_once, Hx|].
  destruct (String.eqb l "PolicySet"); [|exact I]. apply set_once; assumption.
Qed.

Lemma loads_once : forall docs,
  ok2 (fun r => exists rs, r = Ok rs /\ Forall2 (fun d r => root_name d = x -> raises r) docs rs)
    (loads_t limit E fd docs).
Proof.
  induction docs as [|d docs IH]; cbn [loads_t].
  - exists []. split; [reflexivity|constructor].
  - apply (safe_then _ _ _ _ _ _ (fun r => root_name d = x -> raises r)).
    + destruct (name_eq_dec (root_name d) x) as [Hx|Hx].
      * eapply safe_weaken; [|apply doc_once, Hx]. auto.
      * eapply safe_weaken; [|apply any2]. intros r _ H. contradiction.
    + intros r Hr. apply (safe_bind _ _ _ _ _ _ (fun rs => Forall2 (fun d r => root_name d = x -> raises r) docs rs)).
      * eapply safe_weaken; [|exact IH]. intros r' (rs & -> & H). exact H.
      * intros rs Hrs. cbn [safe]. exists (r :: rs). split; [reflexivity|constructor; assumption].
Qed.

Variable web : list string -> string -> res node.

(** Steps of any thread keep the name, and the thread its contract. *)
Lemma once_run : forall i (Q : res (list (res policybase)) -> Prop) sched s t,
  at_name x (snd s) <> None -> nth_error (fst s) i = Some t -> ok2 Q t ->
  exists t', nth_error (fst (run_schedule_f web sched s)) i = Some t' /\ ok2 Q t'.
Proof.
  intros i Q. induction sched as [|j sched IH]; intros s t Hx Ht Hs; [exists t; split; assumption|].
  cbn [run_schedule_f].
  assert (Hx' : at_name x (snd (schedule_step_f web j s)) <> None)
    by exact (run_keeps web _ [j] s x Hx).
  destruct (Nat.eq_dec j i) as [->|Hne].
  - set (t1 := fst (step_f web t (snd s))).
    apply (IH _ t1 Hx').
    + unfold schedule_step_f, t1. rewrite Ht. destruct (step_f web t (snd s)) as [t' s']. cbn [fst].
      apply (nth_replace_same' _ _ _ _ _ Ht).
    + unfold t1. destruct t as [r|m k c|m k p c|u c]; cbn [step_f fst safe] in *; try apply Hs; auto.
      intros Hm. rewrite <- Hm, at_nm in Hx. exact Hx.
  - apply (IH _ t Hx'); [|exact Hs].
    rewrite <- Ht. apply (run_other web _ [j] s i). intros [H|[]]. congruence.
Qed.
End Once.

(** ** Alone *)
Section Alone.
Variable web : list string -> string -> res node.

Lemma alone_then : forall T U (x : FT T) (f : res T -> FT U) s,
  run_alone_f web (then_f x f) s = let (r, s') := run_alone_f web x s in run_alone_f web (f r) s'.
Proof.
  intros T U x f. induction x as [r|m k c IH|m k p c IH|u c IH]; intros s; cbn [then_f run_alone_f]; auto.
Qed.
Lemma alone_bind : forall T U (x : FT T) (f : T -> FT U) s,
  run_alone_f web (bind_f x f) s =
  match run_alone_f web x s with
  | (Ok a, s') => run_alone_f web (f a) s'
  | (Raise e, s') => (Raise e, s')
  end.
Proof.
  intros T U x f s. unfold bind_f. rewrite alone_then. destruct (run_alone_f web x s) as [[a|e] s']; reflexivity.
Qed.
End Alone.

Section AloneRead.
Variable E : renv.
Variable fetch : string -> res node.
Variable fd : finder.
Notation web := (fun _ : list string => fetch).
Definition acts_as {T} (t : FT T) (m : SM T) : Prop := forall s, run_alone_f web t s = m s.

Lemma acts_bind : forall T U (t : FT T) m (f : T -> FT U) g,
  acts_as t m -> (forall a, acts_as (f a) (g a)) -> acts_as (bind_f t f) (sbind m g).
Proof.
  intros T U t m f g Ht Hf s. rewrite alone_bind, (Ht s). unfold sbind. destruct (m s) as [[a|e] s']; [apply Hf|reflexivity].
Qed.
Lemma acts_ret : forall T (r : res T), acts_as (FDone r) (slift r).
Proof. intros T r s. reflexivity. Qed.

Lemma acts_register : forall p, acts_as (add_policy_t p) (register_s add_policy p).
Proof.
  intros [m t a rs|m t a ps] [g fetched]; [|reflexivity]. unfold register_s. cbn [add_policy_t run_alone_f add_policy fs_reg map_at].
  unfold key_mem. destruct (key_get (pm_id m) (rg_policies g)) as [q|] eqn:Ek; [reflexivity|].
  cbn [run_alone_f put_at fs_reg fs_fetched]. rewrite key_put_absent by exact Ek. reflexivity.
Qed.
Lemma acts_register_set : forall p, acts_as (add_policy_set_t p) (register_s add_policy_set p).
Proof.
  intros [m t a rs|m t a ps] [g fetched]; [reflexivity|]. unfold register_s. cbn [add_policy_set_t run_alone_f add_policy_set fs_reg map_at].
  unfold key_mem. destruct (key_get (pm_id m) (rg_sets g)) as [q|] eqn:Ek; [reflexivity|].
  cbn [run_alone_f put_at fs_reg fs_fetched]. rewrite key_put_absent by exact Ek. reflexivity.
Qed.
Lemma acts_policy : forall n, acts_as (read_policy_t E n) (read_policy_s E n).
Proof.
  intros n. apply acts_bind; [apply acts_ret|]. intros p. apply acts_bind; [apply acts_register|]. intros u. apply acts_ret.
Qed.

Section Nested.
Variable nested_t : node -> FT policybase.
Variable nested_s : node -> SM policybase.
Hypothesis HN : forall d, acts_as (nested_t d) (nested_s d).

Lemma acts_find : forall m ref,
  acts_as (find_t fd nested_t m ref) (find_s fetch fd nested_s (map_at m) ref).
Proof.
  intros m ref. unfold find_t, find_s. destruct fd as [|base].
  - intros s. cbn [run_alone_f]. destruct (key_get ref (map_at m (fs_reg s))); reflexivity.
  - apply acts_bind.
    + intros s. cbn [run_alone_f]. destruct (key_get ref (map_at m (fs_reg s))) as [q|]; [reflexivity|].
      unfold find_from_reference_t, find_from_reference_s. destruct ref as [r|]; [|reflexivity]. revert s.
      apply acts_bind; [apply acts_ret|]. intros url. apply acts_bind; [intros s; reflexivity|]. intros d.
      apply acts_bind; [apply HN|]. intros _. apply acts_ret.
    + intros _ s. cbn [run_alone_f]. destruct (key_get ref (map_at m (fs_reg s))); reflexivity.
Qed.

Lemma acts_set : forall n, acts_as (read_set_t E fd nested_t n) (read_set_s E fetch fd nested_s n).
Proof.
  induction n as [t|tag attrs text kids IH] using node_ind'; [intros s; reflexivity|].
  cbn [read_set_t read_set_s]. set (n := Elem tag attrs text kids).
  destruct (negb (String.eqb (get_local_part tag) "PolicySet")); [apply acts_ret|].
  apply acts_bind; [apply acts_ret|]. intros id. apply acts_bind; [apply acts_ret|]. intros ai.
  apply acts_bind; [apply acts_ret|]. intros alg. clearbody n. apply acts_bind.
  - generalize (mkSacc None None []). clear n.
    induction IH as [|k rest Hk _ IHr]; intros a; [apply acts_ret|].
    destruct k as [t a' x ks|t]; [|apply IHr].
    set (k := Elem t a' x ks) in *. clearbody k.
    apply acts_bind; [|exact IHr].
    repeat match goal with
    | |- acts_as (if ?b then _ else _) _ => destruct b
    end; try apply acts_ret; (apply acts_bind; [|intros p; apply acts_ret]);
      first [apply acts_policy|apply (acts_find InPolicies)|apply (acts_find InSets)|exact Hk].
  - intros a. apply acts_bind; [apply acts_register_set|]. intros _. apply acts_ret.
Qed.
End Nested.

Lemma acts_doc : forall limit n, acts_as (read_doc_t limit E fd n) (read_doc_s limit E fetch fd n).
Proof.
  induction limit as [|limit IH]; intros n; cbn [read_doc_t read_doc_s]; [apply acts_ret|].
  apply acts_bind; [apply acts_ret|]. intros l.
  destruct (String.eqb l "Policy"); [apply acts_policy|].
  destruct (String.eqb l "PolicySet"); [apply acts_set, IH|apply acts_ret].
Qed.

Lemma acts_loads : forall limit docs s,
  fst (run_alone_f web (loads_t limit E fd docs) s) = Ok (loads_alone limit E fetch fd docs s).
Proof.
  intros limit. induction docs as [|d docs IH]; intros s; [reflexivity|].
  cbn [loads_t loads_alone]. rewrite alone_then, (acts_doc limit d s).
  destruct (read_doc_s limit E fetch fd d s) as [r s']. rewrite alone_bind. specialize (IH s').
  destruct (run_alone_f web (loads_t limit E fd docs) s') as [[rs|e] s2]; cbn [fst] in IH; [|discriminate IH].
  injection IH as ->. reflexivity.
Qed.
End AloneRead.

(** ** Undisturbed *)
Section Separate.
Variable fetch : string -> res node.
Notation web := (fun _ : list string => fetch).
Variable A : pmap -> option string -> option policybase -> Prop.
Variable T : Type.
Variable L : nat -> pmap -> option string -> Prop.
Variable G : nat -> pmap -> option string -> policybase -> Prop.
Variable Q : nat -> res T -> Prop.
Definition F3 (u : string) (r : res node) : Prop := r = fetch u.
Hypothesis HG : forall i m k p, G i m k p -> A m k (Some p).
Variable i : nat.
Hypothesis Hsep : forall j m k p, j <> i -> G j m k p -> ~ L i m k.

Definition same_for (s s' : fstate) : Prop :=
  forall m k, L i m k -> key_get k (map_at m (fs_reg s)) = key_get k (map_at m (fs_reg s')).

Lemma same_put : forall s s' m k p, same_for s s' ->
  same_for (mkFstate (put_at m k p (fs_reg s)) (fs_fetched s)) (mkFstate (put_at m k p (fs_reg s')) (fs_fetched s')).
Proof.
  intros s s' m k p H m' k' Hl. rewrite <- !at_nm, !at_put. destruct (name_eq_dec _ _); [reflexivity|].
  rewrite !at_nm. apply H, Hl.
Qed.
Lemma same_put_other : forall s s' m k p, same_for s s' -> ~ L i m k ->
  same_for (mkFstate (put_at m k p (fs_reg s)) (fs_fetched s)) s'.
Proof.
  intros s s' m k p H Hn m' k' Hl. rewrite <- !at_nm, at_put. destruct (name_eq_dec (nm m k) (nm m' k')) as [He|_].
  - apply nm_inj in He. destruct He as [-> ->]. contradiction.
  - rewrite !at_nm. apply H, Hl.
Qed.

Lemma separate_run : forall sched s t s',
  pool_ok_f A F3 T L G Q s -> nth_error (fst s) i = Some t -> same_for (snd s) s' ->
  exists t1 s1, nth_error (fst (run_schedule_f web sched s)) i = Some t1 /\
    same_for (snd (run_schedule_f web sched s)) s1 /\ run_alone_f web t s' = run_alone_f web t1 s1.
Proof.
  induction sched as [|j sched IH]; intros s t s' Hp Ht Hs.
  { exists t, s'. split; [exact Ht|]. split; [exact Hs|reflexivity]. }
  cbn [run_schedule_f].
  assert (Hp' : pool_ok_f A F3 T L G Q (schedule_step_f web j s))
    by (apply pool_step_f; [exact HG|intros; reflexivity|exact Hp]).
  destruct (Nat.eq_dec j i) as [->|Hne].
  - assert (Hst : schedule_step_f web i s = let '(x', g') := step_f web t (snd s) in (replace_nth i x' (fst s), g'))
      by (unfold schedule_step_f; rewrite Ht; reflexivity).
    assert (Hi : nth_error (fst (schedule_step_f web i s)) i = Some (fst (step_f web t (snd s)))).
    { rewrite Hst. destruct (step_f web t (snd s)) as [t' g']. apply (nth_replace_same' _ _ _ _ _ Ht). }
    assert (Hg : snd (schedule_step_f web i s) = snd (step_f web t (snd s)))
      by (rewrite Hst; destruct (step_f web t (snd s)); reflexivity).
    assert (Hsafe : safe (L i) A (G i) F3 (Q i) t) by (apply (proj2 Hp), Ht).
    assert (Hnext : same_for (snd (step_f web t (snd s))) (snd (step_f web t s')) /\
                    fst (step_f web t (snd s)) = fst (step_f web t s') /\
                    run_alone_f web t s' = run_alone_f web (fst (step_f web t s')) (snd (step_f web t s'))).
    { destruct t as [r|m k c|m k p c|u c]; cbn [step_f fst snd run_alone_f safe] in *.
      - split; [exact Hs|split; reflexivity].
      - rewrite (Hs m k (proj1 Hsafe)). split; [exact Hs|split; reflexivity].
      - split; [apply same_put, Hs|split; reflexivity].
      - split; [intros m k Hl; apply Hs, Hl|split; reflexivity]. }
    destruct Hnext as (N1 & N2 & N3). rewrite N3. rewrite <- N2.
    apply IH; [exact Hp'|exact Hi|]. rewrite Hg. exact N1.
  - apply IH; [exact Hp'|rewrite <- Ht; apply (run_other web _ [j] s i); intros [H|[]]; congruence|].
    unfold schedule_step_f. destruct (nth_error (fst s) j) as [t'|] eqn:Ej; [|exact Hs].
    pose proof (proj2 Hp j t' Ej) as Hsafe.
    destruct t' as [r|m k c|m k p c|u c]; cbn [step_f fst snd safe] in *; try exact Hs.
    apply same_put_other; [exact Hs|]. apply (Hsep j m k p Hne), Hsafe.
Qed.
End Separate.

Section SeparateLoads.
Variable limit : nat.
Variable E : renv.
Hypothesis HE : default_readers E.
Variable fd : finder.
Variable fetch : string -> res node.
Notation web := (fun _ : list string => fetch).
Variable K : list policybase.
Variable threads : list (list node).

Definition D3 (i : nat) (d : node) : Prop :=
  exists docs n, nth_error threads i = Some docs /\ In n docs /\ reaches fetch fd n d.

Lemma start_pool3 : pool_ok_f (A0 (fun _ => True)) (F3 fetch) (list (res policybase))
  (fun i => L0 (D3 i)) (fun i => G0 (D3 i) (fun _ => True)) (fun _ _ => True)
  (start_f limit E fd K threads).
Proof.
  split.
  - intros m k p Hp. unfold start_f in Hp. cbn [snd] in Hp. rewrite <- at_nm, holding_at in Hp.
    apply lookup_some in Hp. destruct Hp as [Hi Hn]. split; [exact Hn|exact I].
  - intros i t Ht. unfold start_f in Ht. cbn [fst] in Ht. rewrite nth_error_map in Ht.
    destruct (nth_error threads i) as [docs|] eqn:Ei; [|discriminate Ht]. injection Ht as <-.
    eapply safe_weaken; [|apply (loads_ok_t E HE fd (D3 i) (fun _ => True) (F3 fetch))].
    + intros r _. exact I.
    + intros base d m r url d' (docs' & n & Hd & Hn & Hr) Hm Hw Hfd Htx Hu Hf.
      exists docs', n. split; [exact Hd|]. split; [exact Hn|].
      apply (reach_ref fetch fd n base d m r url d'); try assumption. symmetry. exact Hf.
    + auto.
    + intros d Hd. exists docs, d. split; [exact Ei|]. split; [exact Hd|apply reach_self].
Qed.

Lemma separate_loads : forall sched i docs rs, nth_error threads i = Some docs ->
  (forall j docs' d d' x, j <> i -> nth_error threads j = Some docs' -> In d docs -> In d' docs' ->
     mentions fetch fd d x -> ~ declares fetch fd d' x) ->
  finished_f limit E fd web K threads sched i rs ->
  rs = loads_alone limit E fetch fd docs (mkFstate (holding K) []).
Proof.
  intros sched i docs rs Hi Hsep Hf. unfold finished_f in Hf.
  destruct (separate_run fetch (A0 (fun _ => True)) (list (res policybase)) (fun i => L0 (D3 i))
    (fun i => G0 (D3 i) (fun _ => True)) (fun _ _ => True)) with (i := i) (sched := sched)
    (s := start_f limit E fd K threads) (t := loads_t limit E fd docs) (s' := mkFstate (holding K) [])
    as (t1 & s1 & H1 & H2 & H3).
  - intros j m k p. apply G0_A0.
  - intros j m k p Hne (_ & _ & d' & y & (docs' & n' & Hj & Hn' & Hr') & Hy & Hdec)
      (d & z & (docs0 & n & Hi0 & Hn & Hr) & Hz & Hm).
    rewrite Hi in Hi0. injection Hi0 as <-.
    apply (Hsep j docs' n n' (nm m k) Hne Hj Hn Hn').
    + exists d, z. split; [exact Hr|]. split; [exact Hz|exact Hm].
    + exists d', y. split; [exact Hr'|]. split; [exact Hy|exact Hdec].
  - apply start_pool3.
  - unfold start_f. cbn [fst]. rewrite nth_error_map, Hi. reflexivity.
  - intros m k _. reflexivity.
  - rewrite Hf in H1. injection H1 as <-. pose proof (acts_loads E fetch fd limit docs (mkFstate (holding K) [])) as Ha.
    rewrite H3 in Ha. cbn [run_alone_f fst] in Ha. injection Ha as ->. reflexivity.
Qed.
End SeparateLoads.

(** ** Every thread finishes *)
Section Finish.
Variable web : list string -> string -> res node.
Variable T : Type.
Variable sched : nat -> nat.
Variable i : nat.
Hypothesis Hfair : forall n, exists m, n <= m /\ sched m = i.

Lemma next_turn : forall n, exists m, n <= m /\ sched m = i /\ forall l, n <= l < m -> sched l <> i.
Proof.
  intros n. destruct (Hfair n) as (m & Hm & Hs).
  assert (G : forall d n m, m = n + d -> sched m = i -> exists m', n <= m' /\ sched m' = i /\ forall l, n <= l < m' -> sched l <> i).
  { clear. induction d as [|d IH]; intros n m Hd Hs.
    - exists n. split; [lia|]. split; [replace n with m by lia; exact Hs|]. intros l Hl. lia.
    - destruct (Nat.eq_dec (sched n) i) as [He|Hne].
      + exists n. split; [lia|]. split; [exact He|]. intros l Hl. lia.
      + destruct (IH (S n) m) as (m' & H1 & H2 & H3); [lia|exact Hs|]. exists m'. split; [lia|]. split; [exact H2|].
        intros l Hl. destruct (Nat.eq_dec l n) as [->|]; [exact Hne|apply H3; lia]. }
  exact (G (m - n) n m ltac:(lia) Hs).
Qed.

Lemma finishes : forall (t : FT T) n s, nth_error (fst s) i = Some t ->
  exists n' r, n <= n' /\ nth_error (fst (run_schedule_f web (map sched (seq n (n' - n))) s)) i = Some (FDone r).
Proof.
  assert (Hturn : forall (t : FT T) n s, nth_error (fst s) i = Some t ->
    exists m g, n <= m /\ run_schedule_f web (map sched (seq n (m - n))) s = g /\
      nth_error (fst g) i = Some t /\ sched m = i).
  { intros t n s Ht. destruct (next_turn n) as (m & Hm & Hs & Hn).
    exists m. eexists. split; [exact Hm|]. split; [reflexivity|]. split; [|exact Hs].
    rewrite run_other; [exact Ht|]. intros Hin. apply in_map_iff in Hin. destruct Hin as (l & Hl & Hin).
    apply in_seq in Hin. apply (Hn l); [lia|exact Hl]. }
  assert (Hgo : forall (t : FT T) n s, (exists r, t = FDone r) \/
     (forall g : fstate, forall n s, nth_error (fst s) i = Some (fst (step_f web t g)) ->
        exists n' r, n <= n' /\ nth_error (fst (run_schedule_f web (map sched (seq n (n' - n))) s)) i = Some (FDone r)) ->
     nth_error (fst s) i = Some t ->
     exists n' r, n <= n' /\ nth_error (fst (run_schedule_f web (map sched (seq n (n' - n))) s)) i = Some (FDone r)).
  { intros t n s [[r ->]|Hrec] Ht.
    - exists n, r. split; [lia|]. rewrite Nat.sub_diag. exact Ht.
    - destruct (Hturn t n s Ht) as (m & g & Hm & Hg & Hgt & Hs).
      assert (Hi : nth_error (fst (schedule_step_f web i g)) i = Some (fst (step_f web t (snd g)))).
      { unfold schedule_step_f. rewrite Hgt. destruct (step_f web t (snd g)) as [t' g'].
        apply (nth_replace_same' _ _ _ _ _ Hgt). }
      destruct (Hrec (snd g) (S m) _ Hi) as (n' & r & Hn' & Hr).
      exists n', r. split; [lia|].
      replace (n' - n) with ((m - n) + S (n' - S m)) by lia.
      rewrite seq_app, map_app, run_schedule_app, Hg. replace (n + (m - n)) with m by lia.
      cbn [seq map run_schedule_f]. rewrite Hs. exact Hr. }
  induction t as [r|m k c IH|m k p c IH|u c IH]; intros n s Ht; refine (Hgo _ n s _ Ht).
  - left. exists r. reflexivity.
  - right. intros g n0 s0. cbn [step_f fst]. apply IH.
  - right. intros g n0 s0. cbn [step_f fst]. apply IH.
  - right. intros g n0 s0. cbn [step_f fst]. apply IH.
Qed.
End Finish.
