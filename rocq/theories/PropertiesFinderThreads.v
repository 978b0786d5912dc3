(** C82: one finder used by several threads. *)
From Verif Require Import FinderThreads SpecText SpecRead SpecFinderThreads.
From Verif Require Import ReadFacts ReadFacts3 FinderThreadsFacts FinderThreadsFacts2 PropertiesRead.
From Coq Require Import Lia.
Open Scope string_scope.

(** Whatever the schedule, and whatever the web gives at what time: a load that succeeds
    gives what its document means, each reference standing for a policy of that name that
    the finder held at the start or that one of the documents says. *)
Theorem C82_meaning : forall limit E fd web K threads sched i j d p, default_readers E ->
  outcome_f limit E fd web K threads sched i j d (Ok p) ->
  doc_means E (said E (available web threads) K) d p.
Proof. intros limit E fd web K threads sched i j d p HE. exact (outcome_means limit E HE fd web K threads sched i j d p). Qed.

(** At every moment the finder holds under a name only policies of that name that it held
    at the start or that one of the documents says. *)
Theorem C82_held : forall limit E fd web K threads sched x p, default_readers E ->
  held_f limit E fd web K threads sched x = Some p ->
  name_of p = x /\ said E (available web threads) K p.
Proof. intros limit E fd web K threads sched x p HE. exact (held_said limit E HE fd web K threads sched x p). Qed.

(** It never loses a name. *)
Theorem C82_kept : forall limit E fd web K threads sched more x,
  held_f limit E fd web K threads sched x <> None ->
  held_f limit E fd web K threads (sched ++ more) x <> None.
Proof.
  intros limit E fd web K threads sched more x H. unfold held_f in *. rewrite run_schedule_app.
  exact (run_keeps web _ more _ x H).
Qed.

(** A load of a name that the finder holds when the thread starts fails, whatever the
    other threads do. *)
Theorem C82_once : forall limit E fd web K threads sched more i j d r, default_readers E ->
  ~ In i sched -> held_f limit E fd web K threads sched (root_name d) <> None ->
  outcome_f limit E fd web K threads (sched ++ more) i j d r -> exists e, r = Raise e.
Proof.
  intros limit E fd web K threads sched more i j d r HE Hi Hh (docs & rs & Hd & Hj & Hf & Hr).
  unfold finished_f in Hf. rewrite run_schedule_app in Hf.
  set (s := run_schedule_f web sched (start_f limit E fd K threads)) in *.
  assert (Ht : nth_error (fst s) i = Some (loads_t limit E fd docs)).
  { unfold s. rewrite run_other by exact Hi. unfold start_f. cbn [fst]. rewrite nth_error_map, Hd. reflexivity. }
  destruct (once_run (root_name d) web i _ more s _ Hh Ht (loads_once limit E HE fd (root_name d) docs))
    as (t' & Ht' & Hs).
  rewrite Hf in Ht'. injection Ht' as <-. cbn [safe] in Hs. destruct Hs as (rs' & [= <-] & H2).
  assert (G : forall l l' j, Forall2 (fun d' r' => root_name d' = root_name d -> raises r') l l' ->
    nth_error l j = Some d -> nth_error l' j = Some r -> raises r).
  { clear. intros l l' j H. revert j. induction H as [|d' r' l l' Hr _ IH]; intros [|j] H1 H2; try discriminate.
    - injection H1 as ->. injection H2 as ->. exact (Hr eq_refl).
    - exact (IH j H1 H2). }
  specialize (G docs rs j H2 Hj Hr). destruct r as [p|e]; [destruct G|exists e; reflexivity].
Qed.

(** A thread is undisturbed by threads that register none of the names it registers or
    looks up: its loads have the outcomes that they have one after the other in a process
    with this thread only. *)
Theorem C82_undisturbed : forall limit E fd fetch K threads sched i docs rs, default_readers E ->
  nth_error threads i = Some docs ->
  (forall j docs' d d' x, j <> i -> nth_error threads j = Some docs' -> In d docs -> In d' docs' ->
     mentions fetch fd d x -> ~ declares fetch fd d' x) ->
  finished_f limit E fd (fun _ => fetch) K threads sched i rs ->
  rs = loads_alone limit E fetch fd docs (mkFstate (holding K) []).
Proof.
  intros limit E fd fetch K threads sched i docs rs HE.
  exact (separate_loads limit E HE fd fetch K threads sched i docs rs).
Qed.
(** In particular one thread alone does what Sources.v says. *)
Theorem C82_alone : forall limit E fd fetch K docs sched rs, default_readers E ->
  finished_f limit E fd (fun _ => fetch) K [docs] sched 0 rs ->
  rs = loads_alone limit E fetch fd docs (mkFstate (holding K) []).
Proof.
  intros limit E fd fetch K docs sched rs HE. apply (C82_undisturbed limit E fd fetch K [docs] sched 0 docs rs HE eq_refl).
  intros j docs' d d' x Hj Hn. destruct j as [|[|j]]; [congruence|discriminate Hn|discriminate Hn].
Qed.

(** Every thread that gets its turns finishes, with one outcome for each document. *)
Theorem C82_finishes : forall limit E fd web K threads (sched : nat -> nat) i docs, default_readers E ->
  nth_error threads i = Some docs ->
  (forall n, exists m, n <= m /\ sched m = i) ->
  exists n rs, finished_f limit E fd web K threads (map sched (seq 0 n)) i rs /\
    List.length rs = List.length docs.
Proof.
  intros limit E fd web K threads sched i docs HE Hd Hfair.
  destruct (finishes web _ sched i Hfair (loads_t limit E fd docs) 0 (start_f limit E fd K threads))
    as (n & r & _ & Hr).
  { unfold start_f. cbn [fst]. rewrite nth_error_map, Hd. reflexivity. }
  rewrite Nat.sub_0_r in Hr.
  destruct (after_pool limit E HE fd web K threads (map sched (seq 0 n))) as [_ Hp].
  specialize (Hp i _ Hr). cbn [safe] in Hp. destruct (Hp docs Hd) as (rs & -> & H2).
  exists n, rs. split; [exact Hr|]. symmetry. clear - H2. induction H2; cbn; congruence.
Qed.

(** ** What threads can do to each other *)
Definition one_p : node := d_policy "x" [d_rule "a"].
Definition other_p : node := d_policy "x" [d_rule "a"; d_rule "b"].

(** That a finder lets only one policy of a name be loaded is false: two threads loading
    different policies of one name can both succeed, and the finder then holds one of
    them; one after the other, the second fails. *)
Theorem C82_duplicate_refuted : exists d d' p p' sched,
  root_name d = root_name d' /\ p <> p' /\
  finished_f 5 std_renv LocalFinder (fun _ => web) [] [[d]; [d']] sched 0 [Ok p] /\
  finished_f 5 std_renv LocalFinder (fun _ => web) [] [[d]; [d']] sched 1 [Ok p'] /\
  held_f 5 std_renv LocalFinder (fun _ => web) [] [[d]; [d']] sched (root_name d) = Some p' /\
  (exists e, loads_alone 5 std_renv web LocalFinder [d; d'] fstate0 = [Ok p; Raise e]) /\
  (exists e, loads_alone 5 std_renv web LocalFinder [d'; d] fstate0 = [Ok p'; Raise e]).
Proof.
  exists one_p, other_p. eexists _, _, [0; 1; 0; 1]. split; [reflexivity|]. split; [|split; [|split; [|split; [|split]]]].
  2: { vm_compute. reflexivity. }
  2: { vm_compute. reflexivity. }
  2: { vm_compute. reflexivity. }
  2: { eexists. vm_compute. reflexivity. }
  2: { eexists. vm_compute. reflexivity. }
  discriminate.
Qed.

(** That a reference to a policy of the same document is that policy is false: it can be
    the one of another thread. *)
Theorem C82_own_reference_refuted : exists sched m t alg p p' rs,
  finished_f 5 std_renv LocalFinder (fun _ => web) [] [[d_set "s" [one_p; d_pref "x"]]; [other_p]] sched 0
    [Ok (PPolicySet m t alg [p; p'])] /\ p <> p' /\
  finished_f 5 std_renv LocalFinder (fun _ => web) [] [[d_set "s" [one_p; d_pref "x"]]; [other_p]] sched 1 rs /\
  loads_alone 5 std_renv web LocalFinder [d_set "s" [one_p; d_pref "x"]] fstate0 =
    [Ok (PPolicySet m t alg [p; p])].
Proof.
  exists [0; 1; 0; 1; 0; 0; 0; 0]. eexists _, _, _, _, _, _. split; [vm_compute; reflexivity|].
  split; [discriminate|]. split; vm_compute; reflexivity.
Qed.

(** That documents that load in any order also load at the same time is false: two
    threads can fetch the same referenced document, and one of them then fails. *)
Definition d_one : node := d_set "one" [d_pref "http://x/p"].
Definition d_two : node := d_set "two" [d_pref "http://x/p"].
Theorem C82_shared_reference_refuted : exists sched p1 p2 e,
  loads_alone 5 std_renv web (UrlFinder None) [d_one; d_two] fstate0 = [Ok p1; Ok p2] /\
  loads_alone 5 std_renv web (UrlFinder None) [d_two; d_one] fstate0 = [Ok p2; Ok p1] /\
  finished_f 5 std_renv (UrlFinder None) (fun _ => web) [] [[d_one]; [d_two]] sched 0 [Ok p1] /\
  finished_f 5 std_renv (UrlFinder None) (fun _ => web) [] [[d_one]; [d_two]] sched 1 [Raise e].
Proof.
  exists [0; 1; 0; 1; 0; 0; 0; 0; 0; 0; 1; 1; 1]. eexists _, _, _.
  split; [vm_compute; reflexivity|]. split; [vm_compute; reflexivity|]. split; vm_compute; reflexivity.
Qed.

(** ** The premises are met *)

(** Two threads loading different names at the same time, with a common reference to a
    policy that the finder held before. *)
Definition held_x : list policybase :=
  match loads_alone 5 std_renv web LocalFinder [one_p] fstate0 with
  | [Ok p] => [p]
  | _ => []
  end.
Definition thread_a : list node := [d_set "a" [d_pref "x"; d_policy "a1" [d_rule "r"]]].
Definition thread_b : list node := [d_policy "b1" [d_rule "r"]; d_set "b" [d_pref "x"; d_pref "b1"]].

Fixpoint subs (n : node) : list node :=
  n :: match n with Elem _ _ _ ks => flat_map subs ks | Comment _ => [] end.
Lemma inside_subs : forall m n, inside m n -> In m (subs n).
Proof.
  intros m n H. induction H as [|n k Hk _ IH]; [destruct m; left; reflexivity|].
  destruct n as [t a x ks|t]; [|destruct Hk]. right. apply in_flat_map. exists k. split; [|exact IH].
  apply filter_In in Hk. apply Hk.
Qed.
Definition decl_names (n : node) : list name :=
  flat_map (fun m => (if called "Policy" m then [PolicyName (xml_attr "PolicyId" m)] else []) ++
                     (if called "PolicySet" m then [SetName (xml_attr "PolicySetId" m)] else []))%list (subs n).
Definition all_names (n : node) : list name :=
  (decl_names n ++ flat_map (fun m => match wanted m with Some x => [x] | None => [] end) (subs n))%list.
Lemma declared_names : forall m n x, inside m n -> declared m x -> In x (decl_names n).
Proof.
  intros m n x Hi Hd. apply in_flat_map. exists m. split; [apply inside_subs, Hi|].
  apply in_or_app. destruct Hd as [[-> ->]|[-> ->]]; [left|right]; left; reflexivity.
Qed.
Lemma mentioned_names : forall m n x, inside m n -> declared m x \/ wanted m = Some x -> In x (all_names n).
Proof.
  intros m n x Hi [Hd|Hw]; apply in_or_app; [left; apply (declared_names m); assumption|right].
  apply in_flat_map. exists m. split; [apply inside_subs, Hi|]. rewrite Hw. left. reflexivity.
Qed.
Lemma local_reach : forall fetch n d, reaches fetch LocalFinder n d -> d = n.
Proof. intros fetch n d H. inversion H as [|base ? ? ? ? ? ? ? ? Hfd]; [reflexivity|discriminate Hfd]. Qed.

Example C82_undisturbed_case : exists pa pb1 pb,
  List.length held_x = 1 /\
  (forall sched ra, finished_f 5 std_renv LocalFinder (fun _ => web) held_x [thread_a; thread_b] sched 0 ra ->
     ra = [Ok pa]) /\
  finished_f 5 std_renv LocalFinder (fun _ => web) held_x [thread_a; thread_b]
    (concat (repeat [0; 1] 15)) 0 [Ok pa] /\
  finished_f 5 std_renv LocalFinder (fun _ => web) held_x [thread_a; thread_b]
    (concat (repeat [0; 1] 15)) 1 [Ok pb1; Ok pb].
Proof.
  eexists _, _, _. split; [reflexivity|].
  split; [|split; [vm_compute; reflexivity|vm_compute; reflexivity]].
  intros sched ra H.
  apply (C82_undisturbed 5 std_renv LocalFinder web held_x [thread_a; thread_b] sched 0 thread_a ra
             C43_std_readers eq_refl) in H.
  { rewrite H. vm_compute. reflexivity. }
  clear. intros j docs' d d' x Hj Hn Hd Hd' (n & m & Hr & Hm & Hx) (n' & m' & Hr' & Hm' & Hx').
  apply local_reach in Hr. apply local_reach in Hr'. subst n n'.
  apply (mentioned_names m d x Hm) in Hx. apply (declared_names m' d' x Hm') in Hx'.
  destruct j as [|[|j]]; [congruence| |destruct j; discriminate Hn]. injection Hn as <-.
  destruct Hd as [<-|[]]. destruct Hd' as [<-|[<-|[]]];
    vm_compute in Hx; vm_compute in Hx'; intuition congruence.
Qed.

(** A name held when a thread starts. *)
Example C82_once_case : exists p e,
  held_f 5 std_renv LocalFinder (fun _ => web) [] [[one_p]; [other_p; d_set "s" [d_pref "x"]]] [0; 0]
    (root_name other_p) <> None /\
  outcome_f 5 std_renv LocalFinder (fun _ => web) [] [[one_p]; [other_p; d_set "s" [d_pref "x"]]]
    ([0; 0] ++ [1; 1; 1; 1; 1; 1]) 1 0 other_p (Raise e) /\
  outcome_f 5 std_renv LocalFinder (fun _ => web) [] [[one_p]; [other_p; d_set "s" [d_pref "x"]]]
    ([0; 0] ++ [1; 1; 1; 1; 1; 1]) 1 1 (d_set "s" [d_pref "x"]) (Ok p).
Proof.
  eexists _, _. split; [vm_compute; discriminate|].
  split; eexists _, _; (split; [reflexivity|]); (split; [reflexivity|]);
    (split; [vm_compute; reflexivity|reflexivity]).
Qed.

Print Assumptions C82_meaning.
Print Assumptions C82_held.
Print Assumptions C82_kept.
Print Assumptions C82_once.
Print Assumptions C82_undisturbed.
Print Assumptions C82_alone.
Print Assumptions C82_finishes.
Print Assumptions C82_duplicate_refuted.
Print Assumptions C82_own_reference_refuted.
Print Assumptions C82_shared_reference_refuted.
