(** Lemmas about PDPs that threads share. *)
From Coq Require Import Lia.
From Verif Require Import EvalThreads Sources PdpThreads SpecState SpecThreads SpecPdpThreads
  StateFacts ThreadFacts SourcesFacts2.

Lemma rep_same : forall A (l : list A) i x y, nth_error l i = Some x ->
  nth_error (replace_nth i y l) i = Some y.
Proof. induction l as [|z l IH]; intros [|i] x y H; cbn in *; try discriminate; eauto. Qed.
Lemma rep_other : forall A (l : list A) i j y, i <> j ->
  nth_error (replace_nth i y l) j = nth_error l j.
Proof.
  induction l as [|z l IH]; intros [|i] [|j] y H; cbn; try reflexivity; [congruence|].
  apply IH. congruence.
Qed.
Lemma rep_id : forall A (l : list A) i x, nth_error l i = Some x -> replace_nth i x l = l.
Proof.
  induction l as [|z l IH]; intros [|i] x H; cbn in *; try discriminate; [congruence|].
  f_equal. auto.
Qed.
Lemma rep_length : forall A (l : list A) i y, length (replace_nth i y l) = length l.
Proof. induction l as [|z l IH]; intros [|i] y; cbn; auto. Qed.

Lemma list_set_updated : forall A i (v : A) l, i < length l -> updated i v l (list_set i v l).
Proof.
  intros A i v l. revert i. induction l as [|x l IH]; intros [|i] H; cbn in H; try lia.
  - exists [], x, l. auto.
  - destruct (IH i) as (b & o & a & H1 & H2 & H3); [lia|]. exists (x :: b), o, a. cbn.
    rewrite H1 at 1. rewrite H2, H3. auto.
Qed.
Lemma updated_nth : forall A i (v : A) l l', updated i v l l' ->
  nth_error l' i = Some v /\ (forall j, j <> i -> nth_error l' j = nth_error l j) /\ length l' = length l.
Proof.
  intros A i v l l' (b & o & a & -> & -> & <-). repeat split.
  - rewrite nth_error_app2, Nat.sub_diag by lia. reflexivity.
  - intros j Hj. destruct (Nat.lt_ge_cases j (length b)).
    + rewrite !nth_error_app1 by lia. reflexivity.
    + rewrite !nth_error_app2 by lia. replace (j - length b) with (Datatypes.S (j - length b - 1)) by lia.
      reflexivity.
  - rewrite !app_length. reflexivity.
Qed.

Ltac marks :=
  repeat match goal with |- _ /\ _ => split end;
  first [assumption|reflexivity|apply L_nil|apply OR_nil|apply OR_called, OR_nil
        |apply OR_returned, OR_nil|solve [repeat constructor]|cbn; lia|idtac].

(** ** One step *)
Section Step.
Variable S : senv.
Variable limit : nat.
Variable RE : renv.

(** What a step of a thread does: the thread, the PDPs, the shared state, the events. *)
Definition tstep (t : nat) (th : thread) (pdps : list (option policybase)) (w : shared)
  : thread * list (option policybase) * shared * list event :=
  match th_doing th with
  | Idle => match th_todo th with
            | [] => (th, pdps, w, [])
            | k :: rest => (mkThread rest (Started k), pdps, w, [Called t k])
            end
  | Started k => (mkThread (th_todo th) (fst (enter S limit RE k pdps)), snd (enter S limit RE k pdps), w, [])
  | Evaluating k (Done r) => (mkThread (th_todo th) Idle, pdps, w, [Returned t k (ADecision r)])
  | Evaluating k x => (mkThread (th_todo th) (Evaluating k (fst (step_t S x w))), pdps, snd (step_t S x w), [])
  | Loaded k i p => (mkThread (th_todo th) (Returning k (AUnit (Ok tt))), list_set i (Some p) pdps, w, [])
  | Returning k a => (mkThread (th_todo th) Idle, pdps, w, [Returned t k a])
  end.
Lemma pstep_tstep : forall t P th, nth_error (pr_threads P) t = Some th ->
  forall th' pdps' w' evs, tstep t th (pr_pdps P) (pr_shared P) = (th', pdps', w', evs) ->
  pstep S limit RE t P =
  mkProcess (replace_nth t th' (pr_threads P)) pdps' w' (pr_trace P ++ evs)%list.
Proof.
  intros t P th Hn th' pdps' w' evs H. unfold pstep. rewrite Hn. unfold tstep in H.
  destruct th as [todo doing]. cbn [th_doing th_todo] in *.
  destruct doing as [|k|k x|k i p|k a].
  - destruct todo as [|k rest]; injection H as <- <- <- <-; [|reflexivity].
    rewrite (rep_id _ _ _ _ Hn), app_nil_r. destruct P; reflexivity.
  - destruct (enter S limit RE k (pr_pdps P)) as [a q]. cbn [fst snd] in H.
    injection H as <- <- <- <-. rewrite app_nil_r. reflexivity.
  - destruct x; cbn [step_t fst snd] in *; injection H as <- <- <- <-; rewrite ?app_nil_r; reflexivity.
  - injection H as <- <- <- <-. rewrite app_nil_r. reflexivity.
  - injection H as <- <- <- <-. reflexivity.
Qed.
Lemma pstep_none : forall t P, nth_error (pr_threads P) t = None -> pstep S limit RE t P = P.
Proof. intros t P H. unfold pstep. rewrite H. reflexivity. Qed.

Lemma prun_app : forall a b P, prun S limit RE (a ++ b) P = prun S limit RE b (prun S limit RE a P).
Proof. induction a as [|t a IH]; intros b P; [reflexivity|]. cbn [app prun]. apply IH. Qed.

(** ** Moments *)

Lemma orderly_app : forall t ph a ph1, orderly t ph a ph1 -> forall b ph2, orderly t ph1 b ph2 ->
  orderly t ph (a ++ b) ph2.
Proof.
  induction 1; intros b ph2 H2; cbn [app]; [exact H2|apply OR_other; auto|apply OR_called; auto
    |apply OR_moment; auto|apply OR_returned; auto].
Qed.
Lemma legal_app : forall p a p1, legal S limit RE p a p1 -> forall b p2, legal S limit RE p1 b p2 ->
  legal S limit RE p (a ++ b) p2.
Proof.
  induction 1; intros b p2 H2; cbn [app]; [exact H2|constructor; auto|econstructor; eauto].
Qed.
Lemma visible_app : forall a b, visible (a ++ b) = (visible a ++ visible b)%list.
Proof. intros. apply flat_map_app. Qed.

(** What a thread's activity says about its phase *)
Definition phase_ok (n : nat) (a : activity) (ph : phase) : Prop :=
  match a, ph with
  | Idle, Outside => True
  | Started k, Before k' => k' = k
  | Evaluating k x, After k' (ADecision r) => k' = k /\ follows S x r
  | Loaded k i p, Before k' => k' = k /\ i < n /\
      exists w s f fd, k = CSetFromSource i w s f fd /\ load limit RE w s f fd = Ok p
  | Returning k a, After k' a' => k' = k /\ a' = a
  | _, _ => False
  end.

Lemma load_gives : forall w s f fd r, load limit RE w s f fd = r -> source_gives limit RE w s f fd r.
Proof.
  intros w s f fd r H. unfold load in H. unfold source_gives.
  destruct (base_from_source limit RE w s f (FaFinder 0) (mkProgram [(fd, fstate0)] [])) as [r' st].
  cbn [fst] in H. subst. eauto.
Qed.

Hypothesis Hind : history_independent S.

(** A started call either reaches its moment or, when it has to read a source, goes on. *)
Lemma enter_cases : forall k pdps a pdps', enter S limit RE k pdps = (a, pdps') ->
  (exists ans, at_once S limit RE pdps k ans pdps' /\ phase_ok (length pdps) a (After k ans)) \/
  (pdps' = pdps /\ phase_ok (length pdps) a (Before k)).
Proof.
  intros k pdps a pdps' H. destruct k as [i c|i|i x|i w s f fd]; cbn [enter] in H.
  - destruct (nth_error pdps i) as [[p|]|] eqn:E; injection H as <- <-; left; eexists.
    + split; [apply AO_evaluate, E|]. cbn. split; [reflexivity|]. apply follows_policy, Hind.
    + split; [apply AO_no_policy, E|]. cbn; auto.
    + split; [apply AO_no_pdp, nth_error_None, E|]. cbn; auto.
  - destruct (nth_error pdps i) as [v|] eqn:E; injection H as <- <-; left; eexists.
    + split; [apply AO_get, E|]. cbn; auto.
    + split; [apply AO_get_no_pdp, nth_error_None, E|]. cbn; auto.
  - destruct (nth_error pdps i) as [v|] eqn:E.
    2:{ injection H as <- <-. left. eexists. split; [apply AO_set_no_pdp, nth_error_None, E|]. cbn; auto. }
    assert (i < length pdps) by (apply nth_error_Some; congruence).
    destruct x as [p|x]; cbn [pdp_set] in H; injection H as <- <-; left; eexists.
    + split; [apply AO_set, list_set_updated; assumption|]. cbn; auto.
    + rewrite (nth_error_same _ _ _ _ E). split; [apply AO_refused; assumption|]. cbn; auto.
  - destruct (nth_error pdps i) as [v|] eqn:E.
    2:{ injection H as <- <-. left. eexists. split; [apply AO_load_no_pdp, nth_error_None, E|]. cbn; auto. }
    assert (i < length pdps) by (apply nth_error_Some; congruence).
    destruct (load limit RE w s f fd) as [p|e] eqn:L; injection H as <- <-.
    + right. split; [reflexivity|]. cbn. split; [reflexivity|]. split; [assumption|].
      exists w, s, f, fd. auto.
    + left. eexists. split; [apply AO_load_fails; [apply load_gives, L|assumption]|]. cbn; auto.
Qed.

(** ** The invariant *)
Variable pdps0 : list (option policybase).
Definition linear (P : process) (ms : list mark) : Prop :=
  visible ms = pr_trace P /\ legal S limit RE pdps0 ms (pr_pdps P) /\
  length (pr_pdps P) = length pdps0 /\
  cache_ok (sn_fenv S) (sh_cache (pr_shared P)) /\
  (forall t th, nth_error (pr_threads P) t = Some th ->
     exists ph, phase_ok (length pdps0) (th_doing th) ph /\ orderly t Outside ms ph) /\
  (forall t, length (pr_threads P) <= t -> orderly t Outside ms Outside).

Lemma at_once_length : forall p k a p', at_once S limit RE p k a p' -> length p' = length p.
Proof.
  intros p k a p' H. destruct H; try reflexivity; eapply updated_nth; eassumption.
Qed.

Lemma step_marks : forall t th pdps w th' pdps' w' evs ph,
  tstep t th pdps w = (th', pdps', w', evs) -> length pdps = length pdps0 ->
  cache_ok (sn_fenv S) (sh_cache w) -> phase_ok (length pdps0) (th_doing th) ph ->
  exists new ph', visible new = evs /\ legal S limit RE pdps new pdps' /\
    cache_ok (sn_fenv S) (sh_cache w') /\ phase_ok (length pdps0) (th_doing th') ph' /\
    orderly t ph new ph' /\ Forall (fun m => thread_of m = t) new /\ length pdps' = length pdps0 /\
    length new <= 1.
Proof.
  intros t [todo doing] pdps w th' pdps' w' evs ph H HL Hw Hph. unfold tstep in H.
  cbn [th_doing th_todo] in *. destruct doing as [|k|k x|k i p|k a].
  - destruct ph; try contradiction. destruct todo as [|k rest]; injection H as <- <- <- <-.
    + exists [], Outside. marks.
    + exists [Seen (Called t k)], (Before k). cbn.
      marks.
  - destruct ph as [|k'|]; try contradiction. cbn in Hph. subst k'.
    destruct (enter S limit RE k pdps) as [a q] eqn:E. cbn [fst snd] in H. injection H as <- <- <- <-.
    destruct (enter_cases _ _ _ _ E) as [(ans & H1 & H2)|(-> & H2)]; rewrite HL in H2.
    + exists [Moment t k ans], (After k ans). cbn [th_doing].
      split; [reflexivity|]. split; [econstructor; [exact H1|constructor]|]. split; [exact Hw|].
      split; [exact H2|]. split; [apply OR_moment, OR_nil|]. split; [repeat constructor|].
      rewrite (at_once_length _ _ _ _ H1). split; [exact HL|cbn; lia].
    + exists [], (Before k). cbn [th_doing].
      marks.
  - destruct ph as [| |k' a]; try contradiction. destruct a as [r| |]; try contradiction.
    cbn in Hph. destruct Hph as [-> Hf].
    assert (D : (exists r', x = Done r') \/ (forall r', x <> Done r'))
      by (destruct x; [left; eauto|right; discriminate|right; discriminate|right; discriminate]).
    destruct D as [[r' ->]|D].
    + injection H as <- <- <- <-. inversion Hf as [r0 Hr| | |]. subst r' r0.
      exists [Seen (Returned t k (ADecision r))], Outside. cbn.
      marks.
    + destruct (step_keeps S _ _ x w Hf Hw) as (H1 & H2 & _).
      assert (H' : (mkThread todo (Evaluating k (fst (step_t S x w))), pdps, snd (step_t S x w),
                    @nil event) = (th', pdps', w', evs))
        by (destruct x; [exfalso; eapply D; reflexivity|exact H|exact H|exact H]).
      injection H' as <- <- <- <-.
      exists [], (After k (ADecision r)). cbn [th_doing].
      marks. split; [reflexivity|exact H1].
  - destruct ph as [|k'|]; try contradiction. cbn in Hph.
    destruct Hph as (-> & Hi & ws & s & f & fd & -> & L). injection H as <- <- <- <-.
    exists [Moment t (CSetFromSource i ws s f fd) (AUnit (Ok tt))],
      (After (CSetFromSource i ws s f fd) (AUnit (Ok tt))). cbn [th_doing].
    split; [reflexivity|]. split.
    { econstructor; [|constructor]. apply (AO_load S limit RE pdps i ws s f fd p).
      - apply load_gives, L. - apply list_set_updated. lia. }
    split; [exact Hw|]. split; [cbn; auto|]. split; [apply OR_moment, OR_nil|]. split; [repeat constructor|].
    rewrite list_set_length. split; [exact HL|cbn; lia].
  - destruct ph as [| |k' a']; try contradiction. cbn in Hph. destruct Hph as [-> ->].
    injection H as <- <- <- <-. exists [Seen (Returned t k a)], Outside. cbn.
    marks.
Qed.

Lemma others_marks : forall u t ph ms, Forall (fun m => thread_of m = t) ms -> u <> t ->
  orderly u ph ms ph.
Proof.
  intros u t ph ms H N. induction H as [|m ms Hm _ IH]; [apply OR_nil|].
  apply OR_other; [congruence|exact IH].
Qed.

Lemma linear_step : forall t P ms, linear P ms ->
  exists new, linear (pstep S limit RE t P) (ms ++ new).
Proof.
  intros t P ms (H1 & H2 & H3 & H4 & H5 & H6).
  destruct (nth_error (pr_threads P) t) as [th|] eqn:E.
  2:{ exists []. rewrite (pstep_none _ _ E), app_nil_r. unfold linear; auto 10. }
  destruct (tstep t th (pr_pdps P) (pr_shared P)) as [[[th' q] w'] evs] eqn:T.
  destruct (H5 t th E) as (ph & Hph & Ho).
  destruct (step_marks _ _ _ _ _ _ _ _ _ T H3 H4 Hph) as (new & ph' & K1 & K2 & K3 & K4 & K5 & K6 & K7 & _).
  exists new. rewrite (pstep_tstep _ _ _ E _ _ _ _ T). unfold linear.
  cbn [pr_trace pr_pdps pr_shared pr_threads].
  split; [rewrite visible_app, H1, K1; reflexivity|].
  split; [eapply legal_app; eassumption|]. split; [exact K7|]. split; [exact K3|]. split.
  - intros u th1 Hu. destruct (Nat.eq_dec t u) as [e|N].
    + subst u. rewrite (rep_same _ _ _ _ _ E) in Hu. injection Hu as <-. exists ph'.
      split; [exact K4|]. eapply orderly_app; eassumption.
    + rewrite rep_other in Hu by exact N. destruct (H5 u th1 Hu) as (ph1 & A & B). exists ph1.
      split; [exact A|]. eapply orderly_app; [exact B|]. eapply others_marks; [exact K6|congruence].
  - intros u Hu. rewrite rep_length in Hu. eapply orderly_app; [apply H6, Hu|].
    eapply others_marks; [exact K6|]. assert (t < length (pr_threads P)) by (apply nth_error_Some; congruence).
    lia.
Qed.

Lemma linear_run : forall sched P ms, linear P ms ->
  exists ms', linear (prun S limit RE sched P) ms'.
Proof.
  induction sched as [|t sched IH]; intros P ms H; [exists ms; exact H|].
  destruct (linear_step t P ms H) as [new H']. exact (IH _ _ H').
Qed.

Lemma linear_begin : forall calls, linear (begin calls pdps0) [].
Proof.
  intros calls. unfold linear. cbn [begin pr_trace pr_pdps pr_shared pr_threads sh_cache].
  split; [reflexivity|]. split; [apply L_nil|]. split; [reflexivity|]. split; [apply cache_ok_nil|].
  split; [|intros; apply OR_nil]. intros t th H. rewrite nth_error_map in H. destruct (nth_error calls t) as [ks|]; [|discriminate].
  injection H as <-. exists Outside. cbn. split; [exact I|constructor].
Qed.
End Step.

Lemma linearizable : forall S limit RE calls pdps sched, history_independent S ->
  exists ms, visible ms = pr_trace (prun S limit RE sched (begin calls pdps)) /\
    legal S limit RE pdps ms (pr_pdps (prun S limit RE sched (begin calls pdps))) /\
    forall t, exists ph, orderly t Outside ms ph.
Proof.
  intros S limit RE calls pdps sched H.
  destruct (linear_run S limit RE H pdps sched _ _ (linear_begin S limit RE pdps calls))
    as (ms & H1 & H2 & _ & _ & H5 & H6).
  exists ms. split; [exact H1|]. split; [exact H2|]. intros t.
  destruct (nth_error (pr_threads (prun S limit RE sched (begin calls pdps))) t) as [th|] eqn:E.
  - destruct (H5 t th E) as (ph & _ & Ho). eauto.
  - exists Outside. apply H6, nth_error_None, E.
Qed.
