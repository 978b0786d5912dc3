(** C78: PDPs shared by threads while policies are assigned and loaded. *)
From Coq Require Import Lia.
From Verif Require Import EvalThreads Sources PdpThreads SpecState SpecThreads SpecPdpThreads Sample
  StateFacts ThreadFacts PropertiesSources PropertiesThreads PdpThreadsFacts PdpThreadsFacts2 PdpThreadsFacts3.

(** Calls on shared PDPs are linearizable: to each call a moment between its beginning and
    its end can be given so that the calls, carried out one after the other in the order of
    these moments, have the answers that they had, and lead to the same PDPs. *)
Theorem C78_linearizable : forall S limit RE calls pdps sched, history_independent S ->
  exists ms, visible ms = pr_trace (prun S limit RE sched (begin calls pdps)) /\
    legal S limit RE pdps ms (pr_pdps (prun S limit RE sched (begin calls pdps))) /\
    forall t, exists ph, orderly t Outside ms ph.
Proof. exact linearizable. Qed.

(** The moment of a call that has returned is one of its thread's own steps; its other
    steps change no PDP. *)
Theorem C78_moment : forall S limit RE calls pdps sched t k a b e, history_independent S ->
  spans S limit RE (begin calls pdps) sched t k a b e ->
  exists m, b < m < e /\ nth_error sched m = Some t /\
    at_once S limit RE (pr_pdps (after S limit RE (begin calls pdps) sched m)) k a
      (pr_pdps (after S limit RE (begin calls pdps) sched (m + 1))) /\
    forall m', b <= m' <= e -> m' <> m -> nth_error sched m' = Some t ->
      pr_pdps (after S limit RE (begin calls pdps) sched (m' + 1)) =
      pr_pdps (after S limit RE (begin calls pdps) sched m').
Proof. intros S limit RE calls pdps sched t k a b e H. apply moment, H. Qed.

(** An evaluation decides by one policy, the whole of it, which was in force at some time
    during the call. *)
Theorem C78_one_policy : forall S limit RE calls pdps sched t i c r b e, history_independent S ->
  spans S limit RE (begin calls pdps) sched t (CEvaluate i c) (ADecision r) b e ->
  exists m, b < m < e /\
    match policy_at S limit RE (begin calls pdps) sched m i with
    | Some (Some p) => r = policy_eval (env_of S []) c p
    | Some None => r = Raise EAttributeError
    | None => r = Raise ENameError
    end.
Proof.
  intros S limit RE calls pdps sched t i c r b e Hi H.
  destruct (moment _ _ _ _ _ _ Hi _ _ _ _ _ H) as (m & Hm & _ & Ho & _). exists m. split; [exact Hm|].
  unfold policy_at. inversion Ho as [? ? ? E|? ? E| | | | | |? ? E| | |]; subst; try (rewrite E; reflexivity).
  apply nth_error_None in E. rewrite E. reflexivity.
Qed.

(** If the policy does not change during the call, it is that policy. *)
Theorem C78_undisturbed : forall S limit RE calls pdps sched t i c a b e p, history_independent S ->
  spans S limit RE (begin calls pdps) sched t (CEvaluate i c) a b e ->
  (forall m, b < m < e -> policy_at S limit RE (begin calls pdps) sched m i = Some (Some p)) ->
  a = ADecision (policy_eval (env_of S []) c p).
Proof.
  intros S limit RE calls pdps sched t i c a b e p Hi H Hp.
  destruct (moment _ _ _ _ _ _ Hi _ _ _ _ _ H) as (m & Hm & _ & Ho & _). specialize (Hp m Hm).
  unfold policy_at in Hp. inversion Ho; subst; try congruence.
  assert (K : nth_error (pr_pdps (after S limit RE (begin calls pdps) sched m)) i <> None) by congruence.
  apply nth_error_Some in K. lia.
Qed.

(** The policy of a PDP changes only in a step of a thread that is within a call that sets
    the policy of this PDP, and to the policy that this call was given or has read. *)
Theorem C78_changes : forall S limit RE calls pdps sched n i, history_independent S ->
  policy_at S limit RE (begin calls pdps) sched (n + 1) i <>
  policy_at S limit RE (begin calls pdps) sched n i ->
  exists t b k p, nth_error sched n = Some t /\
    open_since S limit RE (begin calls pdps) sched b t k n /\
    policy_at S limit RE (begin calls pdps) sched (n + 1) i = Some (Some p) /\
    (k = CSetPolicy i (APolicy p) \/
     exists w s f fd, k = CSetFromSource i w s f fd /\ source_gives limit RE w s f fd (Ok p)).
Proof.
  intros S limit RE calls pdps sched n i Hi Hne.
  destruct (change S limit RE calls pdps sched Hi n i) as [K|K]; [contradiction|exact K].
Qed.

(** No stale policy: an evaluation that begins after the policy has been set, and during
    which no other call can change it, decides by the policy that was set. *)
Theorem C78_set_seen : forall S limit RE calls pdps sched i p t1 k1 a1 b1 e1 t2 c a2 b2 e2,
  history_independent S -> i < length pdps ->
  (k1 = CSetPolicy i (APolicy p) \/
   exists w s f fd, k1 = CSetFromSource i w s f fd /\ source_gives limit RE w s f fd (Ok p)) ->
  spans S limit RE (begin calls pdps) sched t1 k1 a1 b1 e1 ->
  spans S limit RE (begin calls pdps) sched t2 (CEvaluate i c) a2 b2 e2 ->
  e1 <= b2 ->
  (forall n t k b, b1 <= n < e2 -> open_since S limit RE (begin calls pdps) sched b t k n ->
     changes i k -> t = t1 /\ b = b1) ->
  a1 = AUnit (Ok tt) /\ a2 = ADecision (policy_eval (env_of S []) c p).
Proof.
  intros S limit RE calls pdps sched i p t1 k1 a1 b1 e1 t2 c a2 b2 e2 Hi. apply set_seen, Hi.
Qed.

(** A call that raises changes no PDP: an assignment that is refused, a source that cannot be
    read or does not exist, an evaluation that fails. *)
Theorem C78_failed : forall S limit RE calls pdps sched t k a b e ex, history_independent S ->
  spans S limit RE (begin calls pdps) sched t k a b e ->
  a = AUnit (Raise ex) \/ a = AGot (Raise ex) \/ a = ADecision (Raise ex) ->
  forall m, b <= m <= e -> nth_error sched m = Some t ->
    pr_pdps (after S limit RE (begin calls pdps) sched (m + 1)) =
    pr_pdps (after S limit RE (begin calls pdps) sched m).
Proof.
  intros S limit RE calls pdps sched t k a b e ex Hi H Ha m Hm Hs.
  destruct (moment _ _ _ _ _ _ Hi _ _ _ _ _ H) as (m1 & Hm1 & _ & Ho & Hq).
  destruct (Nat.eq_dec m m1) as [->|N]; [|apply Hq; assumption].
  remember (pr_pdps (after S limit RE (begin calls pdps) sched (m1 + 1))) as q.
  destruct Ho; try reflexivity; destruct Ha as [K|[K|K]]; discriminate.
Qed.

(** A thread makes its calls in order, one after the other: those that have ended are the
    first ones, and at most one more has been made. *)
Theorem C78_program_order : forall S limit RE calls pdps sched t ks,
  nth_error calls t = Some ks ->
  let tr := pr_trace (prun S limit RE sched (begin calls pdps)) in
  exists rest, ks = (made t tr ++ rest)%list /\
    (made t tr = map fst (answered t tr) \/
     exists k, made t tr = (map fst (answered t tr) ++ [k])%list).
Proof.
  intros S limit RE calls pdps sched t ks Hk tr.
  destruct (nth_error (pr_threads (prun S limit RE sched (begin calls pdps))) t) as [th|] eqn:E.
  - destruct (order_run _ _ _ _ _ _ _ _ E) as (ks' & Hk' & H1 & H2). rewrite Hk in Hk'.
    injection Hk' as <-. fold tr in H1, H2. exists (th_todo th). split; [symmetry; exact H1|].
    destruct (th_doing th); cbn [current] in H2; rewrite ?app_nil_r in H2; eauto.
  - exfalso. apply nth_error_None in E.
    assert (L := threads_length S limit RE calls pdps sched (length sched)).
    unfold after in L. rewrite firstn_all in L. rewrite L in E.
    assert (t < length calls) by (apply nth_error_Some; congruence). lia.
Qed.

(** No call waits for another thread: all calls of a thread that is scheduled again and
    again end. *)
Theorem C78_terminates : forall S limit RE calls pdps sched t ks,
  nth_error calls t = Some ks -> recurring sched t ->
  exists n, forall m,
    map fst (answered t (pr_trace (prun S limit RE (first_steps sched (n + m)) (begin calls pdps)))) = ks.
Proof. exact all_end. Qed.

(** Whatever the attribute source: an evaluation ends with a decision, with a collaborator's
    exception that is not an [Exception], or because there is no policy or no PDP. *)
Theorem C78_decisions : forall S limit RE calls pdps sched t i c a,
  In (Returned t (CEvaluate i c) a) (pr_trace (prun S limit RE sched (begin calls pdps))) ->
  exists r, a = ADecision r /\
    ((exists d, r = Ok d) \/
     (exists e, r = Raise e /\ is_exception e = false /\ collaborator_raises_s S e) \/
     r = Raise EAttributeError \/ r = Raise ENameError).
Proof.
  intros S limit RE calls pdps sched t i c a H. assert (F := answers_fine _ _ _ _ _ _ _ _ _ H).
  destruct a as [r|r|r]; cbn [fine_answer] in F; try contradiction. exists r. split; [reflexivity|].
  destruct F as [[F|F]|[F|F]]; auto.
Qed.

(** ** An example: thread 1 replaces the policy while thread 0 evaluates *)
Definition p_old := spol (Some (stgt [] [[m_local]] [])) FirstApplicable [srule EffPermit None None].
Definition p_new := spol (Some (stgt [] [[m_local]] [])) FirstApplicable [srule EffDeny None None].
Definition ex_calls : list (list call) :=
  [[CEvaluate 0 sctx; CEvaluate 0 sctx; CEvaluate 1 sctx];
   [CSetPolicy 0 (APolicy p_new); CSetPolicy 0 (ANotPolicy (ONat NNone));
    CSetFromSource 1 (files v1 down) main_path FacETree LocalFinder]].
Definition ex_sched : list nat :=
  [0; 0; 0; 1; 1; 1; 0; 0; 1; 1; 1; 1; 0; 0; 0; 0; 1; 0; 0; 1; 0; 1].
Definition ex_run := prun th_S 5 std_renv ex_sched (begin ex_calls [Some p_old; None]).

Example C78_example : exists p,
  pr_trace ex_run =
    [Called 0 (CEvaluate 0 sctx); Called 1 (CSetPolicy 0 (APolicy p_new));
     Returned 1 (CSetPolicy 0 (APolicy p_new)) (AUnit (Ok tt));
     Returned 0 (CEvaluate 0 sctx) (ADecision (Ok Permit));
     Called 1 (CSetPolicy 0 (ANotPolicy (ONat NNone)));
     Returned 1 (CSetPolicy 0 (ANotPolicy (ONat NNone))) (AUnit (Raise ETypeError));
     Called 1 (CSetFromSource 1 (files v1 down) main_path FacETree LocalFinder);
     Called 0 (CEvaluate 0 sctx); Returned 0 (CEvaluate 0 sctx) (ADecision (Ok Deny));
     Called 0 (CEvaluate 1 sctx);
     Returned 0 (CEvaluate 1 sctx) (ADecision (Raise EAttributeError));
     Returned 1 (CSetFromSource 1 (files v1 down) main_path FacETree LocalFinder) (AUnit (Ok tt))] /\
  pr_pdps ex_run = [Some p_new; Some p].
Proof. eexists. split; vm_compute; reflexivity. Qed.

(** The hypotheses of C78_set_seen: thread 1 sets the policy, then thread 0 evaluates. *)
Definition ex2_calls : list (list call) := [[CEvaluate 0 sctx]; [CSetPolicy 0 (APolicy p_new)]].
Definition ex2_sched : list nat := [1; 1; 1; 0; 0; 0; 0; 0].
Example C78_set_seen_example :
  let P := begin ex2_calls [Some p_old] in
  spans th_S 5 std_renv P ex2_sched 1 (CSetPolicy 0 (APolicy p_new)) (AUnit (Ok tt)) 0 2 /\
  spans th_S 5 std_renv P ex2_sched 0 (CEvaluate 0 sctx) (ADecision (Ok Deny)) 3 7 /\
  (forall n t k b, 0 <= n < 7 -> open_since th_S 5 std_renv P ex2_sched b t k n -> changes 0 k ->
     t = 1 /\ b = 0) /\
  policy_eval (env_of th_S []) sctx p_new = Ok Deny.
Proof.
  cbv zeta.
  assert (C0 : calls_at th_S 5 std_renv (begin ex2_calls [Some p_old]) ex2_sched 0 1 (CSetPolicy 0 (APolicy p_new)))
    by (vm_compute; reflexivity).
  assert (C3 : calls_at th_S 5 std_renv (begin ex2_calls [Some p_old]) ex2_sched 3 0 (CEvaluate 0 sctx))
    by (vm_compute; reflexivity).
  split; [|split; [|split]].
  - split; [|vm_compute; reflexivity]. split; [lia|]. split; [exact C0|].
    intros m k a Hm H. assert (m = 1) by lia. subst m. vm_compute in H. discriminate.
  - split; [|vm_compute; reflexivity]. split; [lia|]. split; [exact C3|].
    intros m k a Hm H. assert (D : m = 4 \/ m = 5 \/ m = 6) by lia.
    destruct D as [D|[D|D]]; subst m; vm_compute in H; discriminate.
  - intros n t k b Hn (Hb & Hc & _) Hk.
    assert (D : b = 0 \/ b = 3 \/ b = 1 \/ b = 2 \/ b = 4 \/ b = 5) by lia.
    destruct D as [->|[->|[->|[->|[->| ->]]]]].
    + unfold calls_at in *. rewrite C0 in Hc. apply app_inv_head in Hc. injection Hc as <- _. auto.
    + unfold calls_at in *. rewrite C3 in Hc. apply app_inv_head in Hc. injection Hc as <- <-. destruct Hk.
    + vm_compute in Hc. discriminate.
    + vm_compute in Hc. discriminate.
    + vm_compute in Hc. discriminate.
    + vm_compute in Hc. discriminate.
  - vm_compute. reflexivity.
Qed.

Print Assumptions C78_linearizable.
Print Assumptions C78_moment.
Print Assumptions C78_one_policy.
Print Assumptions C78_undisturbed.
Print Assumptions C78_changes.
Print Assumptions C78_set_seen.
Print Assumptions C78_failed.
Print Assumptions C78_program_order.
Print Assumptions C78_terminates.
Print Assumptions C78_decisions.
