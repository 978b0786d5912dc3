(** Order and end of the calls of a thread; answers, whatever the attribute source. *)
From Coq Require Import Lia.
From Verif Require Import EvalThreads Sources PdpThreads SpecState SpecThreads SpecPdpThreads
  StateFacts ThreadFacts SourcesFacts2 PdpThreadsFacts.

Section Order.
Variable S : senv.
Variable limit : nat.
Variable RE : renv.

Definition current (a : activity) : list call :=
  match a with
  | Idle => []
  | Started k | Evaluating k _ | Loaded k _ _ | Returning k _ => [k]
  end.

Definition in_order (t : nat) (ks : list call) (th : thread) (tr : list event) : Prop :=
  (made t tr ++ th_todo th)%list = ks /\ (map fst (answered t tr) ++ current (th_doing th))%list = made t tr.

Lemma made_app : forall t a b, made t (a ++ b) = (made t a ++ made t b)%list.
Proof. intros. apply flat_map_app. Qed.
Lemma answered_app : forall t a b, answered t (a ++ b) = (answered t a ++ answered t b)%list.
Proof. intros. apply flat_map_app. Qed.

Lemma enter_current : forall k pdps, current (fst (enter S limit RE k pdps)) = [k].
Proof.
  intros k pdps. destruct k as [i c|i|i x|i w s f fd]; cbn [enter];
    destruct (nth_error pdps i) as [v|]; try reflexivity.
  - destruct v; reflexivity.
  - destruct (pdp_set v x); reflexivity.
  - destruct (load limit RE w s f fd); reflexivity.
Qed.

Lemma order_tstep : forall t ks th tr pdps w th' pdps' w' evs, in_order t ks th tr ->
  tstep S limit RE t th pdps w = (th', pdps', w', evs) -> in_order t ks th' (tr ++ evs).
Proof.
  intros t ks [todo doing] tr pdps w th' pdps' w' evs (H1 & H2) T.
  unfold in_order. rewrite made_app, answered_app, map_app. unfold tstep in T.
  cbn [th_doing th_todo] in *. destruct doing as [|k|k x|k i p|k a].
  - destruct todo as [|k rest]; injection T as <- <- <- <-; cbn [made answered flat_map map th_todo th_doing current].
    + rewrite !app_nil_r in *. auto.
    + rewrite Nat.eqb_refl, !app_nil_r. cbn [app]. rewrite <- app_assoc. cbn [current] in H2.
      rewrite app_nil_r in H2. rewrite H2. auto.
  - injection T as <- <- <- <-. cbn [made answered flat_map map th_todo th_doing]. rewrite enter_current.
    rewrite !app_nil_r. auto.
  - assert (D : (exists r', x = Done r') \/ (forall r', x <> Done r'))
      by (destruct x; [left; eauto|right; discriminate|right; discriminate|right; discriminate]).
    destruct D as [[r ->]|D].
    + injection T as <- <- <- <-. cbn [made answered flat_map map th_todo th_doing current].
      rewrite Nat.eqb_refl, !app_nil_r. cbn [map fst app]. auto.
    + assert (T' : (mkThread todo (Evaluating k (fst (step_t S x w))), pdps, snd (step_t S x w),
                    @nil event) = (th', pdps', w', evs))
        by (destruct x; [exfalso; eapply D; reflexivity|exact T|exact T|exact T]).
      injection T' as <- <- <- <-. cbn [made answered flat_map map th_todo th_doing current].
      rewrite !app_nil_r. auto.
  - injection T as <- <- <- <-. cbn [made answered flat_map map th_todo th_doing current].
    rewrite !app_nil_r. auto.
  - injection T as <- <- <- <-. cbn [made answered flat_map map th_todo th_doing current].
    rewrite Nat.eqb_refl, !app_nil_r. cbn [map fst app]. auto.
Qed.

Lemma other_events : forall u t th pdps w th' pdps' w' evs, u <> t ->
  tstep S limit RE u th pdps w = (th', pdps', w', evs) -> made t evs = [] /\ answered t evs = [].
Proof.
  intros u t [todo doing] pdps w th' pdps' w' evs N T. apply Nat.eqb_neq in N. unfold tstep in T.
  cbn [th_doing th_todo] in *.
  destruct doing as [|k|k x|k i p|k a].
  - destruct todo; injection T as <- <- <- <-; cbn; rewrite ?N; auto.
  - injection T as <- <- <- <-. auto.
  - destruct x; injection T as <- <- <- <-; cbn; rewrite ?N; auto.
  - injection T as <- <- <- <-. auto.
  - injection T as <- <- <- <-. cbn. rewrite N. auto.
Qed.

Lemma order_run : forall calls pdps sched t th,
  nth_error (pr_threads (prun S limit RE sched (begin calls pdps))) t = Some th ->
  exists ks, nth_error calls t = Some ks /\
    in_order t ks th (pr_trace (prun S limit RE sched (begin calls pdps))).
Proof.
  intros calls pdps sched.
  assert (G : forall P, (forall t th, nth_error (pr_threads P) t = Some th ->
      exists ks, nth_error calls t = Some ks /\ in_order t ks th (pr_trace P)) ->
    forall t th, nth_error (pr_threads (prun S limit RE sched P)) t = Some th ->
      exists ks, nth_error calls t = Some ks /\ in_order t ks th (pr_trace (prun S limit RE sched P))).
  { induction sched as [|u sched IH]; intros P H; [exact H|]. cbn [prun]. apply IH. clear IH.
    intros t th Ht. destruct (nth_error (pr_threads P) u) as [thu|] eqn:E.
    2:{ rewrite (pstep_none _ _ _ _ _ E) in *. apply H, Ht. }
    destruct (tstep S limit RE u thu (pr_pdps P) (pr_shared P)) as [[[th' q] w'] evs] eqn:T.
    rewrite (pstep_tstep S limit RE _ _ _ E _ _ _ _ T) in *. cbn [pr_threads pr_trace] in *.
    destruct (Nat.eq_dec u t) as [e|N].
    - subst u. rewrite (rep_same _ _ _ _ _ E) in Ht. injection Ht as <-.
      destruct (H t thu E) as (ks & K1 & K2). exists ks. split; [exact K1|].
      eapply order_tstep; eassumption.
    - rewrite rep_other in Ht by exact N. destruct (H t th Ht) as (ks & K1 & K2). exists ks.
      split; [exact K1|]. destruct (other_events _ _ _ _ _ _ _ _ _ N T) as [A B].
      unfold in_order. rewrite made_app, answered_app, A, B, !app_nil_r. exact K2. }
  apply G. intros t th H. unfold begin in H. cbn [pr_threads] in H. rewrite nth_error_map in H.
  destruct (nth_error calls t) as [ks|]; [|discriminate]. injection H as <-. exists ks.
  split; [reflexivity|]. split; reflexivity.
Qed.

(** ** Every call ends *)

Lemma waits : forall t sched P, ~ In t sched ->
  nth_error (pr_threads (prun S limit RE sched P)) t = nth_error (pr_threads P) t.
Proof.
  induction sched as [|u sched IH]; intros P H; [reflexivity|]. cbn [prun].
  rewrite IH by (intros K; apply H; right; exact K).
  destruct (nth_error (pr_threads P) u) as [thu|] eqn:E; [|rewrite (pstep_none _ _ _ _ _ E); reflexivity].
  destruct (tstep S limit RE u thu (pr_pdps P) (pr_shared P)) as [[[th' q] w'] evs] eqn:T.
  rewrite (pstep_tstep S limit RE _ _ _ E _ _ _ _ T). cbn [pr_threads]. apply rep_other.
  intros ->. apply H. left; reflexivity.
Qed.

Section Ends.
Variable sched : nat -> nat.
Variable t : nat.
Hypothesis Hr : recurring sched t.

Lemma turn : forall n P th, nth_error (pr_threads P) t = Some th -> exists m pdps w th' pdps' w' evs,
  tstep S limit RE t th pdps w = (th', pdps', w', evs) /\
  nth_error (pr_threads (prun S limit RE (map sched (seq n m)) P)) t = Some th'.
Proof.
  intros n P th H. destruct (first_turn sched t n Hr) as (m & Hm & Hout).
  assert (K := waits _ _ P Hout). rewrite H in K.
  set (P1 := prun S limit RE (map sched (seq n m)) P) in *.
  destruct (tstep S limit RE t th (pr_pdps P1) (pr_shared P1)) as [[[th' q] w'] evs] eqn:T.
  exists (m + 1), (pr_pdps P1), (pr_shared P1), th', q, w', evs. split; [exact T|].
  rewrite seq_app, map_app, prun_app. cbn [seq map prun]. rewrite Hm. fold P1.
  rewrite (pstep_tstep S limit RE _ _ _ K _ _ _ _ T). cbn [pr_threads]. eapply rep_same; eassumption.
Qed.

(** Thread [t] in state [th] gets to [th'] *)
Definition gets (th : thread) (Q : thread -> Prop) : Prop :=
  forall n P, nth_error (pr_threads P) t = Some th -> exists m th',
    nth_error (pr_threads (prun S limit RE (map sched (seq n m)) P)) t = Some th' /\ Q th'.

Lemma gets_step : forall th Q, (forall pdps w th' pdps' w' evs,
    tstep S limit RE t th pdps w = (th', pdps', w', evs) -> gets th' Q) -> gets th Q.
Proof.
  intros th Q H n P Hn. destruct (turn n P th Hn) as (m & pdps & w & th' & q & w' & evs & T & K).
  destruct (H _ _ _ _ _ _ T (n + m) _ K) as (m2 & th2 & K2 & HQ). exists (m + m2), th2.
  rewrite seq_app, map_app, prun_app. auto.
Qed.
Lemma gets_now : forall th (Q : thread -> Prop), Q th -> gets th Q.
Proof. intros th Q H n P Hn. exists 0, th. auto. Qed.

Lemma idle_ends : forall todo, gets (mkThread todo Idle) (eq (mkThread [] Idle)).
Proof.
  induction todo as [|k todo IH]; [apply gets_now; reflexivity|].
  assert (R : forall a, gets (mkThread todo (Returning k a)) (eq (mkThread [] Idle))).
  { intros a. apply gets_step. intros pdps w th' q w' evs T. injection T as <- _ _ _. exact IH. }
  assert (X : forall x, gets (mkThread todo (Evaluating k x)) (eq (mkThread [] Idle))).
  { induction x as [r|p kk IHx|p c kk IHx|rq d kk IHx]; apply gets_step;
      intros pdps w th' q w' evs T; cbn [tstep th_doing th_todo step_t fst snd] in T;
      injection T as <- _ _ _; [exact IH|apply IHx|exact IHx|apply IHx]. }
  assert (L : forall i p, gets (mkThread todo (Loaded k i p)) (eq (mkThread [] Idle))).
  { intros i p. apply gets_step. intros pdps w th' q w' evs T. injection T as <- _ _ _. apply R. }
  apply gets_step. intros pdps w th' q w' evs T. cbn [tstep th_doing th_todo] in T. injection T as <- _ _ _.
  apply gets_step. clear pdps w q w' evs. intros pdps w th' q w' evs T. cbn [tstep th_doing th_todo] in T.
  injection T as <- _ _ _. assert (C := enter_current k pdps).
  destruct (fst (enter S limit RE k pdps)) as [|k'|k' x|k' i p|k' a] eqn:E; cbn [current] in C; try discriminate;
    injection C as ->; auto.
  exfalso. clear - E. destruct k as [i c|i|i x|i w s f fd]; cbn [enter] in E;
    destruct (nth_error pdps i) as [v|]; try discriminate.
  - destruct v; discriminate.
  - destruct (pdp_set v x); discriminate.
  - destruct (load limit RE w s f fd); discriminate.
Qed.

Lemma idle_stays : forall l P, nth_error (pr_threads P) t = Some (mkThread [] Idle) ->
  nth_error (pr_threads (prun S limit RE l P)) t = Some (mkThread [] Idle).
Proof.
  induction l as [|u l IH]; intros P H; [exact H|]. cbn [prun]. apply IH.
  destruct (nth_error (pr_threads P) u) as [thu|] eqn:E; [|rewrite (pstep_none _ _ _ _ _ E); exact H].
  destruct (tstep S limit RE u thu (pr_pdps P) (pr_shared P)) as [[[th' q] w'] evs] eqn:T.
  rewrite (pstep_tstep S limit RE _ _ _ E _ _ _ _ T). cbn [pr_threads].
  destruct (Nat.eq_dec u t) as [e|N]; [|rewrite rep_other by exact N; exact H].
  subst u. rewrite H in E. injection E as <-. cbn in T. injection T as <- _ _ _.
  eapply rep_same; eassumption.
Qed.
End Ends.

Lemma all_end : forall calls pdps sched t ks, nth_error calls t = Some ks -> recurring sched t ->
  exists n, forall m, map fst (answered t (pr_trace (prun S limit RE (first_steps sched (n + m)) (begin calls pdps)))) = ks.
Proof.
  intros calls pdps sched t ks Hk Hr.
  assert (H0 : nth_error (pr_threads (begin calls pdps)) t = Some (mkThread ks Idle))
    by (cbn [begin pr_threads]; rewrite nth_error_map, Hk; reflexivity).
  destruct (idle_ends sched t Hr ks 0 _ H0) as (n & th & Hn & <-). exists n. intros m.
  unfold first_steps. rewrite seq_app, map_app.
  assert (K := idle_stays t (map sched (seq (0 + n) m)) _ Hn). rewrite <- prun_app in K.
  destruct (order_run _ _ _ _ _ K) as (ks' & Hk' & H1 & H2). rewrite Hk in Hk'. injection Hk' as <-.
  cbn [current th_doing th_todo] in H1, H2. rewrite app_nil_r in H1, H2. congruence.
Qed.

(** ** Answers *)
Definition fine_answer (k : call) (a : answer) : Prop :=
  match k, a with
  | CEvaluate _ _, ADecision r =>
      decision_or_escape S r \/ r = Raise EAttributeError \/ r = Raise ENameError
  | CGetPolicy _, AGot r => (exists v, r = Ok v) \/ r = Raise ENameError
  | CSetPolicy _ x, AUnit r =>
      r = Raise ENameError \/
      match x with APolicy _ => r = Ok tt | ANotPolicy _ => r = Raise ETypeError end
  | CSetFromSource _ w s f fd, AUnit r =>
      r = Raise ENameError \/ (r = Ok tt /\ exists p, load limit RE w s f fd = Ok p) \/
      (exists e, load limit RE w s f fd = Raise e /\ r = Raise e)
  | _, _ => False
  end.
Definition fine (a : activity) : Prop :=
  match a with
  | Evaluating k x => (exists i c, k = CEvaluate i c) /\ keeps S (fun _ => True) (decision_or_escape S) x
  | Loaded k i p => exists w s f fd, k = CSetFromSource i w s f fd /\ load limit RE w s f fd = Ok p
  | Returning k a => fine_answer k a
  | _ => True
  end.

Lemma enter_fine : forall k pdps, fine (fst (enter S limit RE k pdps)).
Proof.
  intros k pdps. destruct k as [i c|i|i x|i w s f fd]; cbn [enter];
    destruct (nth_error pdps i) as [v|]; cbn; auto.
  - destruct v as [p|]; cbn; auto. split; [eauto|].
    eapply keeps_weaken; [| |apply outcome_policy]; auto.
  - eauto.
  - destruct x; cbn; auto.
  - destruct (load limit RE w s f fd) as [p|e] eqn:E; cbn; [exists w, s, f, fd; auto|].
    right. right. rewrite E. eauto.
Qed.

Lemma fine_run : forall sched P, cache_ok (sn_fenv S) (sh_cache (pr_shared P)) ->
  (forall t th, nth_error (pr_threads P) t = Some th -> fine (th_doing th)) ->
  (forall t k a, In (Returned t k a) (pr_trace P) -> fine_answer k a) ->
  forall t k a, In (Returned t k a) (pr_trace (prun S limit RE sched P)) -> fine_answer k a.
Proof.
  induction sched as [|u sched IH]; intros P Hw Ht He; [exact He|]. cbn [prun].
  destruct (nth_error (pr_threads P) u) as [[todo doing]|] eqn:E.
  2:{ rewrite (pstep_none _ _ _ _ _ E). apply IH; assumption. }
  destruct (tstep S limit RE u (mkThread todo doing) (pr_pdps P) (pr_shared P)) as [[[th' q] w'] evs] eqn:T.
  rewrite (pstep_tstep S limit RE _ _ _ E _ _ _ _ T). assert (F := Ht _ _ E). cbn [th_doing] in F.
  assert (G : cache_ok (sn_fenv S) (sh_cache w') /\ fine (th_doing th') /\
              forall t k a, In (Returned t k a) evs -> fine_answer k a).
  { unfold tstep in T. cbn [th_doing th_todo] in T. destruct doing as [|k|k x|k i p|k a].
    - destruct todo; injection T as <- <- <- <-; (split; [exact Hw|]); (split; [exact I|]);
        intros t k a Hi; [destruct Hi|destruct Hi as [Hi|[]]; discriminate].
    - injection T as <- <- <- <-. split; [exact Hw|]. split; [apply enter_fine|]. intros t k' a [].
    - cbn [fine] in F. destruct F as [(i & c & ->) F].
      assert (D : (exists r', x = Done r') \/ (forall r', x <> Done r'))
        by (destruct x; [left; eauto|right; discriminate|right; discriminate|right; discriminate]).
      destruct D as [[r ->]|D].
      + injection T as <- <- <- <-. split; [exact Hw|]. split; [exact I|]. intros t k a [Hi|[]].
        injection Hi as <- <- <-. inversion F; subst. cbn. auto.
      + assert (T' : (mkThread todo (Evaluating (CEvaluate i c) (fst (step_t S x (pr_shared P)))), pr_pdps P,
                      snd (step_t S x (pr_shared P)), @nil event) = (th', q, w', evs))
          by (destruct x; [exfalso; eapply D; reflexivity|exact T|exact T|exact T]).
        injection T' as <- <- <- <-. destruct (step_keeps S _ _ x _ F Hw) as (H1 & H2 & _).
        split; [exact H2|]. split; [cbn; eauto|]. intros t k a [].
    - injection T as <- <- <- <-. split; [exact Hw|]. split.
      + cbn in F |- *. destruct F as (ws & s & f & fd & -> & L). right. left. eauto.
      + intros t k' a [].
    - injection T as <- <- <- <-. split; [exact Hw|]. split; [exact I|]. intros t k' a' [Hi|[]].
      injection Hi as <- <- <-. exact F. }
  destruct G as (G1 & G2 & G3). apply IH; cbn [pr_threads pr_shared pr_trace].
  - exact G1.
  - intros t th Hn. destruct (Nat.eq_dec u t) as [e|N].
    + subst u. rewrite (rep_same _ _ _ _ _ E) in Hn. injection Hn as <-. exact G2.
    + rewrite rep_other in Hn by exact N. exact (Ht _ _ Hn).
  - intros t k a Hi. apply in_app_or in Hi. destruct Hi as [Hi|Hi]; [exact (He _ _ _ Hi)|exact (G3 _ _ _ Hi)].
Qed.

Lemma answers_fine : forall calls pdps sched t k a,
  In (Returned t k a) (pr_trace (prun S limit RE sched (begin calls pdps))) -> fine_answer k a.
Proof.
  intros calls pdps sched. apply fine_run; cbn [begin pr_shared pr_threads pr_trace sh_cache].
  - apply cache_ok_nil.
  - intros t th H. rewrite nth_error_map in H. destruct (nth_error calls t); [|discriminate].
    injection H as <-. exact I.
  - intros t k a [].
Qed.
End Order.
