(** The steps of a run with shared PDPs. *)
From Coq Require Import Lia.
From Verif Require Import EvalThreads Sources PdpThreads SpecState SpecThreads SpecPdpThreads
  StateFacts ThreadFacts SourcesFacts2 PdpThreadsFacts.

Lemma firstn_next : forall A (l : list A) n x, nth_error l n = Some x ->
  firstn (n + 1) l = (firstn n l ++ [x])%list.
Proof.
  induction l as [|y l IH]; intros [|n] x H; cbn in *; try discriminate; [congruence|].
  rewrite (IH n x H). reflexivity.
Qed.
Lemma firstn_past : forall A (l : list A) n, nth_error l n = None -> firstn (n + 1) l = firstn n l.
Proof.
  intros A l n H. apply nth_error_None in H. rewrite !firstn_all2 by lia. reflexivity.
Qed.

Section Run.
Variable S : senv.
Variable limit : nat.
Variable RE : renv.
Variable calls : list (list call).
Variable pdps0 : list (option policybase).
Variable sched : list nat.
Local Notation P0 := (begin calls pdps0).
Local Notation at_ := (after S limit RE P0 sched).
Local Notation N := (length pdps0).

Lemma after_next : forall n t, nth_error sched n = Some t -> at_ (n + 1) = pstep S limit RE t (at_ n).
Proof.
  intros n t H. unfold after. rewrite (firstn_next _ _ _ _ H), prun_app. reflexivity.
Qed.
Lemma after_past : forall n, nth_error sched n = None -> at_ (n + 1) = at_ n.
Proof. intros n H. unfold after. rewrite (firstn_past _ _ _ H). reflexivity. Qed.

(** A step in which something happens is a step of a thread. *)
Lemma step_of : forall n, at_ (n + 1) = at_ n \/
  exists t th th' pdps' w' evs, nth_error sched n = Some t /\
    nth_error (pr_threads (at_ n)) t = Some th /\
    tstep S limit RE t th (pr_pdps (at_ n)) (pr_shared (at_ n)) = (th', pdps', w', evs) /\
    at_ (n + 1) = mkProcess (replace_nth t th' (pr_threads (at_ n))) pdps' w'
                    (pr_trace (at_ n) ++ evs)%list.
Proof.
  intros n. destruct (nth_error sched n) as [t|] eqn:E; [|left; apply after_past, E].
  rewrite (after_next _ _ E). destruct (nth_error (pr_threads (at_ n)) t) as [th|] eqn:T.
  2:{ left. apply pstep_none, T. }
  right. destruct (tstep S limit RE t th (pr_pdps (at_ n)) (pr_shared (at_ n))) as [[[th' q] w'] evs] eqn:H.
  exists t, th, th', q, w', evs. repeat (split; [assumption || reflexivity|]).
  eapply pstep_tstep; eassumption.
Qed.

Section Independent.
Hypothesis Hind : history_independent S.

Lemma sound : forall n, length (pr_pdps (at_ n)) = N /\
  cache_ok (sn_fenv S) (sh_cache (pr_shared (at_ n))).
Proof.
  intros n. destruct (linear_run S limit RE Hind pdps0 (firstn n sched) _ _
    (linear_begin S limit RE pdps0 calls)) as (ms & _ & _ & H3 & H4 & _). split; assumption.
Qed.

Definition tphase (n t : nat) (ph : phase) : Prop :=
  exists th, nth_error (pr_threads (at_ n)) t = Some th /\ phase_ok S limit RE N (th_doing th) ph.

Inductive moves (t : nat) (pdps : list (option policybase))
  : phase -> phase -> list event -> list (option policybase) -> Prop :=
| M_stay : forall ph, moves t pdps ph ph [] pdps
| M_call : forall k, moves t pdps Outside (Before k) [Called t k] pdps
| M_moment : forall k a pdps', at_once S limit RE pdps k a pdps' ->
    moves t pdps (Before k) (After k a) [] pdps'
| M_return : forall k a, moves t pdps (After k a) Outside [Returned t k a] pdps.

Lemma phase_moves : forall t th pdps w th' pdps' w' evs ph,
  tstep S limit RE t th pdps w = (th', pdps', w', evs) -> length pdps = N ->
  cache_ok (sn_fenv S) (sh_cache w) -> phase_ok S limit RE N (th_doing th) ph ->
  exists ph', phase_ok S limit RE N (th_doing th') ph' /\ moves t pdps ph ph' evs pdps'.
Proof.
  intros t th pdps w th' pdps' w' evs ph H1 H2 H3 H4.
  destruct (step_marks S limit RE Hind _ _ _ _ _ _ _ _ _ _ H1 H2 H3 H4)
    as (new & ph' & K1 & K2 & K3 & K4 & K5 & K6 & K7 & K8).
  exists ph'. split; [exact K4|]. destruct new as [|m [|m2 new]]; [| |cbn in K8; lia].
  - cbn in K1. subst evs. inversion K5; subst. inversion K2; subst. apply M_stay.
  - assert (Hm : thread_of m <> t -> False) by (inversion K6; auto).
    inversion K5 as [|? ? ? ? Hn Ho|? ? ? Ho|? ? ? ? Ho|? ? ? ? Ho]; subst; [contradiction| | |];
      inversion Ho; subst; inversion K2 as [|? ? ? ? Hl|? ? ? ? ? ? ? Ha Hl]; subst;
      inversion Hl; subst.
    + apply M_call.
    + apply M_moment. assumption.
    + apply M_return.
Qed.

(** What happens to thread [t] and to the PDPs in step [n]. *)
Lemma next_phase : forall n t ph, tphase n t ph -> exists ph', tphase (n + 1) t ph' /\
  ((nth_error sched n = Some t /\ exists evs,
    moves t (pr_pdps (at_ n)) ph ph' evs (pr_pdps (at_ (n + 1))) /\
    pr_trace (at_ (n + 1)) = (pr_trace (at_ n) ++ evs)%list) \/
   (nth_error sched n <> Some t /\ ph' = ph)).
Proof.
  intros n t ph (th & Hn & Hph). destruct (sound n) as [HL Hw].
  destruct (nth_error sched n) as [u|] eqn:E.
  2:{ exists ph. rewrite (after_past _ E). unfold tphase. rewrite (after_past _ E).
      split; [eauto|]. right. split; [discriminate|reflexivity]. }
  destruct (Nat.eq_dec u t) as [e|Hne].
  - subst u.
    destruct (tstep S limit RE t th (pr_pdps (at_ n)) (pr_shared (at_ n))) as [[[th' q] w'] evs] eqn:T.
    destruct (phase_moves _ _ _ _ _ _ _ _ _ T HL Hw Hph) as (ph' & A & B). exists ph'.
    assert (X := pstep_tstep S limit RE _ _ _ Hn _ _ _ _ T). unfold tphase.
    rewrite (after_next _ _ E), X. cbn [pr_threads pr_pdps pr_trace]. split.
    + exists th'. split; [eapply rep_same; eassumption|exact A].
    + left. split; [reflexivity|]. exists evs. auto.
  - exists ph. split; [|right; split; [congruence|reflexivity]].
    unfold tphase. rewrite (after_next _ _ E).
    destruct (nth_error (pr_threads (at_ n)) u) as [thu|] eqn:Eu.
    2:{ rewrite (pstep_none _ _ _ _ _ Eu). eauto. }
    destruct (tstep S limit RE u thu (pr_pdps (at_ n)) (pr_shared (at_ n))) as [[[th' q] w'] evs] eqn:T.
    rewrite (pstep_tstep S limit RE _ _ _ Eu _ _ _ _ T). cbn [pr_threads].
    rewrite rep_other by exact Hne. eauto.
Qed.

Lemma threads_length : forall n, length (pr_threads (at_ n)) = length calls.
Proof.
  intros n. unfold after. rewrite <- (map_length (fun ks => mkThread ks Idle) calls).
  change (map _ calls) with (pr_threads P0). generalize P0 (firstn n sched). clear.
  intros P l. revert P. induction l as [|t l IH]; intros P; [reflexivity|]. cbn [prun]. rewrite IH.
  destruct (nth_error (pr_threads P) t) as [th|] eqn:E; [|rewrite (pstep_none _ _ _ _ _ E); reflexivity].
  destruct (tstep S limit RE t th (pr_pdps P) (pr_shared P)) as [[[th' q] w'] evs] eqn:T.
  rewrite (pstep_tstep S limit RE _ _ _ E _ _ _ _ T). cbn [pr_threads]. apply rep_length.
Qed.

Lemma nil_one : forall A (l : list A) x, l <> (l ++ [x])%list.
Proof. intros A l x H. apply (f_equal (@length A)) in H. rewrite app_length in H. cbn in H. lia. Qed.

(** Every thread is in some phase, and a call in progress was made in some step. *)
Lemma opened : forall n t, t < length calls -> exists ph, tphase n t ph /\
  match ph with
  | Outside => True
  | Before k | After k _ => exists b, open_since S limit RE P0 sched b t k n
  end.
Proof.
  induction n as [|n IH]; intros t Ht.
  - exists Outside. split; [|exact I]. unfold tphase, after. cbn [firstn prun pr_threads begin].
    rewrite nth_error_map. destruct (nth_error calls t) as [ks|] eqn:E; [|apply nth_error_None in E; lia].
    exists (mkThread ks Idle). cbn. auto.
  - destruct (IH t Ht) as (ph & Hph & Hb). destruct (next_phase _ _ _ Hph) as (ph' & A & B).
    replace (Datatypes.S n) with (n + 1) by lia. exists ph'. split; [exact A|].
    assert (keep : forall k b, open_since S limit RE P0 sched b t k n ->
              (forall k' a, ~ returns_at S limit RE P0 sched n t k' a) ->
              open_since S limit RE P0 sched b t k (n + 1)).
    { intros k b (H1 & H2 & H3) Hr. split; [lia|]. split; [exact H2|]. intros m k' a Hm.
      destruct (Nat.eq_dec m n) as [->|Hne]; [apply Hr|apply H3; lia]. }
    destruct B as [(Es & evs & Hm & Htr)|(Hne & ->)].
    + assert (Hr : evs = [] -> forall k' a, ~ returns_at S limit RE P0 sched n t k' a).
      { intros -> k' a Hr. unfold returns_at in Hr. rewrite Htr, app_nil_r in Hr.
        exact (nil_one _ _ _ Hr). }
      destruct Hm; [| | |exact I].
      * destruct ph as [|k|k a]; [exact I| |]; destruct Hb as [b Hb]; exists b; apply keep; auto.
      * exists n. split; [lia|]. split; [exact Htr|]. intros m k' a Hm. lia.
      * destruct Hb as [b Hb]. exists b. apply keep; auto.
    + assert (Hr : forall k' a, ~ returns_at S limit RE P0 sched n t k' a).
      { intros k' a Hr. unfold returns_at in Hr. destruct (step_of n) as [e|(u & th & th' & q & w' & evs & Es & Eu & T & e)].
        - rewrite e in Hr. exact (nil_one _ _ _ Hr).
        - rewrite e in Hr. cbn [pr_trace] in Hr. apply app_inv_head in Hr. subst evs.
          assert (u < length calls) by (rewrite <- (threads_length n); apply nth_error_Some; congruence).
          destruct (IH u H) as (phu & (th0 & K1 & K2) & _). rewrite K1 in Eu. injection Eu as ->.
          destruct (sound n) as [HL Hw].
          destruct (phase_moves _ _ _ _ _ _ _ _ _ T HL Hw K2) as (ph' & _ & Hm).
          inversion Hm; subst. congruence. }
      destruct ph as [|k|k a]; [exact I| |]; destruct Hb as [b Hb]; exists b; apply keep; auto.
Qed.

(** Whose event a step has *)
Lemma event_step : forall n e, pr_trace (at_ (n + 1)) = (pr_trace (at_ n) ++ [e])%list ->
  exists t ph ph', nth_error sched n = Some t /\ tphase n t ph /\ tphase (n + 1) t ph' /\
    moves t (pr_pdps (at_ n)) ph ph' [e] (pr_pdps (at_ (n + 1))).
Proof.
  intros n e H. destruct (step_of n) as [e'|(u & th & th' & q & w' & evs & Es & Eu & T & e')].
  { rewrite e' in H. exfalso. exact (nil_one _ _ _ H). }
  rewrite e' in H. cbn [pr_trace] in H. apply app_inv_head in H. subst evs.
  assert (u < length calls) by (rewrite <- (threads_length n); apply nth_error_Some; congruence).
  destruct (opened n u H) as (phu & Hph & _). destruct (next_phase _ _ _ Hph) as (ph' & A & B).
  exists u, phu, ph'. split; [exact Es|]. split; [exact Hph|]. split; [exact A|].
  destruct B as [(_ & evs & Hm & Htr)|(Hn & _)]; [|congruence].
  rewrite e' in Htr at 1. cbn [pr_trace] in Htr. apply app_inv_head in Htr. subst evs. exact Hm.
Qed.

Lemma called_phase : forall n t k, calls_at S limit RE P0 sched n t k ->
  nth_error sched n = Some t /\ tphase (n + 1) t (Before k).
Proof.
  intros n t k H. destruct (event_step _ _ H) as (u & ph & ph' & H1 & _ & H2 & Hm).
  inversion Hm; subst. auto.
Qed.

(** From the call on: before the moment, or after it. *)
Lemma after_call : forall b t k, calls_at S limit RE P0 sched b t k -> forall d,
  (forall m k' a, b < m < b + 1 + d -> ~ returns_at S limit RE P0 sched m t k' a) ->
  exists ph, tphase (b + 1 + d) t ph /\
   ((ph = Before k /\
     forall m, b < m < b + 1 + d -> nth_error sched m = Some t -> pr_pdps (at_ (m + 1)) = pr_pdps (at_ m)) \/
    exists a m, ph = After k a /\ b < m < b + 1 + d /\ nth_error sched m = Some t /\
      at_once S limit RE (pr_pdps (at_ m)) k a (pr_pdps (at_ (m + 1))) /\
      forall m', b < m' < b + 1 + d -> m' <> m -> nth_error sched m' = Some t ->
        pr_pdps (at_ (m' + 1)) = pr_pdps (at_ m')).
Proof.
  intros b t k Hb. destruct (called_phase _ _ _ Hb) as [Hs H0]. induction d as [|d IH]; intros Hr.
  - exists (Before k). rewrite Nat.add_0_r. split; [exact H0|]. left. split; [reflexivity|]. intros m Hm. lia.
  - destruct IH as (ph & Hph & Hc); [intros m k' a Hm; apply Hr; lia|].
    destruct (next_phase _ _ _ Hph) as (ph' & A & B).
    replace (b + 1 + Datatypes.S d) with (b + 1 + d + 1) by lia. exists ph'. split; [exact A|].
    remember (b + 1 + d) as n eqn:Hn.
    destruct B as [(Es & evs & Hm & Htr)|(Hne & ->)].
    + remember (pr_pdps (at_ (n + 1))) as q' eqn:Hq'. destruct Hm as [ph|k1|k1 a1 q Ho|k1 a1].
      * destruct Hc as [(-> & Hq)|(a & m & -> & H1 & H2 & H3 & H4)].
        { left. split; [reflexivity|]. intros m Hm Hms. destruct (Nat.eq_dec m n) as [e|Hd]; [congruence|].
          apply Hq; [lia|exact Hms]. }
        right. exists a, m. split; [reflexivity|]. split; [lia|]. split; [exact H2|]. split; [exact H3|].
        intros m' Hm' Hd Hms. destruct (Nat.eq_dec m' n) as [e|Hd']; [congruence|].
        apply H4; [lia|exact Hd|exact Hms].
      * destruct Hc as [(K & _)|(a & m & K & _)]; discriminate.
      * destruct Hc as [(K & Hq)|(a & m & K & _)]; [|discriminate]. injection K as ->.
        right. exists a1, n. split; [reflexivity|]. split; [lia|]. split; [exact Es|]. split; [rewrite <- Hq'; exact Ho|].
        intros m' Hm' Hd Hms. apply Hq; [lia|exact Hms].
      * exfalso. apply (Hr n k1 a1); [lia|exact Htr].
    + destruct Hc as [(-> & Hq)|(a & m & -> & H1 & H2 & H3 & H4)].
      * left. split; [reflexivity|]. intros m Hm Hms. destruct (Nat.eq_dec m n) as [e|Hd]; [congruence|].
        apply Hq; [lia|exact Hms].
      * right. exists a, m. split; [reflexivity|]. split; [lia|]. split; [exact H2|]. split; [exact H3|].
        intros m' Hm' Hd Hms. destruct (Nat.eq_dec m' n) as [e|Hd']; [congruence|].
        apply H4; [lia|exact Hd|exact Hms].
Qed.

Lemma moment : forall t k a b e, spans S limit RE P0 sched t k a b e ->
  exists m, b < m < e /\ nth_error sched m = Some t /\
    at_once S limit RE (pr_pdps (at_ m)) k a (pr_pdps (at_ (m + 1))) /\
    forall m', b <= m' <= e -> m' <> m -> nth_error sched m' = Some t ->
      pr_pdps (at_ (m' + 1)) = pr_pdps (at_ m').
Proof.
  intros t k a b e ((Hlt & Hb & Hr) & He).
  destruct (after_call _ _ _ Hb (e - (b + 1))) as (ph & Hph & Hc).
  { intros m k' a' Hm. apply Hr. lia. }
  replace (b + 1 + (e - (b + 1))) with e in * by lia.
  destruct (event_step _ _ Hb) as (tb & pb & pb' & Sb & _ & _ & Mb). inversion Mb; subst.
  destruct (next_phase _ _ _ Hph) as (ph' & _ & B).
  destruct (event_step _ _ He) as (te & pe & pe' & Se & _ & _ & Me). inversion Me; subst.
  destruct B as [(_ & evs & Hm & Htr)|(K & _)]; [|congruence].
  unfold returns_at in He. rewrite He in Htr. apply app_inv_head in Htr. subst evs.
  inversion Hm; subst. destruct Hc as [(K & _)|(a' & m & K & J1 & J2 & J3 & J4)]; [discriminate|].
  injection K as <-. exists m. split; [exact J1|]. split; [exact J2|]. split; [exact J3|].
  intros m' Hm' Hd Hms. destruct (Nat.eq_dec m' e) as [->|Ne]; [congruence|].
  destruct (Nat.eq_dec m' b) as [->|Nb]; [congruence|]. apply J4; [lia|exact Hd|exact Hms].
Qed.

Lemma at_once_change : forall pdps k a pdps' i, at_once S limit RE pdps k a pdps' ->
  nth_error pdps' i = nth_error pdps i \/
  exists p, nth_error pdps' i = Some (Some p) /\
    (k = CSetPolicy i (APolicy p) \/
     exists w s f fd, k = CSetFromSource i w s f fd /\ source_gives limit RE w s f fd (Ok p)).
Proof.
  intros pdps k a pdps' i H.
  destruct H as [| | |j p q U| |j w s f fd p q G U| | | | |]; try (left; reflexivity);
    destruct (updated_nth _ _ _ _ _ U) as (H1 & H2 & _);
    (destruct (Nat.eq_dec i j) as [->|Hd]; [right|left; exact (H2 _ Hd)]);
    exists p; (split; [exact H1|]); [left; reflexivity|right; eauto 8].
Qed.

Lemma change : forall n i, policy_at S limit RE P0 sched (n + 1) i = policy_at S limit RE P0 sched n i \/
  exists t b k p, nth_error sched n = Some t /\ open_since S limit RE P0 sched b t k n /\
    policy_at S limit RE P0 sched (n + 1) i = Some (Some p) /\
    (k = CSetPolicy i (APolicy p) \/
     exists w s f fd, k = CSetFromSource i w s f fd /\ source_gives limit RE w s f fd (Ok p)).
Proof.
  intros n i. unfold policy_at in *.
  destruct (step_of n) as [e|(t & th & th' & q & w' & evs & Es & Eu & T & e)].
  { left. rewrite e. reflexivity. }
  assert (t < length calls) by (rewrite <- (threads_length n); apply nth_error_Some; congruence).
  destruct (opened n t H) as (ph & Hph & Hb). destruct (next_phase _ _ _ Hph) as (ph' & A & B).
  destruct B as [(_ & evs' & Hm & _)|(K & _)]; [|congruence].
  remember (pr_pdps (at_ (n + 1))) as q' eqn:Hq. destruct Hm as [| |k a q1 Ho|]; try (left; reflexivity).
  destruct Hb as [b Hb]. destruct (at_once_change _ _ _ _ i Ho) as [Hs|(p & H1 & H2)]; [left; exact Hs|right].
  exists t, b, k, p. auto.
Qed.

(** A policy that no call in progress can change stays. *)
Lemma unchanged : forall i m n, m <= n ->
  (forall r, m <= r < n -> policy_at S limit RE P0 sched (r + 1) i = policy_at S limit RE P0 sched r i) ->
  policy_at S limit RE P0 sched n i = policy_at S limit RE P0 sched m i.
Proof.
  intros i m n Hle. induction Hle as [|n Hle IH]; intros H; [reflexivity|].
  replace (Datatypes.S n) with (n + 1) by lia. rewrite H by lia. apply IH. intros r Hr. apply H. lia.
Qed.

Lemma gives_same : forall w s f fd r r', source_gives limit RE w s f fd r ->
  source_gives limit RE w s f fd r' -> r = r'.
Proof. intros w s f fd r r' [st H] [st' H']. congruence. Qed.

Lemma set_seen : forall i p t1 k1 a1 b1 e1 t2 c a2 b2 e2,
  i < length pdps0 ->
  (k1 = CSetPolicy i (APolicy p) \/
   exists w s f fd, k1 = CSetFromSource i w s f fd /\ source_gives limit RE w s f fd (Ok p)) ->
  spans S limit RE P0 sched t1 k1 a1 b1 e1 -> spans S limit RE P0 sched t2 (CEvaluate i c) a2 b2 e2 ->
  e1 <= b2 ->
  (forall n t k b, b1 <= n < e2 -> open_since S limit RE P0 sched b t k n -> changes i k ->
     t = t1 /\ b = b1) ->
  a1 = AUnit (Ok tt) /\ a2 = ADecision (policy_eval (env_of S []) c p).
Proof.
  intros i p t1 k1 a1 b1 e1 t2 c a2 b2 e2 Hi Hk H1 H2 Hle Hno.
  destruct (moment _ _ _ _ _ H1) as (m1 & L1 & S1 & O1 & Q1).
  destruct (moment _ _ _ _ _ H2) as (m2 & L2 & S2 & O2 & Q2).
  assert (HN : length (pr_pdps (at_ m1)) = length pdps0) by apply sound.
  assert (A : a1 = AUnit (Ok tt) /\ nth_error (pr_pdps (at_ (m1 + 1))) i = Some (Some p)).
  { destruct Hk as [->|(w & s & f & fd & -> & G)]; inversion O1; subst; try lia.
    - split; [reflexivity|]. eapply updated_nth; eassumption.
    - split; [reflexivity|]. assert (K : Ok p = Ok p0) by (eapply gives_same; eassumption).
      injection K as ->. eapply updated_nth; eassumption.
    - assert (K : Ok p = Raise e) by (eapply gives_same; eassumption). discriminate. }
  destruct A as [-> A]. split; [reflexivity|].
  assert (B : policy_at S limit RE P0 sched m2 i = policy_at S limit RE P0 sched (m1 + 1) i).
  { apply unchanged; [lia|]. intros r Hr.
    destruct (change r i) as [D|(t & b & k & p' & C1 & C2 & C3 & C4)]; [exact D|].
    destruct (Hno r t k b) as [-> ->]; [lia|exact C2| |].
    - destruct C4 as [->|(w & s & f & fd & -> & _)]; reflexivity.
    - destruct (Nat.lt_ge_cases e1 r) as [L|L].
      + exfalso. destruct C2 as (_ & _ & C2). destruct H1 as [_ H1]. exact (C2 e1 _ _ (conj (Nat.lt_trans _ _ _ (proj1 L1) (proj2 L1)) L) H1).
      + unfold policy_at. rewrite Q1; [reflexivity|lia|lia|exact C1]. }
  unfold policy_at in B. rewrite A in B. inversion O2; subst; try congruence.
  assert (X : length (pr_pdps (at_ m2)) = length pdps0) by apply sound. lia.
Qed.
End Independent.
End Run.
