(** Lemmas about PDPs in use while objects are changed. *)
From Verif Require Import SpecPdpLive ObjectsFacts ObjectsFacts3 ReadObjectsFacts5 EvalObjectsFacts EvalLiveFacts
  EvalLiveFacts2.
From Coq Require Import Lia Relations.
Local Open Scope string_scope.
Local Open Scope list_scope.

Section Facts.
Variable O : oenv.
Variable n : nat.
Variable cm : list (string * avclass).
Notation after := (after O n cm).
Notation objects := (objects O n cm).
Notation made := SpecPdpLive.made.
Notation answered := (answered O n cm).
Notation pending := (pending O n cm).
Notation in_force := (in_force O n cm).
Notation in_use := (in_use O n cm).
Notation allowed := (allowed O n cm).
Notation orderly := (orderly O n cm).
Notation steady := (steady O n cm).

Lemma after_snoc : forall evs ev, after (evs ++ [ev]) = happens O n cm (after evs) ev.
Proof. intros. unfold PdpLive.after. rewrite fold_left_app. reflexivity. Qed.

Lemma calls_app : forall a b, calls_in (a ++ b) = calls_in a ++ calls_in b.
Proof. induction a as [|[] a IH]; intro b; cbn; rewrite ?IH; reflexivity. Qed.

Lemma replace_length : forall A (x : A) k l, length (replace_nth k x l) = length l.
Proof. induction k as [|k IH]; intros [|y l]; cbn; auto. Qed.
Lemma replace_same : forall A (x y : A) k l, nth_error l k = Some y -> nth_error (replace_nth k x l) k = Some x.
Proof. induction k as [|k IH]; intros [|z l] H; cbn in *; try discriminate; auto. Qed.

Lemma calls_length : forall evs, length (sv_calls (after evs)) = length (calls_in evs).
Proof.
  intro evs. induction evs as [|ev evs IH] using rev_ind; [reflexivity|].
  rewrite after_snoc, calls_app, app_length, <- IH. destruct ev; cbn; try lia.
  - rewrite app_length. reflexivity.
  - destruct (nth_error (sv_calls (after evs)) k); cbn; [rewrite replace_length|]; lia.
Qed.

Lemma orderly_prefix : forall a b, orderly (a ++ b) -> orderly a.
Proof. intros a b H before ev later E. apply (H before ev (later ++ b)). rewrite E, <- app_assoc. reflexivity. Qed.
Lemma orderly_last : forall a ev, orderly (a ++ [ev]) -> allowed a ev.
Proof. intros a ev H. apply (H a ev []). reflexivity. Qed.

Lemma orderly_grown : forall evs, orderly evs -> grown cm (sv_state (after evs)).
Proof.
  intro evs. induction evs as [|ev evs IH] using rev_ind; intro H; [constructor|].
  pose proof (IH (orderly_prefix _ _ H)) as G. pose proof (orderly_last _ _ H) as A. rewrite after_snoc.
  destruct ev as [pdp c|k|o|E fetch fd limit d|ops|]; cbn in *.
  - exact G.
  - destruct (nth_error (sv_calls (after evs)) k); exact G.
  - apply grown_operation; [exact G | apply A].
  - apply grown_read; [exact G | apply A].
  - apply grown_functions; exact G.
  - apply grown_finder; exact G.
Qed.
Lemma orderly_well_formed : forall evs, orderly evs -> well_formed (objects evs).
Proof. intros evs H. eapply grown_well_formed, orderly_grown, H. Qed.

Lemma ostep_length : forall s o, length (os_heap s) <= length (os_heap (snd (ostep cm s o))).
Proof.
  intros [h m] o. destruct o as [c|v|e|t items|a name v|a lo|a i v|a i]; cbn -[Nat.ltb skipn].
  - unfold construct. destruct (init_from _ _). rewrite app_length. lia.
  - rewrite app_length. lia.
  - destruct (effect_new (as_pyobj h e)); cbn; rewrite ?app_length; lia.
  - rewrite app_length. lia.
  - destruct (nth_error h a) as [[c attrs|t items|y|e]|]; cbn; try lia.
    + destruct (setter_type c name) as [t|]; cbn; [|lia]. destruct (isinstance h v t); cbn; [|lia].
      destruct (assign cm c name v attrs m) as [[r attrs'] m']. cbn. rewrite replace_length. lia.
    + destruct (String.eqb name "value"); [|destruct (String.eqb name "dataType"); cbn; [|lia]].
      * destruct (av_set_value y (as_native v)); cbn; rewrite replace_length; lia.
      * destruct (as_native v); cbn; rewrite replace_length; lia.
    + destruct (String.eqb name "value"); cbn; [|lia].
      destruct (effect_set (Some e) (as_pyobj h v)) as [r [e'|]]; cbn; rewrite ?replace_length; lia.
  - destruct (nth_error h a) as [[c attrs|t items|y|e]|]; cbn; try lia.
    destruct (tl_step _ items lo) as [r items']. cbn. rewrite replace_length. lia.
  - destruct (nth_error h a) as [[c attrs|t items|y|e]|]; cbn; rewrite ?replace_length; lia.
  - destruct (nth_error h a) as [[c attrs|t items|y|e]|]; try (cbn; lia).
    destruct (Nat.ltb i (length items)); cbn [snd os_heap]; rewrite ?replace_length; lia.
Qed.

(** What is not touched stays. *)
Lemma objects_step : forall evs ev b x, allowed evs ev ->
  (forall o, ev = HDo o -> touches o <> Some b) ->
  nth_error (objects evs) b = Some x -> nth_error (objects (evs ++ [ev])) b = Some x.
Proof.
  intros evs ev b x A T N. unfold SpecPdpLive.objects. rewrite after_snoc.
  destruct ev as [pdp c|k|o|E fetch fd limit d|ops|]; cbn in *; try exact N.
  - destruct (nth_error (sv_calls (after evs)) k); exact N.
  - apply ostep_other; [apply T; reflexivity | exact N].
  - destruct A as (_ & SM & st & FF). destruct (doc_later E fetch fd limit d _ st SM FF) as (U & _). exact (U _ _ N).
Qed.
Lemma objects_kept : forall evs ev b, allowed evs ev -> nth_error (objects evs) b <> None ->
  nth_error (objects (evs ++ [ev])) b <> None.
Proof.
  intros evs ev b A N. destruct ev as [pdp c|k|o|E fetch fd limit d|ops|];
    try (destruct (nth_error (objects evs) b) as [x|] eqn:Nx; [|congruence];
         erewrite objects_step; [discriminate | exact A | discriminate | exact Nx]).
  unfold SpecPdpLive.objects in *. rewrite after_snoc. cbn.
  pose proof (ostep_length (ls_os (sv_state (after evs))) o) as M. apply nth_error_Some. apply nth_error_Some in N.
  unfold ls_heap in *. cbn. lia.
Qed.

(** ** Calls *)
Lemma made_app : forall a b k pdp c, made a k pdp c -> made (a ++ b) k pdp c.
Proof.
  intros a b k pdp c M. unfold SpecPdpLive.made in *. rewrite calls_app, nth_error_app1; [exact M|].
  apply nth_error_Some. congruence.
Qed.
Lemma made_before : forall a b k pdp c pdp' c', made a k pdp c -> made (a ++ b) k pdp' c' -> pdp' = pdp /\ c' = c.
Proof. intros a b k pdp c pdp' c' M M'. apply (made_app _ b) in M. unfold SpecPdpLive.made in *. rewrite M in M'. injection M' as -> ->. auto. Qed.

(** The step of a call *)
Lemma call_kept : forall evs ev k t, ev <> HStep k -> nth_error (sv_calls (after evs)) k = Some t ->
  nth_error (sv_calls (after (evs ++ [ev]))) k = Some t.
Proof.
  intros evs ev k t D N. rewrite after_snoc. destruct ev as [pdp c|j|o|E fetch fd limit d|ops|]; cbn; try exact N.
  - rewrite nth_error_app1; [exact N | apply nth_error_Some; congruence].
  - destruct (nth_error (sv_calls (after evs)) j) eqn:Nj; cbn; [|exact N].
    rewrite nth_replace_other; [exact N | congruence].
Qed.
Lemma call_stepped : forall evs k t, nth_error (sv_calls (after evs)) k = Some t ->
  nth_error (sv_calls (after (evs ++ [HStep k]))) k = Some (lstep O (objects evs) t).
Proof. intros evs k t N. rewrite after_snoc. cbn. rewrite N. cbn. eapply replace_same. exact N. Qed.
Lemma answered_later : forall a b k r, answered a k r -> answered (a ++ b) k r.
Proof.
  intros a b k r A. induction b as [|ev b IH] using rev_ind; [rewrite app_nil_r; exact A|].
  rewrite app_assoc. unfold SpecPdpLive.answered in *.
  assert (D : ev = HStep k \/ ev <> HStep k).
  { destruct ev; try (right; discriminate). destruct (PeanoNat.Nat.eq_dec k0 k) as [->|X]; [left; reflexivity | right; congruence]. }
  destruct D as [->|D]; [|apply call_kept; assumption]. apply call_stepped in IH. exact IH.
Qed.
Lemma pending_before : forall a b k pdp c, made a k pdp c -> pending (a ++ b) k pdp c -> pending a k pdp c.
Proof. intros a b k pdp c M (_ & P). split; [exact M|]. intros r A. exact (P r (answered_later _ _ _ _ A)). Qed.

(** What a call that has read its policy after [e1] looks at *)
Definition parts (e1 : list happening) (pdp c : pval) (b : nat) : Prop :=
  exists a, (c = PRef a \/ in_force e1 pdp a) /\ reaches (objects e1) a b.
Lemma parts_refers : forall e1 pdp c a b, parts e1 pdp c a -> refers (objects e1) a b -> parts e1 pdp c b.
Proof. intros e1 pdp c a b (x & X & R) F. exists x. split; [exact X|]. eapply rt_trans; [exact R | apply rt_step, F]. Qed.

Lemma ev_response : forall e1 pdp c p, (forall a, p = PRef a -> in_force e1 pdp a) ->
  ev O (objects e1) (parts e1 pdp c) (asked c) (l_response O n c p) (o_response O n (objects e1) c p).
Proof.
  intros e1 pdp c p F. unfold l_response, o_response. destruct p as [|a| | | | |]; try apply ev_done.
  destruct (result_create _ _) as [r|e]; [|apply ev_done].
  eapply ev_bind.
  - refine (ev_transfer O (objects e1) _ _ (objects e1) _ (keeps_self O (objects e1) _ _) _ _ _ _
      (ev_whole O (objects e1) n c (PRef a))).
    intros b (x & [X|X] & R); [injection X as <-; exists a; split; [right; apply F; reflexivity | exact R]
      | exists x; split; [left; exact X | exact R]].
  - destruct (o_policy_eval O (objects e1) n c (PRef a)) as [d|e]; [apply ev_done|]. destruct (is_context_error e); apply ev_done.
Qed.

(** The first step of a call: the policy is read. *)
Lemma ev_begun : forall e1 pdp c,
  ev O (objects e1) (parts e1 pdp c) (asked c) (lstep O (objects e1) (l_pdp_evaluate O n pdp c))
    (o_pdp_evaluate O n (objects e1) pdp c).
Proof.
  intros e1 pdp c. unfold l_pdp_evaluate, o_pdp_evaluate, lbind.
  destruct pdp as [|a| | | | |]; try apply ev_done.
  cbn [l_attr attr lstep]. unfold l_get. cbn [lstep]. rewrite get_just. eapply ev_bind; [apply ev_done|].
  destruct (get_attr (objects e1) a "policy") as [p|e] eqn:G; [|apply ev_done]. cbn [bind].
  apply ev_response. intros x ->. exists a. auto.
Qed.

Definition going (evs : list happening) (k : nat) (pdp c : pval) (t : LT response) : Prop :=
  t = l_pdp_evaluate O n pdp c \/
  exists e1 e2, evs = e1 ++ e2 /\ pending e1 k pdp c /\
    ev O (objects e1) (parts e1 pdp c) (asked c) t (o_pdp_evaluate O n (objects e1) pdp c) /\
    (pending evs k pdp c -> forall b, parts e1 pdp c b -> nth_error (objects evs) b = nth_error (objects e1) b).

Lemma request_exists_still : forall evs, orderly evs -> forall k pdp r, made evs k pdp (PRef r) -> nth_error (objects evs) r <> None.
Proof.
  intro evs. induction evs as [|ev evs IH] using rev_ind; intros H k pdp r M.
  - destruct k; discriminate M.
  - pose proof (orderly_prefix _ _ H) as H'. pose proof (orderly_last _ _ H) as A.
    unfold SpecPdpLive.made in M. rewrite calls_app in M.
    destruct (PeanoNat.Nat.lt_ge_cases k (length (calls_in evs))) as [L|L].
    + rewrite nth_error_app1 in M by exact L. apply objects_kept; [exact A | exact (IH H' _ _ _ M)].
    + rewrite nth_error_app2 in M by exact L. destruct ev as [pdp' c'|j|o|E fetch fd limit d|ops|]; cbn in M;
        try (destruct (k - length (calls_in evs)); discriminate M).
      destruct (k - length (calls_in evs)) as [|[]]; [|discriminate M|discriminate M]. injection M as -> ->.
      apply objects_kept; [exact A|]. exact (A r eq_refl).
Qed.

Lemma parts_exist : forall e1 k pdp c b, orderly e1 -> made e1 k pdp c -> parts e1 pdp c b ->
  nth_error (objects e1) b <> None.
Proof.
  intros e1 k pdp c b H M (a & X & R). pose proof (orderly_well_formed e1 H) as W.
  apply (reaches_object _ a b W); [|exact R]. destruct X as [->|(x & -> & G)].
  - exact (request_exists_still e1 H k pdp a M).
  - apply (refers_object _ x a W). exact (refers_attribute _ _ _ _ G).
Qed.

Lemma reaches_later : forall h h' a b, (forall x, reaches h a x -> nth_error h' x = nth_error h x) ->
  reaches h a b -> reaches h' a b.
Proof.
  intros h h' a b K R. apply Operators_Properties.clos_rt_rtn1 in R. induction R as [|y z F R IH]; [apply rt_refl|].
  eapply rt_trans; [exact IH|]. apply rt_step.
  assert (Q : nth_error h' y = nth_error h y) by (apply K, Operators_Properties.clos_rtn1_rt; exact R).
  destruct F as [y z name G|y z t items N I].
  - eapply refers_attribute. unfold get_attr in *. rewrite Q. exact G.
  - eapply refers_item; [rewrite Q; exact N | exact I].
Qed.

Lemma calls_going : forall evs, orderly evs -> forall k pdp c, made evs k pdp c -> steady evs k c ->
  exists t, nth_error (sv_calls (after evs)) k = Some t /\ going evs k pdp c t.
Proof.
  intro evs. induction evs as [|ev evs IH] using rev_ind; intros H k pdp c M ST.
  - destruct k; discriminate M.
  - pose proof (orderly_prefix _ _ H) as H'. pose proof (orderly_last _ _ H) as A.
    destruct (PeanoNat.Nat.lt_ge_cases k (length (calls_in evs))) as [L|L].
    + assert (M' : made evs k pdp c).
      { unfold SpecPdpLive.made in *. rewrite calls_app, nth_error_app1 in M by exact L. exact M. }
      assert (ST' : steady evs k c).
      { intros e1 e2 e3 pdp' E. apply (ST e1 e2 (e3 ++ [ev]) pdp'). rewrite E, <- !app_assoc. reflexivity. }
      destruct (IH H' k pdp c M' ST') as (t & N & G). clear IH.
      assert (Kept : forall e1 e2, evs = e1 ++ e2 -> pending e1 k pdp c -> orderly e1 ->
        (pending evs k pdp c -> forall b, parts e1 pdp c b -> nth_error (objects evs) b = nth_error (objects e1) b) ->
        pending (evs ++ [ev]) k pdp c -> forall b, parts e1 pdp c b ->
        nth_error (objects (evs ++ [ev])) b = nth_error (objects e1) b).
      { intros e1 e2 E P1 H1 K P b B. pose proof (pending_before evs [ev] k pdp c M' P) as P'. specialize (K P').
        rewrite <- (K b B). destruct (nth_error (objects evs) b) as [x|] eqn:Nb.
        2:{ exfalso. rewrite (K b B) in Nb. exact (parts_exist e1 k pdp c b H1 (proj1 P1) B Nb). }
        apply (objects_step evs ev b x A); [|exact Nb]. intros o -> T. destruct A as (_ & U). apply (U b T).
        exists k, pdp, c. split; [exact P'|]. destruct B as (a & X & R).
        assert (R' : reaches (objects evs) a b).
        { apply (reaches_later (objects e1)); [|exact R]. intros y Ry. apply K. exists a. auto. }
        destruct X as [->|X]; [left; exists a; auto|]. right. exists e1, e2, a. split; [exact E|].
        split; [exact (proj1 P1)|]. auto. }
      assert (D : ev = HStep k \/ ev <> HStep k).
      { destruct ev; try (right; discriminate). destruct (PeanoNat.Nat.eq_dec k0 k) as [->|X]; [left; reflexivity | right; congruence]. }
      destruct D as [->|D].
      * exists (lstep O (objects evs) t). split; [apply call_stepped; exact N|].
        assert (Same : objects (evs ++ [HStep k]) = objects evs).
        { unfold SpecPdpLive.objects. rewrite after_snoc. cbn. destruct (nth_error (sv_calls (after evs)) k); reflexivity. }
        destruct G as [->|(e1 & e2 & E & P1 & EV & K)]; right.
        -- exists evs, [HStep k]. split; [reflexivity|]. split; [|split].
           ++ split; [exact M'|]. intros r An. unfold SpecPdpLive.answered in An. rewrite N in An. discriminate An.
           ++ apply ev_begun.
           ++ intros _ b _. rewrite Same. reflexivity.
        -- exists e1, (e2 ++ [HStep k]). split; [rewrite E, <- app_assoc; reflexivity|]. split; [exact P1|].
           assert (Dn : (exists r, t = LDone r) \/ (forall r, t <> LDone r)).
           { destruct t; try (right; discriminate). left. eauto. }
           destruct Dn as [(r & ->)|Dn].
           ++ split; [exact EV|]. rewrite Same. intros P. exfalso.
              apply (proj2 P r). apply answered_later. exact N.
           ++ assert (P' : pending evs k pdp c).
              { split; [exact M'|]. intros r An. unfold SpecPdpLive.answered in An. rewrite N in An. injection An as An. exact (Dn r An). }
              split.
              ** apply ev_step; [|exact EV]. split; [exact (K P')|]. intros r Q.
                 assert (C : same_collaborators O (objects e1) (objects evs) c).
                 { rewrite E. apply (ST' e1 e2 [] pdp); [rewrite app_nil_r; exact E | exact P1 | rewrite <- E; exact P']. }
                 destruct C as (C1 & C2). split; intro; [apply C1 | apply C2]; exact Q.
              ** rewrite Same. intros _. exact (K P').
      * exists t. split; [apply call_kept; assumption|]. destruct G as [->|(e1 & e2 & E & P1 & EV & K)]; [left; reflexivity|].
        right. exists e1, (e2 ++ [ev]). split; [rewrite E, <- app_assoc; reflexivity|]. split; [exact P1|]. split; [exact EV|].
        apply (Kept e1 e2 E P1); [|exact K]. rewrite E in H'. exact (orderly_prefix _ _ H').
    + unfold SpecPdpLive.made in M. rewrite calls_app, nth_error_app2 in M by exact L.
      destruct ev as [pdp' c'|j|o|E fetch fd limit d|ops|]; cbn in M;
        try (destruct (k - length (calls_in evs)); discriminate M).
      destruct (k - length (calls_in evs)) as [|[]] eqn:Q; [|discriminate M|discriminate M]. injection M as -> ->.
      exists (l_pdp_evaluate O n pdp c). split; [|left; reflexivity].
      rewrite after_snoc. cbn. rewrite nth_error_app2; rewrite calls_length; [|exact L]. rewrite Q. reflexivity.
Qed.

(** While the call is going on, what it looks at stays as it was at any moment of it. *)
Lemma parts_kept : forall e1 e2 k pdp c, orderly (e1 ++ e2) -> pending e1 k pdp c -> pending (e1 ++ e2) k pdp c ->
  forall b, parts e1 pdp c b -> nth_error (objects (e1 ++ e2)) b = nth_error (objects e1) b.
Proof.
  intros e1 e2 k pdp c. induction e2 as [|ev e2 IH] using rev_ind; intros H P1 P b B; [rewrite app_nil_r; reflexivity|].
  rewrite app_assoc in H, P |- *. pose proof (orderly_prefix _ _ H) as H'. pose proof (orderly_last _ _ H) as A.
  pose proof (made_app e1 e2 k pdp c (proj1 P1)) as M'.
  pose proof (pending_before (e1 ++ e2) [ev] k pdp c M' P) as P'. specialize (IH H' P1 P').
  rewrite <- (IH b B). destruct (nth_error (objects (e1 ++ e2)) b) as [x|] eqn:Nb.
  2:{ exfalso. rewrite (IH b B) in Nb. exact (parts_exist e1 k pdp c b (orderly_prefix _ _ H') (proj1 P1) B Nb). }
  apply (objects_step (e1 ++ e2) ev b x A); [|exact Nb]. intros o -> T. destruct A as (_ & U). apply (U b T).
  exists k, pdp, c. split; [exact P'|]. destruct B as (a & X & R).
  assert (R' : reaches (objects (e1 ++ e2)) a b).
  { apply (reaches_later (objects e1)); [|exact R]. intros y Ry. apply IH. exists a. auto. }
  destruct X as [->|X]; [left; exists a; auto|]. right. exists e1, e2, a. split; [reflexivity|].
  split; [exact (proj1 P1)|]. auto.
Qed.

Lemma keeps_pending : forall e1 e2 k pdp c, orderly (e1 ++ e2) -> steady (e1 ++ e2) k c ->
  pending e1 k pdp c -> pending (e1 ++ e2) k pdp c ->
  keeps O (objects e1) (parts e1 pdp c) (asked c) (objects (e1 ++ e2)).
Proof.
  intros e1 e2 k pdp c H ST P1 P. split; [exact (parts_kept e1 e2 k pdp c H P1 P)|]. intros r Q.
  destruct (ST e1 e2 [] pdp) as (C1 & C2); [rewrite app_nil_r; reflexivity | exact P1 | exact P |].
  split; intro; [apply C1 | apply C2]; exact Q.
Qed.

(** ** Calls end *)
Fixpoint steps_of (k : nat) (evs : list happening) : nat :=
  match evs with
  | [] => 0
  | HStep j :: rest => (if Nat.eqb j k then 1 else 0) + steps_of k rest
  | _ :: rest => steps_of k rest
  end.
Lemma steps_app : forall k a b, steps_of k (a ++ b) = steps_of k a + steps_of k b.
Proof. intros k a b. induction a as [|[] a IH]; cbn; rewrite ?IH; lia. Qed.

Lemma answered_dec : forall evs k pdp c, made evs k pdp c -> (exists r, answered evs k r) \/ pending evs k pdp c.
Proof.
  intros evs k pdp c M. unfold SpecPdpLive.pending, SpecPdpLive.answered.
  destruct (nth_error (sv_calls (after evs)) k) as [t|] eqn:N.
  - destruct t as [r| | | | |]; try (right; split; [exact M | intros ? Q; discriminate Q]). left. eauto.
  - right. split; [exact M|]. intros ? Q. discriminate Q.
Qed.

(** Enough steps after the policy was read *)
Lemma enough : forall e1 k pdp c e2 t r, made e1 k pdp c ->
  ev O (objects e1) (parts e1 pdp c) (asked c) t r -> pending e1 k pdp c ->
  nth_error (sv_calls (after (e1 ++ e2))) k = Some t ->
  exists N, forall e3, orderly (e1 ++ e2 ++ e3) -> steady (e1 ++ e2 ++ e3) k c -> N <= steps_of k e3 ->
    exists r', answered (e1 ++ e2 ++ e3) k r'.
Proof.
  intros e1 k pdp c e2 t r M EV P1 N0. destruct (ev_ends O (objects e1) _ _ _ _ _ EV) as (N & HN). exists N.
  assert (X : forall e3, orderly (e1 ++ e2 ++ e3) -> steady (e1 ++ e2 ++ e3) k c ->
    (exists r', answered (e1 ++ e2 ++ e3) k r') \/
    exists hs, length hs = steps_of k e3 /\ Forall (keeps O (objects e1) (parts e1 pdp c) (asked c)) hs /\
      nth_error (sv_calls (after (e1 ++ e2 ++ e3))) k = Some (lrun O hs t)).
  { intro e3. induction e3 as [|ev e3 IH] using rev_ind; intros H ST.
    - right. exists []. rewrite app_nil_r. cbn. auto.
    - replace (e1 ++ e2 ++ e3 ++ [ev]) with ((e1 ++ e2 ++ e3) ++ [ev]) in * by (rewrite <- !app_assoc; reflexivity).
      pose proof (orderly_prefix _ _ H) as H'.
      assert (ST' : steady (e1 ++ e2 ++ e3) k c).
      { intros a b d pdp' E. apply (ST a b (d ++ [ev]) pdp'). rewrite E, <- !app_assoc. reflexivity. }
      destruct (answered_dec (e1 ++ e2 ++ e3) k pdp c (made_app _ _ _ _ _ M)) as [(r' & An)|P].
      { left. exists r'. apply answered_later. exact An. }
      destruct (IH H' ST') as [(r' & An)|(hs & L & K & Q)]; [destruct (proj2 P r' An)|].
      assert (D : ev = HStep k \/ ev <> HStep k).
      { destruct ev; try (right; discriminate). destruct (PeanoNat.Nat.eq_dec k0 k) as [->|D]; [left; reflexivity | right; congruence]. }
      right. destruct D as [->|D].
      + exists (hs ++ [objects (e1 ++ e2 ++ e3)]). rewrite app_length, steps_app, L. cbn. rewrite PeanoNat.Nat.eqb_refl.
        split; [lia|]. split.
        * apply Forall_app. split; [exact K|]. constructor; [|constructor].
          apply (keeps_pending e1 (e2 ++ e3) k pdp c); assumption.
        * rewrite (call_stepped _ _ _ Q). unfold lrun. rewrite fold_left_app. reflexivity.
      + exists hs. rewrite steps_app, L. split; [|split; [exact K | apply call_kept; assumption]].
        destruct ev; cbn; try lia. destruct (Nat.eqb_spec k0 k) as [->|_]; [congruence | lia]. }
  intros e3 H ST L. destruct (X e3 H ST) as [(r' & An)|(hs & Lh & K & Q)].
  - exists r'. exact An.
  - exists r. unfold SpecPdpLive.answered. rewrite Q, (HN hs); [reflexivity | lia | exact K].
Qed.

Lemma first_app : forall (f : nat -> happening) m d, exists e, first (m + d) f = first m f ++ e /\ e = map f (seq m d).
Proof. intros f m d. unfold first. rewrite seq_app, map_app. eexists. split; reflexivity. Qed.

Lemma often : forall (f : nat -> happening) k, (forall m, exists m', m <= m' /\ f m' = HStep k) ->
  forall N m, exists d, N <= steps_of k (map f (seq m d)).
Proof.
  intros f k I N. induction N as [|N IH]; intro m; [exists 0; cbn; lia|].
  destruct (I m) as (m' & L & E). destruct (IH (S m')) as (d & Hd).
  exists ((m' - m) + 1 + d). rewrite !seq_app, !map_app, !steps_app. cbn [seq map].
  replace (m + (m' - m)) with m' by lia. replace (m + (m' - m + 1)) with (S m') by lia.
  rewrite E. cbn. rewrite PeanoNat.Nat.eqb_refl. lia.
Qed.

Lemma call_ends : forall (f : nat -> happening) k pdp c m0,
  (forall m, orderly (first m f)) -> (forall m, steady (first m f) k c) ->
  (forall m, exists m', m <= m' /\ f m' = HStep k) -> made (first m0 f) k pdp c ->
  exists m r, answered (first m f) k r.
Proof.
  intros f k pdp c m0 H ST I M.
  destruct (I m0) as (m1 & L1 & E1).
  assert (M1 : made (first m1 f) k pdp c).
  { destruct (first_app f m0 (m1 - m0)) as (e & Q & _). replace (m0 + (m1 - m0)) with m1 in Q by lia. rewrite Q.
    apply made_app. exact M. }
  destruct (answered_dec _ _ _ _ M1) as [(r & An)|P1]; [exists m1, r; exact An|].
  destruct (calls_going _ (H m1) k pdp c M1 (ST m1)) as (t & N & G).
  assert (Fin : forall e1 e2 t' r m, first m f = e1 ++ e2 -> pending e1 k pdp c ->
    ev O (objects e1) (parts e1 pdp c) (asked c) t' r -> nth_error (sv_calls (after (first m f))) k = Some t' ->
    exists m r, answered (first m f) k r).
  { intros e1 e2 t' r m Q P EV Nt. rewrite Q in Nt.
    destruct (enough e1 k pdp c e2 t' r (proj1 P) EV P Nt) as (N0 & HN).
    destruct (often f k I N0 m) as (d & Hd). exists (m + d). destruct (first_app f m d) as (e & Qe & ->).
    rewrite Qe, Q, <- app_assoc. apply HN; [| |exact Hd]; rewrite app_assoc, <- Q, <- Qe; [apply H | apply ST]. }
  destruct G as [->|(e1 & e2 & Q & P & EV & _)].
  - pose proof (first_app f m1 1) as (e & Qe & ->). cbn in Qe. rewrite E1 in Qe.
    apply (Fin (first m1 f) [HStep k] (lstep O (objects (first m1 f)) (l_pdp_evaluate O n pdp c))
             (o_pdp_evaluate O n (objects (first m1 f)) pdp c) (m1 + 1)); try assumption.
    + apply ev_begun.
    + rewrite Qe. apply call_stepped. exact N.
  - exact (Fin e1 e2 t _ m1 Q P EV N).
Qed.
End Facts.

Lemma objects_during : forall O n cm e0 e2 b x, orderly O n cm (e0 ++ e2) ->
  (forall o, In (HDo o) e2 -> touches o <> Some b) ->
  nth_error (objects O n cm e0) b = Some x -> nth_error (objects O n cm (e0 ++ e2)) b = Some x.
Proof.
  intros O n cm e0 e2 b x. induction e2 as [|ev e2 IH] using rev_ind; intros H T N; [rewrite app_nil_r; exact N|].
  rewrite app_assoc in H |- *. apply objects_step.
  - exact (orderly_last _ _ _ _ _ H).
  - intros o ->. apply T. apply in_or_app. right. left. reflexivity.
  - apply IH; [exact (orderly_prefix _ _ _ _ _ H) | | exact N]. intros o I. apply T. apply in_or_app. left. exact I.
Qed.

Lemma longer : forall O n cm (e0 e2 e1 x : list happening) k pdp c, e0 ++ e2 = e1 ++ x ->
  length (calls_in e0) <= k -> pending O n cm e1 k pdp c -> exists y, e1 = e0 ++ y /\ e2 = y ++ x.
Proof.
  intros O n cm e0 e2 e1 x k pdp c E L (M & _). symmetry in E.
  apply app_eq_app in E. destruct E as (l & [[E1 E2]|[E1 E2]]).
  - exists l. auto.
  - exfalso. unfold SpecPdpLive.made in M. subst e0. rewrite calls_app, app_length in L.
    assert (k < length (calls_in e1)) by (apply nth_error_Some; congruence). lia.
Qed.

Lemma attr_during : forall O n cm e0 e2 a name v, orderly O n cm (e0 ++ e2) ->
  (forall o, In (HDo o) e2 -> touches o <> Some a) ->
  get_attr (objects O n cm e0) a name = Ok v -> get_attr (objects O n cm (e0 ++ e2)) a name = Ok v.
Proof.
  intros O n cm e0 e2 a name v H T G. unfold get_attr in *.
  destruct (nth_error (objects O n cm e0) a) as [x|] eqn:N; [|discriminate G].
  rewrite (objects_during O n cm e0 e2 a x H T N). exact G.
Qed.

Lemma objects_quiet : forall O n cm e y,
  Forall (fun ev => match ev with HCall _ _ | HStep _ => True | _ => False end) y ->
  objects O n cm (e ++ y) = objects O n cm e.
Proof.
  intros O n cm e y. induction y as [|ev y IH] using rev_ind; intro F; [rewrite app_nil_r; reflexivity|].
  apply Forall_app in F. destruct F as (F1 & F2). rewrite <- (IH F1), app_assoc. unfold objects. rewrite after_snoc.
  inversion F2 as [|? ? Q _]; subst. destruct ev; try destruct Q; cbn; [reflexivity|].
  destruct (nth_error _ k); reflexivity.
Qed.
