(** Lemmas for C98: processes with loads that are stopped, and repeated attempts. *)
From Verif Require Import Interrupts SpecText SpecRead SpecSources SpecFinderThreads SpecInterrupts.
From Verif Require Import ReadFacts ReadFacts3 ReadFacts4 SourcesFacts SourcesFacts2 FinderThreadsFacts FinderThreadsFacts2.
From Verif Require Import InterruptsFacts InterruptsFacts2.
From Coq Require Import Lia.
Local Open Scope list_scope.

Definition more (st st' : program) : Prop :=
  forall i fd K, finder_holds st i fd K -> exists new, finder_holds st' i fd (K ++ new).
Lemma more_same : forall st st', ap_finders st' = ap_finders st -> more st st'.
Proof.
  intros st st' H i fd K [Hn [F Hi]]. exists []. rewrite app_nil_r. split; [exact Hn|]. exists F. rewrite H. exact Hi.
Qed.
Lemma more_trans : forall a b c, more a b -> more b c -> more a c.
Proof.
  intros a b c H1 H2 i fd K H. destruct (H1 i fd K H) as [n1 H']. destruct (H2 i fd _ H') as [n2 H''].
  exists (n1 ++ n2). rewrite app_assoc. exact H''.
Qed.
Lemma more_growing : forall st st', growing st st' -> more st st'.
Proof.
  intros st st' H i fd K [Hn [F Hi]]. destruct (H i fd K F Hi Hn) as (new & urls & Hi' & Hn'). exists new. split; [exact Hn'|].
  eexists. exact Hi'.
Qed.

Section Process.
Variable limit : nat.
Variable RE : renv.
Hypothesis HE : default_readers RE.

Notation step := (Sources.step limit RE).
Notation base_from_source := (Sources.base_from_source limit RE).
Notation base_stopped := (Interrupts.base_stopped limit RE).
Notation step_stopped := (Interrupts.step_stopped limit RE).

Lemma stopped_base : forall k e w s f fa st,
  (exists e', base_stopped k e w s f fa st = (Raise e', st) /\ base_from_source w s f fa st = (Raise e', st)) \/
  (exists i fd fs n, f = FacETree /\ fa = FaFinder i /\ nth_error (ap_finders st) i = Some (fd, fs) /\
     parse_source w s = Ok n /\
     base_stopped k e w s f fa st =
       (fst (stopped_load limit RE (w_fetch w) fd k e n fs),
        mkProgram (list_set i (fd, snd (stopped_load limit RE (w_fetch w) fd k e n fs)) (ap_finders st)) (ap_pdps st)) /\
     base_from_source w s f fa st =
       (fst (read_doc_s limit RE (w_fetch w) fd n fs),
        mkProgram (list_set i (fd, snd (read_doc_s limit RE (w_fetch w) fd n fs)) (ap_finders st)) (ap_pdps st))).
Proof.
  intros k e w s f fa st. unfold Interrupts.base_stopped, Sources.base_from_source.
  destruct f; cbn [get_reader]; try (left; eexists; split; reflexivity).
  destruct fa as [|i|t]; try (left; eexists; split; reflexivity).
  destruct (nth_error (ap_finders st) i) as [[fd fs]|] eqn:Ei; [|left; eexists; split; reflexivity].
  destruct (parse_source w s) as [n|e'] eqn:Ep; [|left; eexists; split; reflexivity].
  right. exists i, fd, fs, n. repeat (split; [reflexivity || assumption|]).
  destruct (stopped_load limit RE (w_fetch w) fd k e n fs), (read_doc_s limit RE (w_fetch w) fd n fs); split; reflexivity.
Qed.

Lemma stopped_base_pdps : forall k e w s f fa st, ap_pdps (snd (base_stopped k e w s f fa st)) = ap_pdps st.
Proof.
  intros k e w s f fa st. destruct (stopped_base k e w s f fa st) as [(e' & -> & _)|(i & fd & fs & n & _ & _ & _ & _ & -> & _)]; reflexivity.
Qed.
Lemma stopped_base_ok : forall k e w s f fa st p st', base_stopped k e w s f fa st = (Ok p, st') ->
  base_from_source w s f fa st = (Ok p, st').
Proof.
  intros k e w s f fa st p st' H.
  destruct (stopped_base k e w s f fa st) as [(e' & E & _)|(i & fd & fs & n & _ & _ & _ & _ & E & ->)]; rewrite E in H; [discriminate H|].
  destruct (stopped_load limit RE (w_fetch w) fd k e n fs) as [r s1] eqn:El. cbn [fst snd] in H. injection H as -> <-.
  rewrite (stopped_ok _ _ _ _ _ _ _ _ _ _ El). reflexivity.
Qed.
Lemma stopped_base_enough : forall e w s f fa st, exists k0, forall k, k0 <= k ->
  base_stopped k e w s f fa st = base_from_source w s f fa st.
Proof.
  intros e w s f fa st. unfold Interrupts.base_stopped, Sources.base_from_source.
  destruct (get_reader f); [|exists 0; reflexivity]. destruct fa as [|i|t]; try (exists 0; reflexivity).
  destruct (nth_error (ap_finders st) i) as [[fd fs]|]; [|exists 0; reflexivity].
  destruct (parse_source w s) as [n|e']; [|exists 0; reflexivity].
  destruct (stopped_enough RE (w_fetch w) fd limit e n fs) as [k0 H]. exists k0. intros k Hk. rewrite (H k Hk). reflexivity.
Qed.

Lemma stopped_base_held : forall k e w s f fa st, held st ->
  held (snd (base_stopped k e w s f fa st)) /\ more st (snd (base_stopped k e w s f fa st)).
Proof.
  intros k e w s f fa st H.
  destruct (stopped_base k e w s f fa st) as [(e' & -> & _)|(i & fd & fs & n & _ & _ & Hi & _ & -> & _)]; cbn [snd].
  - split; [exact H|apply more_same; reflexivity].
  - destruct (held_nth st i fd fs H Hi) as (K0 & F0 & E0 & Hn0). subst fs. split.
    + destruct (stopped_gets RE HE (w_fetch w) fd limit k e n K0 F0) as (K1 & F1 & Es & Hg). rewrite Es.
      unfold held in *. cbn [ap_finders]. apply Forall_list_set; [|exact H]. exists K1, F1. split; [reflexivity|].
      apply (proj1 (gets_distinct RE (w_fetch w) fd) _ _ _ Hg Hn0).
    + intros j fd' K [Hn [F Hj]]. unfold finder_holds. cbn [ap_finders]. destruct (Nat.eq_dec i j) as [<-|N].
      * assert (fd' = fd /\ mkFstate (holding K0) F0 = mkFstate (holding K) F) as [-> ->] by (rewrite Hi in Hj; split; congruence).
        destruct (stopped_gets RE HE (w_fetch w) fd limit k e n K F) as (K1 & F1 & Es & Hg). rewrite Es.
        destruct (proj1 (gets_appends RE (w_fetch w) fd) _ _ _ Hg) as [new ->]. exists new.
        split; [apply (proj1 (gets_distinct RE (w_fetch w) fd) _ _ _ Hg Hn)|]. exists F1.
        rewrite list_set_same by (apply nth_error_Some; congruence). reflexivity.
      * exists []. rewrite app_nil_r. split; [exact Hn|]. exists F. rewrite list_set_other by exact N. exact Hj.
Qed.

(** The default finder. *)
Definition load_stopped (k : nat) (e : exn) (w : Sources.world) (s : source) (f : factory_arg) (fd : finder) : res policybase :=
  let* _ := get_reader f in
  let* n := parse_source w s in
  fst (stopped_load limit RE (w_fetch w) fd k e n fstate0).
Lemma stopped_base_default : forall k e w s f fd st,
  fst (base_stopped k e w s f (FaFinder (List.length (ap_finders st)))
         (mkProgram (ap_finders st ++ [(fd, fstate0)]) (ap_pdps st))) = load_stopped k e w s f fd.
Proof.
  intros k e w s f fd st. unfold Interrupts.base_stopped, load_stopped.
  destruct f; cbn [get_reader bind fst]; try reflexivity. cbn [ap_finders].
  rewrite nth_error_app2 by lia. rewrite Nat.sub_diag. cbn [nth_error].
  destruct (parse_source w s) as [n|e']; [|reflexivity]. cbn [bind].
  destruct (stopped_load limit RE (w_fetch w) fd k e n fstate0); reflexivity.
Qed.
Lemma stopped_default : forall k e w s f fa st, fa = FaNone \/ fa = FaOther false ->
  step_stopped k e (OFromSource w s f fa) st =
  match default_finder w s with
  | Raise e' => (Raise e', st)
  | Ok fd => match load_stopped k e w s f fd with
             | Ok p => (Ok tt, mkProgram (ap_finders st) (ap_pdps st ++ [Some p]))
             | Raise e' => (Raise e', st)
             end
  end.
Proof.
  intros k e w s f fa st Hfa.
  assert (step_stopped k e (OFromSource w s f fa) st = match default_finder w s with
  | Raise e' => (Raise e', st)
  | Ok fd =>
     let (r, st1) := (let (r, st1) := base_stopped k e w s f (FaFinder (List.length (ap_finders st)))
                                 (mkProgram (ap_finders st ++ [(fd, fstate0)]) (ap_pdps st)) in
                      match r with Raise e' => (Raise e', st1) | Ok p => (Ok tt, new_pdp (Some p) st1) end) in
     (r, mkProgram (ap_finders st) (ap_pdps st1))
  end) as -> by (destruct Hfa as [->| ->]; reflexivity).
  destruct (default_finder w s) as [fd|e']; [|reflexivity].
  rewrite <- (stopped_base_default k e w s f fd st).
  pose proof (stopped_base_pdps k e w s f (FaFinder (List.length (ap_finders st)))
                (mkProgram (ap_finders st ++ [(fd, fstate0)]) (ap_pdps st))) as Hp.
  destruct (base_stopped k e w s f _ _) as [[p|e'] st1]; cbn [fst snd ap_pdps] in *.
  - unfold new_pdp. cbn [ap_pdps]. rewrite Hp. reflexivity.
  - rewrite Hp. destruct st; reflexivity.
Qed.
Lemma load_stopped_ok : forall k e w s f fd p, load_stopped k e w s f fd = Ok p -> load_default limit RE w s f fd = Ok p.
Proof.
  intros k e w s f fd p H. unfold load_stopped, load_default in *.
  destruct (get_reader f); [|discriminate H]. cbn [bind] in *. destruct (parse_source w s) as [n|e']; [|discriminate H]. cbn [bind] in *.
  destruct (stopped_load limit RE (w_fetch w) fd k e n fstate0) as [r s1] eqn:El. cbn [fst] in H. subst r.
  rewrite (stopped_ok _ _ _ _ _ _ _ _ _ _ El). reflexivity.
Qed.
Lemma stopped_given : forall k e w s f fa st, fa <> FaNone -> fa <> FaOther false ->
  step_stopped k e (OFromSource w s f fa) st =
  let (r, st1) := base_stopped k e w s f fa st in
  match r with Raise e' => (Raise e', st1) | Ok p => (Ok tt, new_pdp (Some p) st1) end.
Proof. intros k e w s f [|i|[|]] st H1 H2; try congruence; reflexivity. Qed.

Lemma stopped_step_ok : forall k e o st st', step_stopped k e o st = (Ok tt, st') -> step o st = (Ok tt, st').
Proof.
  intros k e o st st' H. destruct o as [fd|x|w s f fa|j w s f fa|j x]; try exact H.
  - destruct (fa_cases fa) as [Hfa|[N1 N2]].
    + rewrite stopped_default in H by exact Hfa. rewrite step_default by exact Hfa.
      destruct (default_finder w s) as [fd|e']; [|discriminate H].
      destruct (load_stopped k e w s f fd) as [p|e'] eqn:El; [|discriminate H]. rewrite (load_stopped_ok _ _ _ _ _ _ _ El). exact H.
    + rewrite stopped_given in H by assumption. rewrite step_given by assumption.
      destruct (base_stopped k e w s f fa st) as [[p|e'] st1] eqn:Eb; [|discriminate H]. rewrite (stopped_base_ok _ _ _ _ _ _ _ _ _ Eb). exact H.
  - cbn [Interrupts.step_stopped] in H. cbn [Sources.step]. destruct (nth_error (ap_pdps st) j); [|discriminate H].
    unfold set_from_source. destruct (base_stopped k e w s f fa st) as [[p|e'] st1] eqn:Eb; [|discriminate H].
    rewrite (stopped_base_ok _ _ _ _ _ _ _ _ _ Eb). exact H.
Qed.
Lemma stopped_step_enough : forall e o st, exists k0, forall k, k0 <= k -> step_stopped k e o st = step o st.
Proof.
  intros e o st. destruct o as [fd|x|w s f fa|j w s f fa|j x]; try (exists 0; reflexivity).
  - destruct (fa_cases fa) as [Hfa|[N1 N2]].
    + destruct (default_finder w s) as [fd|e'] eqn:Ed.
      2: { exists 0. intros k _. rewrite stopped_default, step_default, Ed by exact Hfa. reflexivity. }
      destruct (get_reader f) as [[]|e'] eqn:Ef.
      2: { exists 0. intros k _. rewrite stopped_default, step_default, Ed by exact Hfa.
           unfold load_stopped, load_default. rewrite Ef. reflexivity. }
      destruct (parse_source w s) as [n|e'] eqn:Ep.
      2: { exists 0. intros k _. rewrite stopped_default, step_default, Ed by exact Hfa.
           unfold load_stopped, load_default. rewrite Ef, Ep. reflexivity. }
      destruct (stopped_enough RE (w_fetch w) fd limit e n fstate0) as [k0 H]. exists k0. intros k Hk.
      rewrite stopped_default, step_default, Ed by exact Hfa. unfold load_stopped, load_default. rewrite Ef, Ep. cbn [bind].
      rewrite (H k Hk). reflexivity.
    + destruct (stopped_base_enough e w s f fa st) as [k0 H]. exists k0. intros k Hk.
      rewrite stopped_given, step_given by assumption. rewrite (H k Hk). reflexivity.
  - destruct (stopped_base_enough e w s f fa st) as [k0 H]. exists k0. intros k Hk.
    cbn [Interrupts.step_stopped Sources.step]. destruct (nth_error (ap_pdps st) j); [|reflexivity]. unfold set_from_source.
    rewrite (H k Hk). reflexivity.
Qed.
Lemma stopped_step_failed : forall k e o st e' st', step_stopped k e o st = (Raise e', st') -> ap_pdps st' = ap_pdps st.
Proof.
  intros k e o st e' st' H. destruct o as [fd|x|w s f fa|j w s f fa|j x]; try exact (step_failed limit RE _ st e' st' H).
  - destruct (fa_cases fa) as [Hfa|[N1 N2]].
    + rewrite stopped_default in H by exact Hfa. destruct (default_finder w s) as [fd|]; [|injection H as _ <-; reflexivity].
      destruct (load_stopped k e w s f fd); [discriminate H|]. injection H as _ <-. reflexivity.
    + rewrite stopped_given in H by assumption. pose proof (stopped_base_pdps k e w s f fa st) as Hb.
      destruct (base_stopped k e w s f fa st) as [[p|e''] st1]; [discriminate H|]. injection H as _ <-. exact Hb.
  - cbn [Interrupts.step_stopped] in H. destruct (nth_error (ap_pdps st) j); [|injection H as _ <-; reflexivity].
    pose proof (stopped_base_pdps k e w s f fa st) as Hb.
    destruct (base_stopped k e w s f fa st) as [[p|e''] st1]; [discriminate H|]. injection H as _ <-. exact Hb.
Qed.
Lemma stopped_step_held : forall k e o st, held st ->
  held (snd (step_stopped k e o st)) /\ more st (snd (step_stopped k e o st)).
Proof.
  intros k e o st H.
  assert (forall st', ap_finders st' = ap_finders st -> held st' /\ more st st') as Hs.
  { intros st' E. split; [unfold held; rewrite E; exact H|apply more_same, E]. }
  assert (forall o, held (snd (step o st)) /\ more st (snd (step o st))) as Hd.
  { intros o'. destruct (step_held limit RE o' st H) as [H1 H2]. split; [exact H1|apply more_growing, H2]. }
  destruct o as [fd|x|w s f fa|j w s f fa|j x]; try apply Hd.
  - destruct (fa_cases fa) as [Hfa|[N1 N2]].
    + rewrite stopped_default by exact Hfa. destruct (default_finder w s) as [fd|]; [|apply Hs; reflexivity].
      destruct (load_stopped k e w s f fd); apply Hs; reflexivity.
    + rewrite stopped_given by assumption. pose proof (stopped_base_held k e w s f fa st H) as Hb.
      destruct (base_stopped k e w s f fa st) as [[p|e'] st1]; exact Hb.
  - cbn [Interrupts.step_stopped]. destruct (nth_error (ap_pdps st) j); [|apply Hs; reflexivity].
    pose proof (stopped_base_held k e w s f fa st H) as Hb.
    destruct (base_stopped k e w s f fa st) as [[p|e'] st1]; exact Hb.
Qed.
(** What a stopped load leaves. *)
Lemma stopped_step_gets : forall k e i o w s n st fd K, loads_with i o w s -> parse_source w s = Ok n ->
  finder_holds st i fd K -> exists K1, finder_holds (snd (step_stopped k e o st)) i fd K1 /\ gets_to RE (w_fetch w) fd n K K1.
Proof.
  intros k e i o w s n st fd K Hl Hp [Hn [F Hi]].
  assert (exists K1, finder_holds (snd (base_stopped k e w s FacETree (FaFinder i) st)) i fd K1 /\ gets_to RE (w_fetch w) fd n K K1) as Hb.
  { destruct (stopped_gets RE HE (w_fetch w) fd limit k e n K F) as (K1 & F1 & Es & Hg). exists K1. split; [|exact Hg].
    unfold Interrupts.base_stopped. cbn [get_reader]. rewrite Hi, Hp.
    destruct (stopped_load limit RE (w_fetch w) fd k e n (mkFstate (holding K) F)) as [r s1]. cbn [snd] in *. subst s1.
    split; [apply (proj1 (gets_distinct RE (w_fetch w) fd) _ _ _ Hg Hn)|]. exists F1. cbn [ap_finders].
    apply list_set_same, nth_error_Some. congruence. }
  destruct Hl as [w s|j w s].
  - rewrite stopped_given by discriminate.
    destruct (base_stopped k e w s FacETree (FaFinder i) st) as [[p|e'] st1]; exact Hb.
  - cbn [Interrupts.step_stopped]. destruct (nth_error (ap_pdps st) j).
    + destruct (base_stopped k e w s FacETree (FaFinder i) st) as [[p|e'] st1]; exact Hb.
    + exists K. split; [split; [exact Hn|exists F; exact Hi]|constructor].
Qed.

(** ** Histories *)
Lemma step_i_held : forall x st, held st -> held (snd (step_i limit RE x st)) /\ more st (snd (step_i limit RE x st)).
Proof.
  intros [o|k e o] st H; cbn [step_i]; [|apply stopped_step_held, H].
  destruct (step_held limit RE o st H) as [H1 H2]. split; [exact H1|apply more_growing, H2].
Qed.
Lemma step_i_ok : forall x st st', step_i limit RE x st = (Ok tt, st') -> step (op_of x) st = (Ok tt, st').
Proof. intros [o|k e o] st st' H; [exact H|exact (stopped_step_ok k e o st st' H)]. Qed.
Lemma step_i_failed : forall x st e st', step_i limit RE x st = (Raise e, st') -> ap_pdps st' = ap_pdps st.
Proof. intros [o|k e0 o] st e st' H; [exact (step_failed limit RE o st e st' H)|exact (stopped_step_failed k e0 o st e st' H)]. Qed.
Lemma run_i_held : forall xs st, held st -> held (run_i limit RE xs st) /\ more st (run_i limit RE xs st).
Proof.
  induction xs as [|x xs IH]; intros st H; cbn [run_i].
  - split; [exact H|apply more_same; reflexivity].
  - destruct (step_i_held x st H) as [H1 H2]. destruct (IH _ H1) as [H3 H4]. split; [exact H3|exact (more_trans _ _ _ H2 H4)].
Qed.
Lemma run_i_app : forall a b st, run_i limit RE (a ++ b) st = run_i limit RE b (run_i limit RE a st).
Proof. induction a as [|x a IH]; intros b st; [reflexivity|]. cbn [app run_i]. apply IH. Qed.

Lemma in_force_i : forall xs j v, nth_error (ap_pdps (run_i limit RE xs program0)) j = Some v ->
  exists xs1 x xs2, xs = xs1 ++ x :: xs2 /\
    fst (step_i limit RE x (run_i limit RE xs1 program0)) = Ok tt /\
    about (op_of x) (run_i limit RE xs1 program0) j /\
    gives RE (run_i limit RE xs1 program0) (op_of x) v /\
    (forall ys y zs, xs2 = ys ++ y :: zs -> about (op_of y) (run_i limit RE (xs1 ++ x :: ys) program0) j ->
       exists e, fst (step_i limit RE y (run_i limit RE (xs1 ++ x :: ys) program0)) = Raise e).
Proof.
  intros xs. induction xs as [|y xs IH] using rev_ind; intros j v H.
  - destruct j; discriminate H.
  - rewrite run_i_app in H. cbn [run_i] in H.
    destruct (run_i_held xs program0 held0) as [Hh _].
    destruct (step_i limit RE y (run_i limit RE xs program0)) as [r st'] eqn:Es. cbn [snd] in H.
    assert ((r = Ok tt /\ about (op_of y) (run_i limit RE xs program0) j) \/
            (nth_error (ap_pdps (run_i limit RE xs program0)) j = Some v /\
             (about (op_of y) (run_i limit RE xs program0) j -> exists e, r = Raise e))) as [[-> Ha]|[Hj Ha]].
    { destruct r as [[]|e].
      - destruct (step_gives limit RE _ _ _ HE Hh (step_i_ok _ _ _ Es)) as [_ Ho].
        assert (about (op_of y) (run_i limit RE xs program0) j \/ ~ about (op_of y) (run_i limit RE xs program0) j) as [A|A].
        { destruct (op_of y); cbn [about]; try (right; intros []; fail).
          all: match goal with |- ?a = ?b \/ _ => destruct (Nat.eq_dec a b); auto end. }
        + left. auto.
        + right. rewrite Ho in H by exact A. split; [exact H|]. intros A'. contradiction.
      - right. rewrite (step_i_failed _ _ _ _ Es) in H. split; [exact H|]. intros _. exists e. reflexivity. }
    + destruct (step_gives limit RE _ _ _ HE Hh (step_i_ok _ _ _ Es)) as [Hg _]. destruct (Hg j Ha) as (v' & Hv & Hj).
      exists xs, y, []. split; [reflexivity|]. rewrite Es. split; [reflexivity|]. split; [exact Ha|].
      split; [congruence|]. intros [|? ?] ? ? E; discriminate E.
    + destruct (IH j v Hj) as (xs1 & x & xs2 & -> & H1 & H2 & H3 & H4). exists xs1, x, (xs2 ++ [y]).
      split; [rewrite <- app_assoc; reflexivity|]. repeat (split; [assumption|]).
      intros ys z zs E Hz. destruct zs as [|z' zs _] using rev_ind.
      * apply app_inj_tail in E. destruct E as [<- <-]. rewrite Es. exact (Ha Hz).
      * rewrite app_comm_cons, app_assoc in E. apply app_inj_tail in E. destruct E as [E _].
        exact (H4 ys z zs E Hz).
Qed.
End Process.

(** ** Repeated attempts *)
Section Attempts.
Variable E : renv.
Hypothesis HE : default_readers E.
Variable fetch : string -> res node.
Variable fd : finder.
Variable n : node.
Hypothesis Hwp : well_placed fetch fd n.

Lemma attempts_from : forall l K K' U p, NoDup (map name_of K) -> reads E fetch fd n K K' U p ->
  Forall (fun a => at_times (at_fetch a) fetch) l ->
  forall Kc Fc L0, gets_to E fetch fd n K L0 -> same_set Kc L0 -> NoDup (map name_of Kc) ->
  exists K1 F1 L, attempts E fd n l (mkFstate (holding Kc) Fc) = mkFstate (holding K1) F1 /\
    gets_to E fetch fd n K L /\ same_set K1 L /\ NoDup (map name_of K1).
Proof.
  induction l as [|a l IH]; intros K K' U p Hn Hr Ha Kc Fc L0 Hg Hs Hc.
  - exists Kc, Fc, L0. auto.
  - inversion Ha as [|? ? Ht Hl]; subst. cbn [attempts].
    destruct (stopped_gets E HE (at_fetch a) fd (at_limit a) (at_steps a) (at_exn a) n Kc Fc) as (K2 & F2 & -> & Hg2).
    pose proof (proj1 (gets_times E (at_fetch a) fetch Ht fd) _ _ _ Hg2) as Hg3.
    destruct (proj1 (gets_reordered E fetch fd) _ _ _ Hg3 L0 Hs) as (L2 & Hg4 & Hs4).
    assert (here fetch fd n n) as Hh by (exists n; split; [apply reach_self|apply inside_self]).
    destruct (proj1 (further E HE fetch fd n Hwp) _ _ _ Hg Hh Hn K' U p Hr L2 Hg4) as (L & HgL & HsL).
    apply (IH K K' U p Hn Hr Hl K2 F2 L HgL (same_trans _ _ _ Hs4 HsL)).
    exact (proj1 (gets_distinct E (at_fetch a) fd) _ _ _ Hg2 Hc).
Qed.

Lemma attempts_then : forall l K K' U p F, NoDup (map name_of K) -> reads E fetch fd n K K' U p ->
  Forall (fun a => at_times (at_fetch a) fetch) l ->
  exists K1 F1 L, attempts E fd n l (mkFstate (holding K) F) = mkFstate (holding K1) F1 /\
    gets_to E fetch fd n K L /\ same_set K1 L /\ NoDup (map name_of K1) /\
    forall K2 V q, reads E fetch fd n K1 K2 V q -> q = p /\ same_set K2 K'.
Proof.
  intros l K K' U p F Hn Hr Ha.
  destruct (attempts_from l K K' U p Hn Hr Ha K F K (gets_start _ _ _ _ _) (same_refl K) Hn) as (K1 & F1 & L & He & Hg & Hs & H1).
  exists K1, F1, L. repeat (split; [assumption|]). intros K2 V q Hq.
  destruct (proj1 (reordered E fetch fd) _ _ _ _ _ Hq L Hs) as (L' & Hq' & Hs').
  assert (here fetch fd n n) as Hh by (exists n; split; [apply reach_self|apply inside_self]).
  destruct (proj1 (again E HE fetch fd n Hwp) _ _ _ Hg Hh Hn K' U p Hr L' V q Hq') as [-> Hs2].
  split; [reflexivity|]. exact (same_trans _ _ _ Hs' Hs2).
Qed.
End Attempts.

(** ** What a load without references adds is written in the document *)
Section Added.
Variable E : renv.
Variable fetch : string -> res node.
Variable fd : finder.

Definition plain (n : node) : Prop := forall m, inside m n -> wanted m = None.
Lemma plain_member : forall n k, plain n -> In k (members n) -> plain k.
Proof.
  intros n k H Hk m Hm. apply H. apply (inside_trans m k n Hm). apply (inside_kid k n k); [apply member_elem, Hk|apply inside_self].
Qed.
Lemma plain_self : forall n, plain n -> wanted n = None.
Proof. intros n H. apply H, inside_self. Qed.

Definition added (n : node) (K K' : list policybase) : Prop :=
  forall q, In q K' -> In q K \/ exists m, written_in m n /\ declared m (name_of q).
Lemma root_declared : forall n K K' U p, reads E fetch fd n K K' U p -> declared n (name_of p).
Proof.
  intros n K K' U p H. pose proof (root_of E fetch fd _ _ _ _ _ H) as ->. unfold root_name, declared.
  destruct H as [n K p (Hc & _) _|n K K' U id ai alg de t ps p Hc _ _ _ _ _ _ _ _ _].
  - rewrite Hc. auto.
  - destruct (called "Policy" n); auto.
Qed.
Lemma reads_added :
  (forall n K K' U p, reads E fetch fd n K K' U p -> plain n -> added n K K') /\
  (forall ks K K' U ps, reads_members E fetch fd ks K K' U ps -> (forall k, In k ks -> plain k) ->
     forall q, In q K' -> In q K \/ exists k m, In k ks /\ written_in m k /\ declared m (name_of q)) /\
  (forall k K K' U p, reads_member E fetch fd k K K' U p -> plain k -> added k K K').
Proof.
  apply reads_mutind.
  - intros n K p Hd Hf Hp q Hq. apply in_app_or in Hq. destruct Hq as [Hq|[<-|[]]]; [auto|]. right. exists n. split; [constructor|].
    eapply root_declared. apply reads_policy; eassumption.
  - intros n K K' U id ai alg de t ps p Hc Hal H1 H2 H3 H4 H5 Hr IH Hp Hf Hpl q Hq. apply in_app_or in Hq. destruct Hq as [Hq|[<-|[]]].
    + destruct (IH (fun k Hk => plain_member n k Hpl Hk) q Hq) as [Hk|(k & m & Hk & Hm & Hd)]; [auto|]. right. exists m. split; [|exact Hd].
      exact (written_member m n k Hk (plain_self k (plain_member n k Hpl Hk)) Hm).
    + right. exists n. split; [constructor|]. eapply root_declared. eapply reads_set; eassumption.
  - intros K _ q Hq. auto.
  - intros k ks K K1 K2 U U' p ps Hk IHk Hks IHks Hp q Hq.
    destruct (IHks (fun k' Hk' => Hp k' (or_intror Hk')) q Hq) as [H1|(k' & m & H1 & H2)].
    + destruct (IHk (Hp k (or_introl eq_refl)) q H1) as [H2|(m & H2 & H3)]; [auto|]. right. exists k, m. split; [left; reflexivity|auto].
    + right. exists k', m. split; [right; exact H1|exact H2].
  - intros k K K' U p Hw _ IH Hp. exact (IH Hp).
  - intros k K p Hw _ Hp q Hq. auto.
  - intros base k r url d K K' U q p _ _ Hw _ _ _ _ _ _ Hp. pose proof (plain_self k Hp). congruence.
Qed.
Lemma gets_added :
  (forall n K K1, gets_to E fetch fd n K K1 -> plain n -> added n K K1) /\
  (forall k K K1, member_gets_to E fetch fd k K K1 -> plain k -> added k K K1).
Proof.
  apply gets_mutind.
  - intros n K _ q Hq. auto.
  - intros n K K1 U p H. apply (proj1 reads_added _ _ _ _ _ H).
  - intros n K before k after K0 U ps K1 Hc Hm Hr _ IH Hp q Hq.
    assert (forall x, In x (before ++ k :: after) -> In x (members n)) as Hi by (rewrite Hm; auto).
    destruct (IH (plain_member n k Hp (Hi k (in_elt k before after))) q Hq) as [H1|(m & H1 & H2)].
    + destruct (proj1 (proj2 reads_added) _ _ _ _ _ Hr (fun k' Hk' => plain_member n k' Hp (Hi k' (in_or_app _ _ _ (or_introl Hk')))) q H1)
        as [H2|(k' & m & H2 & H3 & H4)]; [auto|]. right. exists m. split; [|exact H4].
      assert (In k' (members n)) as Hk' by (apply Hi, in_or_app; left; exact H2).
      exact (written_member m n k' Hk' (plain_self k' (plain_member n k' Hp Hk')) H3).
    + right. exists m. split; [|exact H2].
      assert (In k (members n)) as Hk by (apply Hi, in_elt).
      exact (written_member m n k Hk (plain_self k (plain_member n k Hp Hk)) H1).
  - intros k K K1 Hw _ IH Hp. exact (IH Hp).
  - intros base k r url d x K K1 _ _ Hw _ _ _ _ _ Hp. pose proof (plain_self k Hp). congruence.
Qed.
End Added.

(** Once a name written in the document is held, it cannot be loaded. *)
Lemma held_refused : forall limit E fetch fd n K F m x, default_readers E -> written_in m n -> declared m x ->
  In x (map name_of K) -> exists e, fst (read_doc_s limit E fetch fd n (mkFstate (holding K) F)) = Raise e.
Proof.
  intros limit E fetch fd n K F m x HE Hw Hd Hx.
  destruct (fst (read_doc_s limit E fetch fd n (mkFstate (holding K) F))) as [p|e] eqn:Er; [|exists e; reflexivity].
  destruct (read_ok limit E (Sources.mkWorld (fun _ => true) (fun _ => Raise EXMLParseError) (fun _ => Raise EXMLParseError) fetch)
              fd n K F p HE Er) as (K' & urls & Hr & _).
  destruct (proj1 (written_fresh E fetch fd) _ _ _ _ _ Hr m x Hw Hd Hx).
Qed.

(** ** A stopped load is a complete one or raises the exception *)
Lemma stopped_either : forall limit E fetch fd k e n s,
  stopped_load limit E fetch fd k e n s = read_doc_s limit E fetch fd n s \/
  fst (stopped_load limit E fetch fd k e n s) = Raise e.
Proof.
  intros limit E fetch fd k e n s. rewrite <- (acts_doc E fetch fd limit n s), (steps_end (fun _ => fetch) _ k). unfold stopped_load.
  destruct (steps_f (fun _ => fetch) k (read_doc_t limit E fd n) s) as [x s1]. destruct x; cbn [fst run_alone_f]; auto.
Qed.
Lemma stopped_base_either : forall limit RE k e w s f fa st,
  base_stopped limit RE k e w s f fa st = base_from_source limit RE w s f fa st \/
  fst (base_stopped limit RE k e w s f fa st) = Raise e.
Proof.
  intros limit RE k e w s f fa st.
  destruct (stopped_base limit RE k e w s f fa st) as [(e' & -> & ->)|(i & fd & fs & n & _ & _ & _ & _ & -> & ->)]; [auto|].
  destruct (stopped_either limit RE (w_fetch w) fd k e n fs) as [->|H]; [auto|]. right. exact H.
Qed.
Lemma stopped_step_either : forall limit RE k e o st,
  step_stopped limit RE k e o st = Sources.step limit RE o st \/ fst (step_stopped limit RE k e o st) = Raise e.
Proof.
  intros limit RE k e o st. destruct o as [fd|x|w s f fa|j w s f fa|j x]; try (left; reflexivity).
  - destruct (fa_cases fa) as [Hfa|[N1 N2]].
    + rewrite stopped_default, step_default by exact Hfa. destruct (default_finder w s) as [fd|e']; [|auto].
      unfold load_stopped, load_default. destruct (get_reader f) as [[]|e']; [|auto]. cbn [bind].
      destruct (parse_source w s) as [n|e']; [|auto]. cbn [bind].
      destruct (stopped_either limit RE (w_fetch w) fd k e n fstate0) as [->| ->]; auto.
    + rewrite stopped_given, step_given by assumption.
      destruct (stopped_base_either limit RE k e w s f fa st) as [->|H]; [auto|].
      destruct (base_stopped limit RE k e w s f fa st) as [r st1]. cbn [fst] in H. subst r. auto.
  - cbn [step_stopped Sources.step]. destruct (nth_error (ap_pdps st) j); [|auto]. unfold set_from_source.
    destruct (stopped_base_either limit RE k e w s f fa st) as [->|H]; [auto|].
    destruct (base_stopped limit RE k e w s f fa st) as [r st1]. cbn [fst] in H. subst r. auto.
Qed.

(** ** Every moment is met *)
Definition size (s : fstate) : nat := List.length (rg_policies (fs_reg s)) + List.length (rg_sets (fs_reg s)).
Lemma size_holding : forall K F, size (mkFstate (holding K) F) = List.length K.
Proof.
  intros K F. unfold size, holding. cbn [fs_reg rg_policies rg_sets]. rewrite !map_length.
  induction K as [|[|] K IH]; cbn [filter List.length]; lia.
Qed.
Lemma key_put_size : forall k p d, List.length (key_put k p d) <= S (List.length d).
Proof.
  intros k p d. induction d as [|[k' q] d IH]; cbn [key_put List.length]; [lia|].
  destruct (opt_eqb String.eqb k k'); cbn [List.length]; lia.
Qed.
Lemma step_size : forall web A (x : FT A) s, size (snd (step_f web x s)) <= S (size s).
Proof.
  intros web A [r|m k c|m k p c|u c] s; cbn [step_f snd]; try (unfold size; cbn [fs_reg]; lia).
  unfold size. destruct m; cbn [put_at fs_reg rg_policies rg_sets]; pose proof (key_put_size k p (rg_policies (fs_reg s)));
    pose proof (key_put_size k p (rg_sets (fs_reg s))); lia.
Qed.
Lemma steps_next : forall web A k (x : FT A) s,
  steps_f web (S k) x s = step_f web (fst (steps_f web k x s)) (snd (steps_f web k x s)).
Proof.
  intros web A k. induction k as [|k IH]; intros x s.
  - cbn [steps_f fst snd]. destruct (step_f web x s); reflexivity.
  - cbn [steps_f] in *. destruct (step_f web x s) as [x1 s1]. apply IH.
Qed.
Lemma steps_sizes : forall web A (x : FT A) s k m, size s <= m <= size (snd (steps_f web k x s)) ->
  exists k', k' <= k /\ size (snd (steps_f web k' x s)) = m.
Proof.
  intros web A x s k. induction k as [|k IH]; intros m Hm.
  - exists 0. cbn [steps_f snd] in *. split; lia.
  - destruct (Nat.le_gt_cases m (size (snd (steps_f web k x s)))) as [H|H].
    + destruct (IH m) as (k' & H1 & H2); [lia|]. exists k'. split; [lia|exact H2].
    + exists (S k). split; [lia|]. rewrite steps_next in *. pose proof (step_size web _ (fst (steps_f web k x s)) (snd (steps_f web k x s))). lia.
Qed.
Lemma stopped_snd : forall limit E fetch fd k e n s,
  snd (stopped_load limit E fetch fd k e n s) = snd (steps_f (fun _ => fetch) k (read_doc_t limit E fd n) s).
Proof.
  intros limit E fetch fd k e n s. unfold stopped_load.
  destruct (steps_f (fun _ => fetch) k (read_doc_t limit E fd n) s) as [x s1]. destruct x; reflexivity.
Qed.
Lemma prefixes : forall A (a b c d : list A), a ++ b = c ++ d -> List.length a = List.length c -> a = c.
Proof.
  intros A a. induction a as [|x a IH]; intros b [|y c] d H Hl; try discriminate Hl; [reflexivity|].
  injection H as <- H. f_equal. apply (IH b c d H). cbn [List.length] in Hl. lia.
Qed.
Lemma every_moment : forall E fetch fd n K K' U p, default_readers E -> NoDup (map name_of K) -> reads E fetch fd n K K' U p ->
  exists L, forall limit, L <= limit -> forall e F K1 new rest, K1 = K ++ new -> K' = K1 ++ rest ->
    exists k F1, snd (stopped_load limit E fetch fd k e n (mkFstate (holding K) F)) = mkFstate (holding K1) F1.
Proof.
  intros E fetch fd n K K' U p HE Hn Hr.
  destruct (loads_ok E (Sources.mkWorld (fun _ => true) (fun _ => Raise EXMLParseError) (fun _ => Raise EXMLParseError) fetch)
              fd n K K' U p HE Hn Hr) as [L HL].
  exists L. intros limit Hl e F K1 new rest HK1 HK'. specialize (HL limit Hl F). cbn [w_fetch] in HL.
  destruct (stopped_enough E fetch fd limit e n (mkFstate (holding K) F)) as [k0 Hk0].
  specialize (Hk0 k0 (le_n _)). rewrite HL in Hk0.
  assert (snd (steps_f (fun _ => fetch) k0 (read_doc_t limit E fd n) (mkFstate (holding K) F)) = mkFstate (holding K') (F ++ U)) as Hend.
  { rewrite <- (stopped_snd limit E fetch fd k0 e n), Hk0. reflexivity. }
  destruct (steps_sizes (fun _ => fetch) _ (read_doc_t limit E fd n) (mkFstate (holding K) F) k0 (List.length K1)) as (k & _ & Hk).
  { rewrite Hend, !size_holding, HK', HK1, !app_length. lia. }
  destruct (stopped_gets E HE fetch fd limit k e n K F) as (K2 & F2 & Hs & Hg).
  destruct (proj1 (moments_before E HE fetch fd) _ _ _ Hg Hn _ _ _ Hr) as [rest2 E2].
  exists k, F2. rewrite Hs. rewrite stopped_snd in Hs. rewrite Hs, size_holding in Hk.
  rewrite HK' in E2. rewrite (prefixes _ _ _ _ _ E2 (eq_sym Hk)). reflexivity.
Qed.

(** ** Going on after references *)
Lemma references_again : forall E fetch fd ks K K0 U ps, reads_members E fetch fd ks K K0 U ps ->
  (forall k, In k ks -> wanted k <> None) -> forall L, incl K0 L -> reads_members E fetch fd ks L L [] ps.
Proof.
  intros E fetch fd ks. induction ks as [|k ks IH]; intros K K0 U ps H Hw L Hi.
  - inversion H; subst. constructor.
  - apply members_one in H. destruct H as (K1 & U1 & U2 & p & ps' & Hk & Hks & ->).
    apply (reads_more E fetch fd k ks L L L [] [] p ps').
    + assert (incl K1 L) as Hi1 by (intros x Hx; apply Hi, (proj1 (proj1 (proj2 (grows E fetch fd)) _ _ _ _ _ Hks)), Hx).
      assert (wanted k <> None) as Hwk by (apply Hw; left; reflexivity).
      destruct Hk as [k K K' U' p Hn _|k K p Hn Hp|base k r url d K K' U' q p _ _ Hn _ _ _ _ Hp].
      * congruence.
      * apply reads_known; [exact Hn|apply Hi1, Hp].
      * apply reads_known; [exact Hn|apply Hi1, Hp].
    + apply (IH K1 K0 U2 ps' Hks); [|exact Hi]. intros k' Hk'. apply Hw. right. exact Hk'.
Qed.
Lemma members_join : forall E fetch fd a b K K1 K2 U1 U2 ps1 ps2, reads_members E fetch fd a K K1 U1 ps1 ->
  reads_members E fetch fd b K1 K2 U2 ps2 -> reads_members E fetch fd (a ++ b) K K2 (U1 ++ U2) (ps1 ++ ps2).
Proof.
  intros E fetch fd a. induction a as [|k a IH]; intros b K K1 K2 U1 U2 ps1 ps2 H1 H2.
  - inversion H1; subst. exact H2.
  - inversion H1 as [|? ? ? M ? V1 V2 p ps Hk Hks]; subst. cbn [app]. rewrite <- app_assoc.
    apply (reads_more E fetch fd k _ K M K2 V1 (V2 ++ U2) p (ps ++ ps2) Hk). exact (IH b M K1 K2 V2 U2 ps ps2 Hks H2).
Qed.
Lemma go_on : forall E fetch fd n K K' U p before after K0 V qs, default_readers E -> NoDup (map name_of K) -> reads E fetch fd n K K' U p ->
  called "PolicySet" n = true -> members n = before ++ after -> (forall k, In k before -> wanted k <> None) ->
  reads_members E fetch fd before K K0 V qs -> exists W, reads E fetch fd n K0 K' W p.
Proof.
  intros E fetch fd n K K' U p before after K0 V qs HE Hn Hr Hc Hm Hw Hb.
  apply (proj1 (reads_set_iff E fetch fd n _ _ _ _ Hc)) in Hr. destruct Hr as (Hal & Kx & ps & Hq & Hsa & Hf & ->).
  rewrite Hm in Hq. apply members_app in Hq. destruct Hq as (Ka & U1 & U2 & ps1 & ps2 & Ha & Hrest & ->).
  destruct (proj1 (proj2 (determined E HE fetch fd)) _ _ _ _ _ Hb Hn _ _ _ Ha) as [-> ->].
  exists ([] ++ U2). apply (proj2 (reads_set_iff E fetch fd n _ _ _ _ Hc)). split; [exact Hal|]. exists Kx, (qs ++ ps2).
  split; [|auto]. rewrite Hm.
  apply (members_join E fetch fd before after K0 K0 Kx [] U2 qs ps2); [|exact Hrest].
  apply (references_again E fetch fd before K K0 V qs Hb Hw). intros x Hx; exact Hx.
Qed.
