(** Lemmas about loading policies: directories of paths, operations and histories. *)
From Coq Require Import Lia.
From Verif Require Import Sources SpecRead SpecText SpecSources ReadFacts ReadFacts3 ReadFacts4 SourcesFacts.
Open Scope string_scope.

(** ** Directories *)
Lemma app_empty : forall s, s ++ "" = s.
Proof. induction s as [|c s IH]; cbn; [|rewrite IH]; reflexivity. Qed.
Lemma app_assoc_str : forall a b c : string, (a ++ b) ++ c = a ++ b ++ c.
Proof. induction a as [|x a IH]; intros b c; cbn; [|rewrite IH]; reflexivity. Qed.

Lemma no_slash_cons : forall c s, ~ has_slash (String c s) <-> c <> "/"%char /\ ~ has_slash s.
Proof.
  intros c s. split.
  - intros H. split.
    + intros ->. apply H. exists "", s. reflexivity.
    + intros (a & b & ->). apply H. exists (String c a), b. reflexivity.
  - intros [H1 H2] (a & b & H). destruct a as [|x a]; cbn in H; injection H as Hc Hs.
    + apply H1, Hc.
    + apply H2. exists a, b. exact Hs.
Qed.
Lemma no_slash_nil : ~ has_slash "".
Proof. intros (a & b & H). destruct a; discriminate H. Qed.

Lemma upto_none : forall f, ~ has_slash f -> upto_slash f = "".
Proof.
  induction f as [|c f IH]; intros H; [reflexivity|]. apply no_slash_cons in H. destruct H as [Hc H].
  cbn [upto_slash]. rewrite IH by exact H. destruct (Ascii.eqb_spec c "/"); [contradiction|reflexivity].
Qed.
Lemma upto_some : forall a f, ~ has_slash f -> upto_slash (a ++ "/" ++ f) = a ++ "/".
Proof.
  intros a f H. induction a as [|c a IH]; cbn [append upto_slash].
  - rewrite upto_none by exact H. reflexivity.
  - cbn [append] in IH. rewrite IH. destruct (a ++ "/") as [|x y] eqn:E; [|reflexivity].
    destruct a; discriminate E.
Qed.
Lemma split_slash : forall p, ~ has_slash p \/ exists a f, p = a ++ "/" ++ f /\ ~ has_slash f.
Proof.
  induction p as [|c p IH]; [left; apply no_slash_nil|].
  destruct IH as [H|(a & f & -> & Hf)].
  - destruct (Ascii.eqb_spec c "/") as [->|N].
    + right. exists "", p. split; [reflexivity|exact H].
    + left. apply no_slash_cons. auto.
  - right. exists (String c a), f. split; [reflexivity|exact Hf].
Qed.

Lemma slashes_cons : forall s, slashes s -> slashes (String "/" s).
Proof. intros s [n ->]. exists (S n). reflexivity. Qed.
Lemma slashes_inv : forall c s, slashes (String c s) -> c = "/"%char /\ slashes s.
Proof. intros c s [[|n] H]; [discriminate H|]. cbn in H. injection H as -> ->. split; [reflexivity|exists n; reflexivity]. Qed.
Lemma slashes_snoc : forall s, slashes s -> slashes (s ++ "/").
Proof.
  intros s. induction s as [|c s IH]; intros H; [exists 1; reflexivity|].
  apply slashes_inv in H. destruct H as [-> H]. apply slashes_cons, IH, H.
Qed.
Lemma slashes_pre : forall a b, slashes (a ++ b) -> slashes a /\ slashes b.
Proof.
  induction a as [|c a IH]; intros b H; [split; [exists 0; reflexivity|exact H]|].
  apply slashes_inv in H. destruct H as [-> H]. apply IH in H. destruct H as [H1 H2].
  split; [apply slashes_cons, H1|exact H2].
Qed.
Lemma slashes_last : forall s, slashes s -> s <> "" -> exists s', s = s' ++ "/" /\ slashes s'.
Proof.
  induction s as [|c s IH]; intros H N; [congruence|]. apply slashes_inv in H. destruct H as [-> H].
  destruct s as [|x s].
  - exists "". split; [reflexivity|exists 0; reflexivity].
  - destruct (IH H) as (s' & E & Hs); [discriminate|]. exists (String "/" s').
    rewrite E. split; [reflexivity|apply slashes_cons, Hs].
Qed.

Lemma rstrip_slashes : forall s, slashes s -> rstrip_slash s = "".
Proof.
  induction s as [|c s IH]; intros H; [reflexivity|]. apply slashes_inv in H. destruct H as [-> H].
  cbn [rstrip_slash]. rewrite IH by exact H. reflexivity.
Qed.
Lemma rstrip_app : forall d s, slashes s -> (exists d' c, d = d' ++ String c "" /\ c <> "/"%char) ->
  rstrip_slash (d ++ s) = d.
Proof.
  intros d s Hs (d' & c & -> & Hc). rewrite app_assoc_str. cbn [append].
  induction d' as [|x d' IH]; cbn [append rstrip_slash].
  - rewrite rstrip_slashes by exact Hs. destruct (Ascii.eqb_spec c "/"); [contradiction|reflexivity].
  - rewrite IH. destruct (d' ++ String c "") eqn:E; [destruct d'; discriminate E|reflexivity].
Qed.
Lemma strip_cases : forall a, slashes a \/ exists d s, a = d ++ s /\ slashes s /\
  exists d' c, d = d' ++ String c "" /\ c <> "/"%char.
Proof.
  induction a as [|x a IH]; [left; exists 0; reflexivity|].
  destruct IH as [H|(d & s & -> & Hs & d' & c & -> & Hc)].
  - destruct (Ascii.eqb_spec x "/") as [->|N]; [left; apply slashes_cons, H|].
    right. exists (String x ""), a. split; [reflexivity|]. split; [exact H|]. exists "", x. split; [reflexivity|exact N].
  - right. exists (String x (d' ++ String c "")), s. split; [reflexivity|]. split; [exact Hs|].
    exists (String x d'), c. split; [reflexivity|exact Hc].
Qed.

Lemma nonempty_last : forall d, (exists d' c, d = d' ++ String c "" /\ c <> "/"%char) -> d <> "".
Proof. intros d ([|x d'] & c & -> & _); discriminate. Qed.

Lemma dirname_of : forall p d, directory p d -> dirname p = d.
Proof.
  intros p d [f Hf|s f Hs N Hf|d' s f Hs N Hf Hd]; unfold dirname.
  - rewrite upto_none by exact Hf. reflexivity.
  - destruct (slashes_last s Hs N) as (s' & -> & Hs'). rewrite app_assoc_str, upto_some by exact Hf.
    rewrite rstrip_slashes by (apply slashes_snoc, Hs'). reflexivity.
  - destruct (slashes_last s Hs N) as (s' & -> & Hs'). rewrite app_assoc_str, <- app_assoc_str, upto_some by exact Hf.
    rewrite app_assoc_str, rstrip_app; [|apply slashes_snoc, Hs'|exact Hd].
    destruct d' eqn:E; [|reflexivity]. destruct (nonempty_last _ Hd eq_refl).
Qed.
Lemma directory_total : forall p, exists d, directory p d.
Proof.
  intros p. destruct (split_slash p) as [H|(a & f & -> & Hf)]; [exists ""; apply dir_none, H|].
  rewrite <- app_assoc_str. destruct (strip_cases a) as [H|(d & s & -> & Hs & Hd)].
  - exists (a ++ "/"). apply dir_root; [apply slashes_snoc, H|destruct a; discriminate|exact Hf].
  - exists d. rewrite !app_assoc_str, <- (app_assoc_str s).
    apply dir_some; [apply slashes_snoc, Hs|destruct s; discriminate|exact Hf|exact Hd].
Qed.
Lemma dirname_iff : forall p d, dirname p = d <-> directory p d.
Proof.
  intros p d. split; [|apply dirname_of]. intros <-. destruct (directory_total p) as [d H].
  rewrite (dirname_of p d H). exact H.
Qed.

Lemma length_app_str : forall a b : string, String.length (a ++ b) = String.length a + String.length b.
Proof. induction a as [|x a IH]; intros b; cbn; [|rewrite IH]; reflexivity. Qed.
Lemma substring_last : forall d c, String.substring (String.length d) 1 (d ++ String c "") = String c "".
Proof. induction d as [|x d IH]; intros c; [reflexivity|]. cbn [String.length append String.substring]. apply IH. Qed.
Lemma under_dir : forall d u, (exists d' c, d = d' ++ String c "" /\ c <> "/"%char) -> under d u = d ++ "/" ++ u.
Proof.
  intros d u (d' & c & -> & Hc). unfold under.
  destruct (String.eqb_spec (d' ++ String c "") "") as [E|_]; [destruct d'; discriminate E|].
  rewrite length_app_str. cbn [String.length]. rewrite Nat.add_sub, substring_last.
  destruct (String.eqb_spec (String c "") "/") as [E|_]; [congruence|reflexivity].
Qed.

(** ** Lists *)
Lemma list_set_same : forall A i (x : A) l, i < List.length l -> nth_error (list_set i x l) i = Some x.
Proof.
  induction i as [|i IH]; intros x [|y l] H; cbn in *; try (inversion H; fail); [reflexivity|].
  apply IH. lia.
Qed.
Lemma list_set_other : forall A i j (x : A) l, i <> j -> nth_error (list_set i x l) j = nth_error l j.
Proof.
  induction i as [|i IH]; intros [|j] x [|y l] H; cbn; try reflexivity; try congruence. apply IH. congruence.
Qed.
Lemma list_set_length : forall A i (x : A) l, List.length (list_set i x l) = List.length l.
Proof. induction i as [|i IH]; intros x [|y l]; cbn; try reflexivity. now rewrite IH. Qed.
Lemma list_set_app : forall A (l : list A) x y, list_set (List.length l) y (l ++ [x])%list = (l ++ [y])%list.
Proof. induction l as [|z l IH]; intros x y; cbn; [|rewrite IH]; reflexivity. Qed.
Lemma nth_error_same : forall A i (l : list A) x, nth_error l i = Some x -> list_set i x l = l.
Proof. induction i as [|i IH]; intros [|y l] x H; cbn in *; try discriminate; [congruence|]. now rewrite (IH l x). Qed.

(** ** One operation *)
Section Ops.
Variable limit : nat.
Variable RE : renv.
Notation base_from_source := (base_from_source limit RE).
Notation step := (step limit RE).
Notation run := (Sources.run limit RE).

(** What PolicyBase.fromSource does. *)
Lemma base_cases : forall w s f fa st,
  (exists e, base_from_source w s f fa st = (Raise e, st)) \/
  (exists i fd fs n, f = FacETree /\ fa = FaFinder i /\ nth_error (ap_finders st) i = Some (fd, fs) /\
     parse_source w s = Ok n /\
     base_from_source w s f fa st =
       (fst (read_doc_s limit RE (w_fetch w) fd n fs),
        mkProgram (list_set i (fd, snd (read_doc_s limit RE (w_fetch w) fd n fs)) (ap_finders st)) (ap_pdps st))).
Proof.
  intros w s f fa st. unfold Sources.base_from_source.
  destruct f; cbn [get_reader]; try (left; eexists; reflexivity).
  destruct fa as [|i|t]; try (left; eexists; reflexivity).
  destruct (nth_error (ap_finders st) i) as [[fd fs]|] eqn:Ei; [|left; eexists; reflexivity].
  destruct (parse_source w s) as [n|e] eqn:Ep; [|left; eexists; reflexivity].
  right. exists i, fd, fs, n. repeat (split; [reflexivity || assumption|]).
  destruct (read_doc_s limit RE (w_fetch w) fd n fs); reflexivity.
Qed.
Lemma base_pdps : forall w s f fa st, ap_pdps (snd (base_from_source w s f fa st)) = ap_pdps st.
Proof.
  intros w s f fa st. destruct (base_cases w s f fa st) as [[e ->]|(i & fd & fs & n & _ & _ & _ & _ & ->)]; reflexivity.
Qed.

(** The finders: those there are keep their kind, what they hold and where. *)
Definition held (st : program) : Prop :=
  Forall (fun x => exists K F, snd x = mkFstate (holding K) F /\ NoDup (map name_of K)) (ap_finders st).

Lemma held_nth : forall st i fd fs, held st -> nth_error (ap_finders st) i = Some (fd, fs) ->
  exists K F, fs = mkFstate (holding K) F /\ NoDup (map name_of K).
Proof.
  intros st i fd fs H Hi. apply nth_error_In in Hi. unfold held in H. rewrite Forall_forall in H.
  exact (H (fd, fs) Hi).
Qed.

Lemma Forall_list_set : forall A (P : A -> Prop) i x l, P x -> Forall P l -> Forall P (list_set i x l).
Proof.
  intros A P i x l Hx H. revert i. induction H as [|y l Hy H IH]; intros [|i]; cbn; constructor; auto.
Qed.

Definition growing (st st' : program) : Prop :=
  forall i fd K F, nth_error (ap_finders st) i = Some (fd, mkFstate (holding K) F) -> NoDup (map name_of K) ->
    exists new urls, nth_error (ap_finders st') i = Some (fd, mkFstate (holding (K ++ new)) (F ++ urls)) /\
      NoDup (map name_of (K ++ new)).
Lemma growing_same : forall st st', ap_finders st' = ap_finders st -> growing st st'.
Proof.
  intros st st' H i fd K F Hi Hn. exists [], []. rewrite H, !app_nil_r. auto.
Qed.
Lemma growing_trans : forall a b c, growing a b -> growing b c -> growing a c.
Proof.
  intros a b c H1 H2 i fd K F Hi Hn. destruct (H1 i fd K F Hi Hn) as (n1 & u1 & Hi1 & Hn1).
  destruct (H2 i fd _ _ Hi1 Hn1) as (n2 & u2 & Hi2 & Hn2). exists (n1 ++ n2)%list, (u1 ++ u2)%list.
  rewrite !app_assoc. auto.
Qed.

Lemma base_held : forall w s f fa st, held st ->
  held (snd (base_from_source w s f fa st)) /\ growing st (snd (base_from_source w s f fa st)).
Proof.
  intros w s f fa st H. destruct (base_cases w s f fa st) as [[e ->]|(i & fd & fs & n & _ & _ & Hi & _ & ->)]; cbn [snd].
  - split; [exact H|apply growing_same; reflexivity].
  - split.
    + destruct (held_nth st i fd fs H Hi) as (K & F & -> & Hn).
      destruct (keeps_doc RE (w_fetch w) fd limit n K F Hn) as (new & urls & -> & Hn').
      unfold held in *. cbn [ap_finders]. apply Forall_list_set; [|exact H]. eexists _, _. split; [reflexivity|exact Hn'].
    + intros j fd' K' F' Hj Hnj. cbn [ap_finders]. destruct (Nat.eq_dec i j) as [<-|N].
      * rewrite list_set_same by (apply nth_error_Some; congruence). rewrite Hi in Hj. injection Hj as -> ->.
        destruct (keeps_doc RE (w_fetch w) fd' limit n K' F' Hnj) as (new & urls & -> & Hn').
        exists new, urls. auto.
      * rewrite list_set_other by exact N. exists [], []. rewrite !app_nil_r. auto.
Qed.
Lemma base_others : forall w s f fa st i, fa <> FaFinder i ->
  nth_error (ap_finders (snd (base_from_source w s f fa st))) i = nth_error (ap_finders st) i.
Proof.
  intros w s f fa st i N.
  destruct (base_cases w s f fa st) as [[e ->]|(j & fd & fs & n & _ & -> & Hj & _ & ->)]; [reflexivity|].
  cbn [snd ap_finders]. apply list_set_other. congruence.
Qed.
Lemma base_length : forall w s f fa st,
  List.length (ap_finders (snd (base_from_source w s f fa st))) = List.length (ap_finders st).
Proof.
  intros w s f fa st.
  destruct (base_cases w s f fa st) as [[e ->]|(j & fd & fs & n & _ & -> & Hj & _ & ->)]; [reflexivity|].
  cbn [snd ap_finders]. apply list_set_length.
Qed.

(** The default finder is new. *)
Definition load_default (w : world) (s : source) (f : factory_arg) (fd : finder) : res policybase :=
  let* _ := get_reader f in
  let* n := parse_source w s in
  fst (read_doc_s limit RE (w_fetch w) fd n fstate0).

Lemma base_default : forall w s f fd st,
  fst (base_from_source w s f (FaFinder (List.length (ap_finders st)))
         (mkProgram (ap_finders st ++ [(fd, fstate0)]) (ap_pdps st))) = load_default w s f fd.
Proof.
  intros w s f fd st. unfold Sources.base_from_source, load_default.
  destruct f; cbn [get_reader bind fst]; try reflexivity. cbn [ap_finders].
  rewrite nth_error_app2 by lia. rewrite Nat.sub_diag. cbn [nth_error].
  destruct (parse_source w s) as [n|e]; [|reflexivity]. cbn [bind].
  destruct (read_doc_s limit RE (w_fetch w) fd n fstate0); reflexivity.
Qed.

Lemma step_default : forall w s f fa st, fa = FaNone \/ fa = FaOther false ->
  step (OFromSource w s f fa) st =
  match default_finder w s with
  | Raise e => (Raise e, st)
  | Ok fd => match load_default w s f fd with
             | Ok p => (Ok tt, mkProgram (ap_finders st) (ap_pdps st ++ [Some p]))
             | Raise e => (Raise e, st)
             end
  end.
Proof.
  intros w s f fa st Hfa.
  assert (step (OFromSource w s f fa) st = match default_finder w s with
  | Raise e => (Raise e, st)
  | Ok fd =>
     let (r, st1) := (let (r, st1) := base_from_source w s f (FaFinder (List.length (ap_finders st)))
                                 (mkProgram (ap_finders st ++ [(fd, fstate0)]) (ap_pdps st)) in
                      match r with Raise e => (Raise e, st1) | Ok p => (Ok tt, new_pdp (Some p) st1) end) in
     (r, mkProgram (ap_finders st) (ap_pdps st1))
  end) as -> by (destruct Hfa as [->| ->]; reflexivity).
  destruct (default_finder w s) as [fd|e]; [|reflexivity].
  rewrite <- (base_default w s f fd st).
  pose proof (base_pdps w s f (FaFinder (List.length (ap_finders st)))
                (mkProgram (ap_finders st ++ [(fd, fstate0)]) (ap_pdps st))) as Hp.
  destruct (base_from_source w s f _ _) as [[p|e] st1]; cbn [fst snd ap_pdps] in *.
  - unfold new_pdp. cbn [ap_pdps]. rewrite Hp. reflexivity.
  - rewrite Hp. destruct st; reflexivity.
Qed.
Lemma step_given : forall w s f fa st, fa <> FaNone -> fa <> FaOther false ->
  step (OFromSource w s f fa) st =
  let (r, st1) := base_from_source w s f fa st in
  match r with Raise e => (Raise e, st1) | Ok p => (Ok tt, new_pdp (Some p) st1) end.
Proof. intros w s f [|i|[|]] st H1 H2; try congruence; reflexivity. Qed.
Lemma fa_cases : forall fa, (fa = FaNone \/ fa = FaOther false) \/ (fa <> FaNone /\ fa <> FaOther false).
Proof. intros [|i|[|]]; auto; right; split; discriminate. Qed.

(** Every operation keeps the invariant. *)
Lemma step_held : forall o st, held st -> held (snd (step o st)) /\ growing st (snd (step o st)).
Proof.
  intros o st H.
  assert (forall st', ap_finders st' = ap_finders st -> held st' /\ growing st st') as Hs.
  { intros st' E. split; [unfold held; rewrite E; exact H|apply growing_same, E]. }
  destruct o as [fd|x|w s f fa|j w s f fa|j x].
  - cbn [Sources.step snd]. split.
    + unfold held. cbn [ap_finders]. apply Forall_app. split; [exact H|]. constructor; [|constructor].
      exists [], []. split; [reflexivity|constructor].
    + intros i fd' K F Hi Hn. cbn [ap_finders]. exists [], []. rewrite !app_nil_r.
      rewrite nth_error_app1 by (apply nth_error_Some; congruence). auto.
  - cbn [Sources.step]. destruct (pdp_new x); apply Hs; reflexivity.
  - destruct (fa_cases fa) as [Hfa|[N1 N2]].
    + rewrite step_default by exact Hfa. destruct (default_finder w s); [|apply Hs; reflexivity].
      destruct (load_default w s f a); apply Hs; reflexivity.
    + rewrite step_given by assumption. pose proof (base_held w s f fa st H) as Hb.
      destruct (base_from_source w s f fa st) as [[p|e] st1]; exact Hb.
  - cbn [Sources.step]. destruct (nth_error (ap_pdps st) j); [|apply Hs; reflexivity].
    unfold set_from_source. pose proof (base_held w s f fa st H) as Hb.
    destruct (base_from_source w s f fa st) as [[p|e] st1]; exact Hb.
  - cbn [Sources.step]. destruct (nth_error (ap_pdps st) j); [|apply Hs; reflexivity].
    destruct (pdp_set o x) as [[u|e] v]; apply Hs; reflexivity.
Qed.

Lemma step_others : forall o st i, i < List.length (ap_finders st) -> (forall w s, ~ loads_with i o w s) ->
  nth_error (ap_finders (snd (step o st))) i = nth_error (ap_finders st) i.
Proof.
  intros o st i Hi N.
  destruct o as [fd|x|w s f fa|j w s f fa|j x].
  - cbn [Sources.step snd ap_finders]. apply nth_error_app1, Hi.
  - cbn [Sources.step]. destruct (pdp_new x); reflexivity.
  - destruct (fa_cases fa) as [Hfa|[N1 N2]].
    + rewrite step_default by exact Hfa. destruct (default_finder w s); [|reflexivity].
      destruct (load_default w s f a); reflexivity.
    + rewrite step_given by assumption.
      assert (nth_error (ap_finders (snd (base_from_source w s f fa st))) i = nth_error (ap_finders st) i) as Hb.
      { destruct (base_cases w s f fa st) as [[e ->]|(j & fd & fs & n & -> & -> & _)]; [reflexivity|].
        apply base_others. intros [= ->]. apply (N w s). constructor. }
      destruct (base_from_source w s f fa st) as [[p|e] st1]; exact Hb.
  - cbn [Sources.step]. destruct (nth_error (ap_pdps st) j); [|reflexivity]. unfold set_from_source.
    assert (nth_error (ap_finders (snd (base_from_source w s f fa st))) i = nth_error (ap_finders st) i) as Hb.
    { destruct (base_cases w s f fa st) as [[e ->]|(j' & fd & fs & n & -> & -> & _)]; [reflexivity|].
      apply base_others. intros [= ->]. apply (N w s). constructor. }
    destruct (base_from_source w s f fa st) as [[p|e] st1]; exact Hb.
  - cbn [Sources.step]. destruct (nth_error (ap_pdps st) j) as [self|]; [|reflexivity].
    destruct (pdp_set self x) as [[u|e] v]; reflexivity.
Qed.

(** An operation that raises changes no PDP. *)
Lemma step_failed : forall o st e st', step o st = (Raise e, st') -> ap_pdps st' = ap_pdps st.
Proof.
  intros o st e st' H.
  destruct o as [fd|x|w s f fa|j w s f fa|j x].
  - discriminate H.
  - cbn [Sources.step] in H. destruct (pdp_new x); [discriminate H|]. injection H as _ <-. reflexivity.
  - destruct (fa_cases fa) as [Hfa|[N1 N2]].
    + rewrite step_default in H by exact Hfa. destruct (default_finder w s); [|injection H as _ <-; reflexivity].
      destruct (load_default w s f a); [discriminate H|]. injection H as _ <-. reflexivity.
    + rewrite step_given in H by assumption. pose proof (base_pdps w s f fa st) as Hb.
      destruct (base_from_source w s f fa st) as [[p|e'] st1]; [discriminate H|]. injection H as _ <-. exact Hb.
  - cbn [Sources.step] in H. destruct (nth_error (ap_pdps st) j); [|injection H as _ <-; reflexivity].
    unfold set_from_source in H. pose proof (base_pdps w s f fa st) as Hb.
    destruct (base_from_source w s f fa st) as [[p|e'] st1]; [discriminate H|]. injection H as _ <-. exact Hb.
  - cbn [Sources.step] in H. destruct (nth_error (ap_pdps st) j) as [self|] eqn:Ej; [|injection H as _ <-; reflexivity].
    destruct x as [p|y]; cbn [pdp_set] in H; [discriminate H|]. injection H as _ <-.
    unfold put. cbn [ap_pdps]. apply nth_error_same, Ej.
Qed.

(** What a successful read has read. *)
Lemma read_ok : forall w fd n K F p, default_readers RE ->
  fst (read_doc_s limit RE (w_fetch w) fd n (mkFstate (holding K) F)) = Ok p ->
  exists K' urls, reads RE (w_fetch w) fd n K K' urls p /\
    snd (read_doc_s limit RE (w_fetch w) fd n (mkFstate (holding K) F)) = mkFstate (holding K') (F ++ urls).
Proof.
  intros w fd n K F p HE H. pose proof (agree_doc RE (w_fetch w) fd limit n (mkFstate (holding K) F)) as A.
  destruct (read_doc limit RE (w_fetch w) fd n (mkFstate (holding K) F)) as [[q st']|e] eqn:Er; cbn in A.
  - rewrite A in H. cbn in H. injection H as ->.
    destruct (doc_sound RE HE (w_fetch w) fd limit n K F p st' Er) as (K' & U & Hr & ->).
    exists K', U. rewrite A. auto.
  - congruence.
Qed.

(** A successful operation gives its policy to the PDP it is about, and only to it. *)
Lemma base_gives : forall w s f fa st p st1, default_readers RE -> held st ->
  base_from_source w s f fa st = (Ok p, st1) ->
  exists i fd K K' urls n, f = FacETree /\ fa = FaFinder i /\ finder_holds st i fd K /\
    parse_source w s = Ok n /\ reads RE (w_fetch w) fd n K K' urls p /\ finder_holds st1 i fd K'.
Proof.
  intros w s f fa st p st1 HE H Hb.
  destruct (base_cases w s f fa st) as [[e E]|(i & fd & fs & n & -> & -> & Hi & Hn & E)]; rewrite E in Hb; [discriminate Hb|].
  destruct (held_nth st i fd fs H Hi) as (K & F & -> & Hd). injection Hb as Hp <-.
  destruct (read_ok w fd n K F p HE Hp) as (K' & urls & Hr & Hs).
  exists i, fd, K, K', urls, n. split; [reflexivity|]. split; [reflexivity|]. split; [split; [exact Hd|exists F; exact Hi]|].
  split; [exact Hn|]. split; [exact Hr|].
  split; [apply (proj1 (complete_mut RE HE (w_fetch w) fd) _ _ _ _ _ Hr Hd)|]. exists (F ++ urls)%list. cbn [ap_finders].
  rewrite list_set_same by (apply nth_error_Some; congruence). rewrite Hs. reflexivity.
Qed.

Lemma nth_new : forall A (l : list A) x j, nth_error (l ++ [x])%list j =
  if Nat.eqb j (List.length l) then Some x else nth_error l j.
Proof.
  intros A l x j. destruct (Nat.eqb_spec j (List.length l)) as [->|N].
  - rewrite nth_error_app2, Nat.sub_diag by lia. reflexivity.
  - destruct (Nat.lt_ge_cases j (List.length l)) as [H|H]; [apply nth_error_app1, H|].
    assert (nth_error l j = None) as -> by (apply nth_error_None; lia).
    apply nth_error_None. rewrite app_length. cbn. lia.
Qed.

Lemma step_gives : forall o st st', default_readers RE -> held st -> step o st = (Ok tt, st') ->
  (forall j, about o st j -> exists x, gives RE st o x /\ nth_error (ap_pdps st') j = Some x) /\
  (forall j, ~ about o st j -> nth_error (ap_pdps st') j = nth_error (ap_pdps st) j).
Proof.
  intros o st st' HE H Hs.
  destruct o as [fd|x|w s f fa|j w s f fa|j x].
  - cbn [Sources.step] in Hs. injection Hs as <-. split; [intros j []|reflexivity].
  - cbn [Sources.step] in Hs. cbn [about].
    assert (exists v, st' = new_pdp v st /\ gives RE st (ONewPdp x) v) as (v & -> & Hg).
    { destruct x as [[p|y]|]; cbn [pdp_new pdp_set] in Hs; try discriminate Hs; injection Hs as <-;
        eexists; (split; [reflexivity|constructor]). }
    split; intros j Hj; cbn [new_pdp ap_pdps]; rewrite nth_new.
    + exists v. subst j. rewrite Nat.eqb_refl. auto.
    + destruct (Nat.eqb_spec j (List.length (ap_pdps st))); [contradiction|reflexivity].
  - cbn [about].
    assert (exists p, ap_pdps st' = (ap_pdps st ++ [Some p])%list /\ gives RE st (OFromSource w s f fa) (Some p)) as (p & Ep & Hg).
    { destruct (fa_cases fa) as [Hfa|[N1 N2]].
      - rewrite step_default in Hs by exact Hfa. destruct s as [path|n|k]; cbn [default_finder] in Hs; try discriminate Hs.
        set (base := if w_exists w path then Some (dirname path) else None) in *.
        destruct (load_default w (SText path) f (UrlFinder base)) as [p|e] eqn:El; [|discriminate Hs].
        injection Hs as <-. exists p. split; [reflexivity|]. unfold load_default in El.
        destruct f; cbn [get_reader bind parse_source] in El; try discriminate El.
        destruct (w_file w path) as [n|e] eqn:Ef; [|discriminate El]. cbn [bind] in El.
        destruct (read_ok w _ n [] [] p HE El) as (K' & urls & Hr & _).
        apply (gives_path RE st w path n fa base K' urls p Hfa Ef); [|exact Hr].
        subst base. destruct (w_exists w path); [left|right]; (split; [reflexivity|]); [|reflexivity].
        exists (dirname path). split; [reflexivity|]. apply dirname_iff. reflexivity.
      - rewrite step_given in Hs by assumption. pose proof (base_pdps w s f fa st) as Hb.
        destruct (base_from_source w s f fa st) as [[p|e] st1] eqn:Eb; [|discriminate Hs].
        injection Hs as <-. exists p. cbn [snd] in Hb. unfold new_pdp. cbn [ap_pdps]. rewrite Hb. split; [reflexivity|].
        destruct (base_gives w s f fa st p st1 HE H Eb) as (i & fd & K & K' & urls & n & -> & -> & Hf & Hn & Hr & _).
        eapply gives_finder; [apply loads_new|exact Hn|exact Hf|exact Hr]. }
    rewrite Ep. split; intros j Hj; rewrite nth_new.
    + exists (Some p). subst j. rewrite Nat.eqb_refl. auto.
    + destruct (Nat.eqb_spec j (List.length (ap_pdps st))); [contradiction|reflexivity].
  - cbn [about]. cbn [Sources.step] in Hs. destruct (nth_error (ap_pdps st) j) eqn:Ej; [|discriminate Hs].
    unfold set_from_source in Hs. pose proof (base_pdps w s f fa st) as Hb.
    destruct (base_from_source w s f fa st) as [[p|e] st1] eqn:Eb; [|discriminate Hs]. injection Hs as <-.
    cbn [snd] in Hb. unfold put. cbn [ap_pdps]. rewrite Hb. split; intros j' Hj.
    + subst j'. exists (Some p). split; [|apply list_set_same, nth_error_Some; congruence].
      destruct (base_gives w s f fa st p st1 HE H Eb) as (i & fd & K & K' & urls & n & -> & -> & Hf & Hn & Hr & _).
      eapply gives_finder; [apply loads_set|exact Hn|exact Hf|exact Hr].
    + apply list_set_other. congruence.
  - cbn [about]. cbn [Sources.step] in Hs. destruct (nth_error (ap_pdps st) j) eqn:Ej; [|discriminate Hs].
    destruct x as [p|y]; cbn [pdp_set] in Hs; [|discriminate Hs]. injection Hs as <-. unfold put. cbn [ap_pdps].
    split; intros j' Hj.
    + subst j'. exists (Some p). split; [constructor|apply list_set_same, nth_error_Some; congruence].
    + apply list_set_other. congruence.
Qed.

(** A load with a finder: what it needs and what it leaves. *)
Lemma step_load : forall i o w s st st', default_readers RE -> held st -> loads_with i o w s ->
  step o st = (Ok tt, st') ->
  exists fd K K' urls n p, finder_holds st i fd K /\ parse_source w s = Ok n /\
    reads RE (w_fetch w) fd n K K' urls p /\ finder_holds st' i fd K'.
Proof.
  intros i o w s st st' HE H Hl Hs. destruct Hl as [w s|j w s].
  - rewrite step_given in Hs by discriminate.
    destruct (base_from_source w s FacETree (FaFinder i) st) as [[p|e] st1] eqn:Eb; [|discriminate Hs]. injection Hs as <-.
    destruct (base_gives _ _ _ _ _ _ _ HE H Eb) as (i' & fd & K & K' & urls & n & _ & [= ->] & Hf & Hn & Hr & Hf').
    exists fd, K, K', urls, n, p. auto 6.
  - cbn [Sources.step] in Hs. destruct (nth_error (ap_pdps st) j); [|discriminate Hs]. unfold set_from_source in Hs.
    destruct (base_from_source w s FacETree (FaFinder i) st) as [[p|e] st1] eqn:Eb; [|discriminate Hs]. injection Hs as <-.
    destruct (base_gives _ _ _ _ _ _ _ HE H Eb) as (i' & fd & K & K' & urls & n & _ & [= ->] & Hf & Hn & Hr & Hf').
    exists fd, K, K', urls, n, p. auto 6.
Qed.

(** ** Histories *)
Lemma run_held : forall ops st, held st -> held (snd (run ops st)) /\ growing st (snd (run ops st)).
Proof.
  induction ops as [|o ops IH]; intros st H; cbn [Sources.run].
  - split; [exact H|apply growing_same; reflexivity].
  - destruct (step_held o st H) as [H1 H2]. destruct (step o st) as [r st1]. cbn [snd] in *.
    destruct (IH st1 H1) as [H3 H4]. destruct (run ops st1) as [rs st2]. cbn [snd] in *.
    split; [exact H3|apply growing_trans with st1; assumption].
Qed.
Lemma held0 : held program0.
Proof. constructor. Qed.
Lemma run_app : forall a b st, snd (run (a ++ b)%list st) = snd (run b (snd (run a st))).
Proof.
  induction a as [|o a IH]; intros b st; [reflexivity|]. cbn [app Sources.run].
  destruct (step o st) as [r st1]. specialize (IH b st1).
  destruct (run (a ++ b)%list st1) as [rs st2]. destruct (run a st1) as [rs' st3]. cbn [snd] in *. exact IH.
Qed.
Lemma run_one : forall o st, snd (run [o] st) = snd (step o st).
Proof. intros o st. cbn [Sources.run]. destruct (step o st). reflexivity. Qed.

Lemma undisturbed_snoc : forall j ops o st, undisturbed limit RE j ops st ->
  (about o (snd (run ops st)) j -> exists e, fst (step o (snd (run ops st))) = Raise e) ->
  undisturbed limit RE j (ops ++ [o])%list st.
Proof.
  intros j. induction ops as [|x ops IH]; intros o st H Ho; cbn [app undisturbed]; [auto|].
  destruct H as [H1 H2]. split; [exact H1|]. apply IH; [exact H2|].
  cbn [Sources.run] in Ho. destruct (step x st) as [r st1]. cbn [snd] in *.
  destruct (run ops st1) as [rs st2]. cbn [snd] in *. exact Ho.
Qed.

Lemma about_dec : forall o st j, about o st j \/ ~ about o st j.
Proof.
  intros [fd|x|w s f fa|i w s f fa|i x] st j; cbn [about]; auto;
    match goal with |- j = ?k \/ _ => destruct (Nat.eq_dec j k); auto end.
Qed.

Lemma in_force : forall ops j x, default_readers RE ->
  nth_error (ap_pdps (snd (run ops program0))) j = Some x ->
  exists ops1 o ops2, ops = (ops1 ++ o :: ops2)%list /\
    fst (step o (snd (run ops1 program0))) = Ok tt /\ about o (snd (run ops1 program0)) j /\
    gives RE (snd (run ops1 program0)) o x /\
    undisturbed limit RE j ops2 (snd (run (ops1 ++ [o])%list program0)).
Proof.
  intros ops j x HE. revert x. induction ops as [|o ops IH] using rev_ind; intros x Hx.
  - destruct j; discriminate Hx.
  - rewrite run_app, run_one in Hx.
    destruct (run_held ops program0 held0) as [Hh _].
    destruct (step o (snd (run ops program0))) as [[[]|e] st'] eqn:Es; cbn [snd] in Hx.
    + destruct (step_gives o _ st' HE Hh Es) as [H1 H2].
      destruct (about_dec o (snd (run ops program0)) j) as [Ha|Ha].
      * destruct (H1 j Ha) as (y & Hg & Hy). rewrite Hy in Hx. injection Hx as ->.
        exists ops, o, []. rewrite Es. repeat (split; [reflexivity || assumption|]). exact I.
      * rewrite H2 in Hx by exact Ha. destruct (IH x Hx) as (o1 & o' & o2 & -> & A & B & C & D).
        exists o1, o', (o2 ++ [o])%list. rewrite <- app_assoc. cbn [app]. repeat (split; [reflexivity || assumption|]).
        apply undisturbed_snoc; [exact D|]. rewrite <- run_app, <- app_assoc. cbn [app]. intros Ha'. contradiction.
    + rewrite (step_failed _ _ _ _ Es) in Hx. destruct (IH x Hx) as (o1 & o' & o2 & -> & A & B & C & D).
      exists o1, o', (o2 ++ [o])%list. rewrite <- app_assoc. cbn [app]. repeat (split; [reflexivity || assumption|]).
      apply undisturbed_snoc; [exact D|]. rewrite <- run_app, <- app_assoc. cbn [app]. intros _. exists e. rewrite Es. reflexivity.
Qed.

(** What has been read with a finder is not read with it again. *)
Lemma reads_fresh : forall fetch fd n K K' urls p, reads RE fetch fd n K K' urls p ->
  ~ In (name_of p) (map name_of K).
Proof.
  intros fetch fd n K K' urls p H. destruct H as [n K p Hd Hf|n K K' urls id ai alg de t ps p Hc Hal Hid Hai Ha Hde Ht Hr -> Hf].
  - exact Hf.
  - intros Hi. apply Hf. apply in_map_iff in Hi. destruct Hi as (q & Hq & Hin). apply in_map_iff. exists q.
    split; [exact Hq|]. destruct (proj1 (proj2 (grows RE fetch fd)) _ _ _ _ _ Hr) as [Hg _]. apply Hg, Hin.
Qed.
Lemma once : forall i o1 w1 s1 n1 o2 w2 s2 n2 ops st, default_readers RE -> held st ->
  loads_with i o1 w1 s1 -> parse_source w1 s1 = Ok n1 -> fst (step o1 st) = Ok tt ->
  loads_with i o2 w2 s2 -> parse_source w2 s2 = Ok n2 -> root_name n2 = root_name n1 ->
  exists e, fst (step o2 (snd (run ops (snd (step o1 st))))) = Raise e.
Proof.
  intros i o1 w1 s1 n1 o2 w2 s2 n2 ops st HE H L1 P1 S1 L2 P2 R.
  destruct (step_held o1 st H) as [H1 _].
  destruct (step o1 st) as [r st1] eqn:E1. cbn [fst snd] in *. subst r.
  destruct (step_load i o1 w1 s1 st st1 HE H L1 E1) as (fd & K & K' & urls & m1 & p & Hf & Hn & Hr & Hf').
  rewrite P1 in Hn. injection Hn as <-.
  destruct (run_held ops st1 H1) as [H2 G2].
  destruct Hf' as [Hd' [F' Hf']].
  destruct (G2 i fd K' F' Hf' Hd') as (new & u & Hi & Hdn).
  destruct (step o2 (snd (run ops st1))) as [[[]|e] st3] eqn:E2; [|exists e; reflexivity]. exfalso.
  destruct (step_load i o2 w2 s2 _ st3 HE H2 L2 E2) as (fd2 & K2 & K2' & urls2 & m2 & p2 & [_ [F2 Hf2]] & Hn2 & Hr2 & _).
  rewrite P2 in Hn2. injection Hn2 as <-.
  rewrite Hi in Hf2.
  assert (fd = fd2) as <- by congruence.
  assert (holding (K' ++ new) = holding K2) as HK by congruence.
  apply (reads_fresh _ _ _ _ _ _ _ Hr2).
  rewrite (root_of RE (w_fetch w2) fd _ _ _ _ _ Hr2), R, <- (root_of RE (w_fetch w1) fd _ _ _ _ _ Hr).
  destruct (proj1 (grows RE (w_fetch w1) fd) _ _ _ _ _ Hr) as [_ Hin].
  destruct (lookup (name_of p) K2) eqn:El.
  - apply lookup_some in El. destruct El as [A B]. rewrite <- B. apply in_map, A.
  - exfalso. assert (lookup (name_of p) (K' ++ new) = None) as El'.
    { revert El. unfold lookup. rewrite HK. auto. }
    apply lookup_none in El'. apply El'. rewrite map_app, in_app_iff. left. apply in_map, Hin.
Qed.
End Ops.

(** ** Success, when the source can be read *)
Lemma loads_ok : forall RE w fd n K K' urls p, default_readers RE -> NoDup (map name_of K) ->
  reads RE (w_fetch w) fd n K K' urls p ->
  exists L, forall limit, L <= limit -> forall F,
    read_doc_s limit RE (w_fetch w) fd n (mkFstate (holding K) F) = (Ok p, mkFstate (holding K') (F ++ urls)).
Proof.
  intros RE w fd n K K' urls p HE Hd Hr.
  destruct (proj1 (complete_mut RE HE (w_fetch w) fd) _ _ _ _ _ Hr Hd) as [_ [L HL]].
  exists L. intros limit Hl F. pose proof (agree_doc RE (w_fetch w) fd limit n (mkFstate (holding K) F)) as A.
  rewrite (HL limit Hl F) in A. exact A.
Qed.
Lemma step_possible : forall RE o st x, default_readers RE -> gives RE st o x ->
  (forall j, about o st j -> match o with OSetFromSource _ _ _ _ _ | OSetPolicy _ _ => j < List.length (ap_pdps st) | _ => True end) ->
  exists L, forall limit, L <= limit -> fst (step limit RE o st) = Ok tt.
Proof.
  intros RE o st x HE Hg Hj. destruct Hg as [|p|j p|i o w s n fd K K' urls p Hl Hn [Hd [F Hf]] Hr|w path n fa base K' urls p Hfa Hn Hb Hr].
  - exists 0. intros limit _. reflexivity.
  - exists 0. intros limit _. reflexivity.
  - exists 0. intros limit _. cbn [step]. specialize (Hj j eq_refl). cbn in Hj. apply nth_error_Some in Hj.
    destruct (nth_error (ap_pdps st) j); [reflexivity|congruence].
  - destruct (loads_ok RE w fd n K K' urls p HE Hd Hr) as [L HL].
    exists L. intros limit Hlim. destruct Hl as [w s|j w s].
    + rewrite step_given by discriminate. unfold base_from_source. cbn [get_reader]. rewrite Hf, Hn, (HL limit Hlim F). reflexivity.
    + specialize (Hj j eq_refl). cbn in Hj. apply nth_error_Some in Hj. cbn [step].
      destruct (nth_error (ap_pdps st) j); [|congruence]. unfold set_from_source, base_from_source.
      cbn [get_reader]. rewrite Hf, Hn, (HL limit Hlim F). reflexivity.
  - assert (NoDup (map name_of [])) as Hd by constructor.
    destruct (loads_ok RE w _ n [] K' urls p HE Hd Hr) as [L HL].
    exists L. intros limit Hlim. rewrite step_default by exact Hfa. cbn [default_finder].
    assert ((if w_exists w path then Some (dirname path) else None) = base) as ->.
    { destruct Hb as [[-> (d & -> & Hdir)]|[-> ->]]; [|reflexivity]. f_equal. apply dirname_iff, Hdir. }
    unfold load_default. cbn [get_reader bind parse_source]. rewrite Hn. cbn [bind].
    change fstate0 with (mkFstate (holding []) []). rewrite (HL limit Hlim []). reflexivity.
Qed.
