(** Facts about names of modules and objects, and about the reader registry. *)
From Verif Require Import Factory SpecFactory StringFacts.
From Coq Require Import Lia.

Local Open Scope string_scope.

Lemma free_cons : forall c x s, free_of c (String x s) -> x <> c /\ free_of c s.
Proof.
  intros c x s F. split.
  - intros ->. apply (F "" s). reflexivity.
  - intros a b E. apply (F (String x a) b). cbn. f_equal. exact E.
Qed.

Lemma free_has_char : forall c s, free_of c s -> has_char c s = false.
Proof.
  intros c s F. destruct (has_char c s) eqn:H; [|reflexivity]. exfalso.
  apply has_char_split in H. destruct H as (a & b & -> & _). exact (F a b eq_refl).
Qed.

Lemma rsplit_free : forall c s, free_of c s -> rsplit1 c s = None.
Proof.
  intros c s. induction s as [|x s IH]; intros F; [reflexivity|].
  apply free_cons in F. destruct F as [D F]. cbn. rewrite (IH F).
  apply Ascii.eqb_neq in D. rewrite D. reflexivity.
Qed.

Lemma rsplit_last : forall c a b, free_of c b -> rsplit1 c (a ++ String c b) = Some (a, b).
Proof.
  intros c a b F. induction a as [|x a IH]; cbn.
  - rewrite (rsplit_free c b F), Ascii.eqb_refl. reflexivity.
  - rewrite IH. reflexivity.
Qed.

Lemma rsplit_none : forall c s, rsplit1 c s = None -> free_of c s.
Proof.
  intros c s H a b ->. induction a as [|x a IH]; cbn in H.
  - destruct (rsplit1 c b) as [[]|]; [discriminate H|]. rewrite Ascii.eqb_refl in H. discriminate H.
  - destruct (rsplit1 c (a ++ String c b)) as [[]|]; [discriminate H|]. apply IH. reflexivity.
Qed.

Lemma free_app : forall c a b, free_of c a -> free_of c b -> free_of c (a ++ b).
Proof.
  intros c a b A B. apply rsplit_none. induction a as [|x a IH]; cbn.
  - apply rsplit_free, B.
  - apply free_cons in A. destruct A as [D A]. rewrite (IH A).
    apply Ascii.eqb_neq in D. rewrite D. reflexivity.
Qed.

Lemma free_cons_intro : forall c x s, x <> c -> free_of c s -> free_of c (String x s).
Proof.
  intros c x s D F. apply rsplit_none. cbn. rewrite (rsplit_free c s F).
  apply Ascii.eqb_neq in D. rewrite D. reflexivity.
Qed.

Lemma dotted_free : forall c rest n, c <> "."%char -> free_of c n -> Forall (free_of c) rest ->
  free_of c (dotted n rest).
Proof.
  intros c rest. induction rest as [|x rest IH]; intros n D F R; cbn; [exact F|].
  inversion R; subst. apply free_app; [exact F|]. apply free_cons_intro; [congruence|]. apply IH; assumption.
Qed.

Lemma split_dotted : forall rest n, free_of "." n -> Forall (free_of ".") rest ->
  py_split "." (dotted n rest) = n :: rest.
Proof.
  induction rest as [|x rest IH]; intros n F R; cbn [dotted].
  - apply split_char_none, free_has_char, F.
  - inversion R; subst. change ("." ++ dotted x rest) with (String "." (dotted x rest)).
    rewrite split_char_app by (apply free_has_char, F). rewrite IH by assumption. reflexivity.
Qed.

Lemma has_char_dotted : forall x rest n, has_char "." (dotted n (x :: rest)) = true.
Proof. intros x rest n. cbn [dotted]. rewrite has_char_app. cbn. apply Bool.orb_true_r. Qed.

Section Facts.
Variables obj mods : Type.
Variable import_module : string -> interp mods -> res obj * interp mods.
Variable get_attribute : interp mods -> obj -> string -> res obj.
Variable is_subclass : obj -> obj -> res bool.

Lemma get_path_follows : forall w names o o',
  get_path obj mods get_attribute w o names = Ok o' <-> follows obj mods get_attribute w o names o'.
Proof.
  intros w names. induction names as [|n names IH]; intros o o'; cbn.
  - split; [intros E; injection E as ->; constructor | intros F; inversion F; reflexivity].
  - destruct (get_attribute w o n) as [o1|e] eqn:G; cbn.
    + rewrite IH. split; [intros F; econstructor; eassumption|].
      intros F. inversion F; subst. congruence.
    + split; [discriminate|]. intros F. inversion F; subst. congruence.
Qed.

Lemma follows_app : forall w a b o o', follows obj mods get_attribute w o (a ++ b) o' <->
  exists m, follows obj mods get_attribute w o a m /\ follows obj mods get_attribute w m b o'.
Proof.
  intros w a. induction a as [|n a IH]; intros b o o'; cbn.
  - split; [intros F; exists o; split; [constructor | exact F]|].
    intros (m & F & G). inversion F; subst. exact G.
  - split.
    + intros F. inversion F; subst. apply IH in H4. destruct H4 as (m & A & B).
      exists m. split; [econstructor; eassumption | exact B].
    + intros (m & F & G). inversion F; subst. econstructor; [eassumption|]. apply IH. eauto.
Qed.

Notation import_obj := (import_module_object obj mods import_module get_attribute is_subclass).

Lemma import_ok : forall m path t w o w' n,
  split_name m n = Ok path ->
  import_obj m n t w = (Ok o, w') <->
  exists top, import_module (fst path) w = (Ok top, w') /\
    follows obj mods get_attribute w' top (tl (py_split "." (fst path)) ++ snd path) o /\
    of_type obj is_subclass t o.
Proof.
  intros m [mn path] t w o w' n S. unfold import_module_object. rewrite S. cbn [fst snd].
  destruct (import_module mn w) as [r w1]. split.
  - intros E. injection E as E <-. destruct r as [top|e]; [|discriminate E]. cbn in E.
    exists top. split; [reflexivity|].
    destruct (get_path _ _ get_attribute w1 top (tl (py_split "." mn))) as [md|e] eqn:G1; [|discriminate E].
    cbn in E. destruct (get_path _ _ get_attribute w1 md path) as [x|e] eqn:G2; [|discriminate E]. cbn in E.
    assert (x = o /\ of_type obj is_subclass t o) as [-> T].
    { destruct t as [t|]; [|injection E as ->; split; [reflexivity | exact I]].
      cbn. destruct (is_subclass x t) as [[]|e] eqn:Q; [|discriminate E|discriminate E].
      injection E as <-. auto. }
    split; [|exact T]. apply follows_app. exists md. rewrite <- !get_path_follows. auto.
  - intros (top & E & F & T). injection E as -> ->. cbn. apply follows_app in F.
    destruct F as (md & A & B). rewrite <- get_path_follows in A, B. rewrite A. cbn. rewrite B. cbn.
    destruct t as [t|]; [|reflexivity]. cbn in T. rewrite T. reflexivity.
Qed.

Lemma split_paste : forall m n rest, free_of ":" n -> free_of "." n ->
  Forall (free_of ":") rest -> Forall (free_of ".") rest ->
  split_name (m ++ ":" ++ dotted n rest) None = Ok (m, n :: rest).
Proof.
  intros m n rest C D Cr Dr. unfold split_name.
  change (m ++ ":" ++ dotted n rest) with (m ++ String ":" (dotted n rest)).
  rewrite rsplit_last by (apply dotted_free; [discriminate | exact C | exact Cr]).
  destruct rest as [|x rest].
  - cbn [dotted]. rewrite (free_has_char _ _ D). reflexivity.
  - rewrite has_char_dotted, split_dotted by assumption. reflexivity.
Qed.

Lemma split_dot : forall m n, free_of ":" m -> free_of ":" n -> free_of "." n ->
  split_name (m ++ "." ++ n) None = Ok (m, [n]).
Proof.
  intros m n M C D. unfold split_name.
  change (m ++ "." ++ n) with (m ++ String "." n).
  rewrite (rsplit_free ":"), rsplit_last by
    (first [exact D | apply free_app; [exact M | apply free_cons_intro; [discriminate | exact C]]]).
  reflexivity.
Qed.

(** ** The registry of readers *)
Variable same : obj -> obj -> bool.
Variables core_base abstract_reader : obj.
Hypothesis same_refl : forall k, same k k = true.
Hypothesis same_sym : forall a b, same a b = same b a.
Hypothesis same_trans : forall a b c, same a b = true -> same b c = true -> same a c = true.

Notation rget := (reader_get obj same).
Notation rset := (reader_set obj same).

Lemma same_swap : forall k k' j, same k k' = true -> same k j = same k' j.
Proof.
  intros k k' j E. destruct (same k' j) eqn:H.
  - eapply same_trans; eassumption.
  - destruct (same k j) eqn:G; [|reflexivity]. rewrite same_sym in E.
    rewrite (same_trans _ _ _ E G) in H. discriminate H.
Qed.

Lemma rget_set : forall k k' v m,
  rget k (rset k' v m) = if same k k' then Some v else rget k m.
Proof.
  intros k k' v m. induction m as [|[x y] m IH]; cbn; [reflexivity|].
  destruct (same k' x) eqn:E; cbn.
  - rewrite (same_sym k k'), <- (same_swap x k' k) by (rewrite same_sym; exact E).
    rewrite (same_sym x k). destruct (same k x); reflexivity.
  - rewrite IH. destruct (same k x) eqn:F; [|reflexivity].
    destruct (same k k') eqn:G; [|reflexivity]. exfalso.
    rewrite <- (same_swap k k' x G), F in E. discriminate E.
Qed.

Definition accepts (e : obj * obj) : bool :=
  match is_subclass (fst e) core_base, is_subclass (snd e) abstract_reader with
  | Ok true, Ok true => true
  | _, _ => false
  end.

Lemma accepts_iff : forall e, accepts e = true <-> accepted obj is_subclass core_base abstract_reader e.
Proof.
  intros [k v]. unfold accepts, accepted. cbn.
  destruct (is_subclass k core_base) as [[]|]; destruct (is_subclass v abstract_reader) as [[]|];
    split; intros H; try discriminate H; try (destruct H; discriminate); auto.
Qed.

Lemma add_reader_eq : forall k v m,
  add_reader obj is_subclass same core_base abstract_reader k v m =
    if accepts (k, v) then (Ok tt, rset k v m)
    else (fst (add_reader obj is_subclass same core_base abstract_reader k v m), m).
Proof.
  intros k v m. unfold add_reader, type_filter, accepts. cbn.
  destruct (is_subclass k core_base) as [[]|]; destruct (is_subclass v abstract_reader) as [[]|]; reflexivity.
Qed.

Lemma add_reader_raises : forall k v m, accepts (k, v) = false ->
  exists e, add_reader obj is_subclass same core_base abstract_reader k v m = (Raise e, m) /\
    (is_subclass k core_base = Raise e \/ (is_subclass k core_base = Ok false /\ e = ETypeError) \/
     (is_subclass k core_base = Ok true /\
      (is_subclass v abstract_reader = Raise e \/ (is_subclass v abstract_reader = Ok false /\ e = ETypeError)))).
Proof.
  intros k v m. unfold add_reader, type_filter, accepts. cbn.
  destruct (is_subclass k core_base) as [[]|]; destruct (is_subclass v abstract_reader) as [[]|];
    intros H; try discriminate H; (eexists; split; [reflexivity|auto 10]).
Qed.

Notation adds := (add_readers obj is_subclass same core_base abstract_reader).

Lemma adds_snoc : forall ops e m, adds (ops ++ [e])%list m =
  if accepts e then rset (fst e) (snd e) (adds ops m) else adds ops m.
Proof.
  intros ops [k v] m. unfold add_readers. rewrite fold_left_app. cbn. rewrite add_reader_eq.
  destruct (accepts (k, v)); reflexivity.
Qed.

Lemma registry_lookup : forall ops k,
  match rget k (adds ops []) with
  | Some v => registered_last obj is_subclass same core_base abstract_reader ops k v
  | None => never_registered obj is_subclass same core_base abstract_reader ops k
  end.
Proof.
  intros ops k. induction ops as [|e ops IH] using rev_ind.
  - cbn. intros e [].
  - rewrite adds_snoc. destruct (accepts e) eqn:A.
    + rewrite rget_set. destruct (same k (fst e)) eqn:S.
      * exists ops, (fst e), []. destruct e as [k' v]. cbn in *.
        split; [reflexivity|]. split; [exact S|]. split; [apply accepts_iff; exact A|]. intros e [].
      * destruct (rget k (adds ops [])) as [v|].
        -- destruct IH as (before & k' & after & -> & S' & A' & N).
           exists before, k', (after ++ [e])%list. split; [rewrite <- app_assoc; reflexivity|].
           split; [exact S'|]. split; [exact A'|]. intros x I. apply in_app_or in I.
           destruct I as [I|[<-|[]]]; [apply N; exact I | congruence].
        -- intros x I. apply in_app_or in I. destruct I as [I|[<-|[]]]; [apply IH; exact I | congruence].
    + assert (R : ~ accepted obj is_subclass core_base abstract_reader e)
        by (rewrite <- accepts_iff, A; discriminate).
      destruct (rget k (adds ops [])) as [v|].
      * destruct IH as (before & k' & after & -> & S' & A' & N).
        exists before, k', (after ++ [e])%list. split; [rewrite <- app_assoc; reflexivity|].
        split; [exact S'|]. split; [exact A'|]. intros x I. apply in_app_or in I.
        destruct I as [I|[<-|[]]]; [apply N; exact I | auto].
      * intros x I. apply in_app_or in I. destruct I as [I|[<-|[]]]; [apply IH; exact I | auto].
Qed.

Lemma registered_not_never : forall ops k v,
  registered_last obj is_subclass same core_base abstract_reader ops k v ->
  ~ never_registered obj is_subclass same core_base abstract_reader ops k.
Proof.
  intros ops k v (before & k' & after & -> & S & A & _) N.
  apply (N (k', v)); [apply in_or_app; right; left; reflexivity | exact S | exact A].
Qed.

Lemma registered_unique : forall ops k v v',
  registered_last obj is_subclass same core_base abstract_reader ops k v ->
  registered_last obj is_subclass same core_base abstract_reader ops k v' -> v = v'.
Proof.
  intros ops k v v' (b1 & k1 & a1 & -> & S1 & A1 & N1) (b2 & k2 & a2 & E & S2 & A2 & N2).
  assert (L : length b1 < length b2 \/ length b1 = length b2 \/ length b2 < length b1) by lia.
  destruct L as [L|[L|L]].
  - exfalso. apply (N1 (k2, v')); [|exact S2|exact A2].
    apply (f_equal (skipn (S (length b1)))) in E.
    rewrite !skipn_app in E. rewrite (skipn_all2 b1) in E by lia.
    replace (S (length b1) - length b1) with 1 in E by lia. cbn [skipn app] in E. rewrite E.
    apply in_or_app. right. replace (S (length b1) - length b2) with 0 by lia. left; reflexivity.
  - apply (f_equal (fun l => nth_error l (length b1))) in E. rewrite !nth_error_app2 in E by lia.
    rewrite L, Nat.sub_diag in E. cbn in E. congruence.
  - exfalso. apply (N2 (k1, v)); [|exact S1|exact A1].
    apply (f_equal (skipn (S (length b2)))) in E.
    rewrite !skipn_app in E. rewrite (skipn_all2 b2) in E by lia.
    replace (S (length b2) - length b2) with 1 in E by lia. cbn [skipn app] in E. rewrite <- E.
    apply in_or_app. right. replace (S (length b2) - length b1) with 0 by lia. left; reflexivity.
Qed.
End Facts.
