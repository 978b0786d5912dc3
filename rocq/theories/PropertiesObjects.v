(** C71: policy and request objects built through the API. *)
From Verif Require Import Objects SpecObjects StateFacts ObjectsFacts ObjectsFacts2 ObjectsFacts3
  SpecFuncMap SpecSetters ObjectsFacts4 Sample.
Require Import Lia.
Local Open Scope string_scope.

Section Claims.
Variable cm : list (string * avclass).

(** After every careful history, an attribute read from an object is documented for
    the class of the object and has the documented type. *)
Theorem C71_typed : forall ops a c attrs name v,
  careful_history cm ostart ops ->
  let h := os_heap (orun cm ostart ops) in
  nth_error h a = Some (PInst c attrs) -> get_attr h a name = Ok v ->
  exists d, In (name, d) (documented_attributes c) /\ as_documented h d v.
Proof.
  intros ops a c attrs name v C h N G.
  pose proof (orun_well_formed cm ops ostart start_well_formed C) as W. fold h in W.
  destruct (W _ _ N) as [A B]. unfold get_attr in G. rewrite N in G.
  destruct (dict_get name attrs) as [w|] eqn:D; [|discriminate G]. injection G as ->.
  destruct (B _ _ D) as [d I]. exists d; split; [exact I|]. specialize (A _ _ I). rewrite D in A. exact A.
Qed.

(** And the other way round: every documented attribute can be read, except that the
    description of a rule is missing until it is set. *)
Theorem C71_present : forall ops a c attrs name d,
  careful_history cm ostart ops ->
  let h := os_heap (orun cm ostart ops) in
  nth_error h a = Some (PInst c attrs) -> In (name, d) (documented_attributes c) ->
  (c, name) <> (KRule, "description") ->
  exists v, get_attr h a name = Ok v.
Proof.
  intros ops a c attrs name d C h N I D.
  pose proof (orun_well_formed cm ops ostart start_well_formed C) as W. fold h in W.
  destruct (attr_exists h W a c attrs name d N I) as (v & G & _); [|eauto].
  intros t ->. apply D. destruct c as [k| | | |k|k| | | | | | | | | | | | |]; cbn in I;
    repeat (destruct I as [I|I]; [try discriminate I; injection I as <- <-; reflexivity|]); contradiction.
Qed.

(** Every item of a list is of the element type of the list. *)
Theorem C71_items : forall ops a t items v,
  careful_history cm ostart ops ->
  let h := os_heap (orun cm ostart ops) in
  nth_error h a = Some (PTypedList t items) -> In v items -> has_type h v t.
Proof.
  intros ops a t items v C h N I.
  pose proof (orun_well_formed cm ops ostart start_well_formed C _ _ N) as F. cbn in F.
  rewrite Forall_forall in F. apply F; exact I.
Qed.

(** Every policy object from which no infinite chain of references starts stands for
    exactly one policy. *)
Theorem C71_policy : forall ops a,
  careful_history cm ostart ops ->
  let h := os_heap (orun cm ostart ops) in
  has_type h (PRef a) TPolicyBase -> not_circular h a -> exists! p, for_policy h (PRef a) p.
Proof.
  intros ops a C h T N.
  destruct (policy_exists h (orun_well_formed cm ops ostart start_well_formed C) a
              (not_circular_part h a N) T) as [p P].
  exists p; split; [exact P|]. intros q Q. eapply policy_unique; eassumption.
Qed.

(** Every request object stands for exactly one request. *)
Theorem C71_request : forall ops a,
  careful_history cm ostart ops ->
  let h := os_heap (orun cm ostart ops) in
  has_type h (PRef a) (TCls KRequest) -> exists! r, for_request h (PRef a) r.
Proof.
  intros ops a C h T. inversion T; subst.
  destruct (request_exists h (orun_well_formed cm ops ostart start_well_formed C) a attrs) as [r R];
    [assumption|].
  exists r; split; [exact R|]. intros q Q. eapply request_unique; eassumption.
Qed.

(** A new object: every documented attribute has its initial value, the lists are
    empty and belong to no object that was there before; objects that were there before
    are as before. *)
Theorem C71_new : forall s c,
  let '(r, s') := ostep cm s (ONew c) in
  let h := os_heap s' in
  let a := length (os_heap s) in
  r = Ok tt /\ (exists attrs, nth_error h a = Some (PInst c attrs)) /\
  (forall name d, In (name, d) (documented_attributes c) -> new_value h d name (get_attr h a name)) /\
  (forall name l, get_attr h a name = Ok (PRef l) -> a < l) /\
  (forall n n' l, get_attr h a n = Ok (PRef l) -> get_attr h a n' = Ok (PRef l) -> n = n').
Proof.
  intros [h m] c. cbn [ostep os_heap]. split; [reflexivity|].
  unfold construct. destruct (init_from (S (length h)) (init_attrs c)) as [attrs lists] eqn:E.
  assert (N0 : nth_error (h ++ PInst c attrs :: lists) (length h) = Some (PInst c attrs))
    by exact (nth_new h (PInst c attrs :: lists) 0).
  pose proof (nth_new h (PInst c attrs :: lists)) as NL.
  split; [eexists; exact N0|].
  unfold get_attr. rewrite N0. split; [|split].
  - intros name d I. unfold get_attr.
    destruct c as [k| | | |k|k| | | | | | | | | | | | |]; cbn in E; injection E as <- <-; cbn in I;
      each_in I; cbn [dict_get String.eqb Ascii.eqb Bool.eqb new_value]; try reflexivity;
      (eexists; split; [reflexivity|]);
      first [exact (NL 1) | exact (NL 2) | exact (NL 3) | exact (NL 4)].
  - intros name l G. pose proof (init_ref_range (init_attrs c) (S (length h)) name l (init_plain c)) as R.
    rewrite E in R. cbn in R. destruct (dict_get name attrs); [|discriminate G]. injection G as ->.
    specialize (R eq_refl). lia.
  - intros n n' l G G'.
    pose proof (init_ref_once (init_attrs c) (S (length h)) n n' l (init_plain c)) as R.
    rewrite E in R. cbn in R. destruct (dict_get n attrs); [|discriminate G]. injection G as ->.
    destruct (dict_get n' attrs); [|discriminate G']. injection G' as ->. auto.
Qed.

(** An assignment to a documented attribute: a value of the documented type is what
    is read afterwards, and only an id may raise then; any other value raises TypeError
    and changes nothing; an assignment to a list, function or algorithm attribute raises
    AttributeError and changes nothing. *)
Theorem C71_setters : forall s a c attrs name d v,
  nth_error (os_heap s) a = Some (PInst c attrs) -> In (name, d) (documented_attributes c) ->
  name <> "attributeValues" ->
  let '(r, s') := ostep cm s (OSet a name v) in
  match d with
  | DOptional t | DLate t =>
      (has_type (os_heap s) v t /\ get_attr (os_heap s') a name = Ok v /\
       (~ In name id_attributes -> r = Ok tt)) \/
      (~ has_type (os_heap s) v t /\ r = Raise ETypeError /\ s' = s)
  | DFlag =>
      ((exists b, v = PNat (NBool b)) /\ get_attr (os_heap s') a name = Ok v /\ r = Ok tt) \/
      ((forall b, v <> PNat (NBool b)) /\ r = Raise ETypeError /\ s' = s)
  | DListOf _ | DFunction | DAlgorithm => r = Raise EAttributeError /\ s' = s
  end.
Proof.
  intros [h m] a c attrs name d v N I D. cbn [os_heap] in *.
  pose proof (documented_setter c name d I) as E.
  assert (K : forall t, setter_type c name = Some t ->
     let '(r, s') := ostep cm (mkOState h m) (OSet a name v) in
     (has_type h v t /\ get_attr (os_heap s') a name = Ok v /\ (~ In name id_attributes -> r = Ok tt)) \/
     (~ has_type h v t /\ r = Raise ETypeError /\ s' = mkOState h m)).
  { intros t Et. cbn. rewrite N, Et. destruct (isinstance h v t) eqn:Q.
    - pose proof (assign_get cm c name v attrs m) as G.
      pose proof (assign_ok_result cm c name v attrs m) as R.
      destruct (assign cm c name v attrs m) as [[r attrs'] m']. left. split; [apply isinstance_iff; exact Q|].
      cbn [fst snd os_heap] in *. unfold get_attr. rewrite (nth_replace_same _ _ _ _ _ N), G.
      split; [reflexivity | exact R].
    - right. split; [|auto]. rewrite <- isinstance_iff. congruence. }
  assert (K0 : setter_type c name = None ->
     ostep cm (mkOState h m) (OSet a name v) = (Raise EAttributeError, mkOState h m)).
  { intros Et. cbn. rewrite N, Et. reflexivity. }
  destruct d.
  - apply K; exact E.
  - specialize (K TBool E). destruct (ostep cm (mkOState h m) (OSet a name v)) as [r s'].
    destruct K as [(T & G & R)|(T & R)]; [left | right].
    + split; [inversion T; eauto|]. split; [exact G|]. apply R. intro J.
      cbn in J. destruct c as [k| | | |k|k| | | | | | | | | | | | |]; cbn in I;
        repeat (destruct J as [J|J]; [subst name; repeat (destruct I as [I|I]; [discriminate I|]); contradiction|]);
        contradiction.
    + split; [intros b ->; apply T; constructor | exact R].
  - destruct (String.eqb_spec name "attributeValues"); [contradiction|]. rewrite (K0 E). auto.
  - rewrite (K0 E). auto.
  - rewrite (K0 E). auto.
  - apply K; exact E.
Qed.

(** An assignment changes no other attribute of the object than the one linked to the
    attribute assigned. *)
Theorem C71_other_attributes : forall s a name v other,
  other <> name -> linked name <> Some other ->
  (exists c attrs, nth_error (os_heap s) a = Some (PInst c attrs)) ->
  get_attr (os_heap (snd (ostep cm s (OSet a name v)))) a other = get_attr (os_heap s) a other.
Proof.
  intros [h m] a name v other D L (c & attrs & N). cbn [os_heap os_map ostep] in *. rewrite N.
  destruct (setter_type c name) as [t|]; [|reflexivity]. destruct (isinstance h v t); [|reflexivity].
  pose proof (assign_other cm c name v attrs m other D L) as G.
  destruct (assign cm c name v attrs m) as [[r attrs'] m']. cbn in *.
  unfold get_attr. rewrite (nth_replace_same _ _ _ _ _ N), N, G. reflexivity.
Qed.

(** An id assigned to a policy or policy set puts the algorithm of that id in force, or
    is refused and leaves the algorithm. *)
Theorem C71_rule_algorithm : forall s a attrs id,
  nth_error (os_heap s) a = Some (PInst KPolicy attrs) ->
  let '(r, s') := ostep cm s (OSet a "ruleCombiningAlgId" (PNat (NStr id))) in
  match rule_algorithm id with
  | Some x => r = Ok tt /\ get_attr (os_heap s') a "ruleCombiningAlg" = Ok (PAlg x)
  | None => r = Raise ETypeError /\
      get_attr (os_heap s') a "ruleCombiningAlg" = get_attr (os_heap s) a "ruleCombiningAlg"
  end.
Proof.
  intros [h m] a attrs id N. cbn [os_heap os_map ostep] in *. rewrite N.
  change (setter_type KPolicy "ruleCombiningAlgId") with (Some TStr). cbn [isinstance].
  change (assign cm KPolicy "ruleCombiningAlgId" (PNat (NStr id)) attrs m) with
    (let attrs1 := dict_set "ruleCombiningAlgId" (PNat (NStr id)) attrs in
     match alg_from_table RULE_ALG_MAP id with
     | Ok x => (Ok tt, dict_set "ruleCombiningAlg" (PAlg x) attrs1, m)
     | Raise e => (Raise e, attrs1, m)
     end).
  rewrite alg_table_rule. unfold get_attr. rewrite N. cbn zeta. destruct (rule_algorithm id) as [x|];
    cbn [os_heap]; rewrite (nth_replace_same _ _ _ _ _ N); (split; [reflexivity|]).
  - rewrite dict_get_set_same. reflexivity.
  - rewrite dict_get_set_other by discriminate. reflexivity.
Qed.

Theorem C71_policy_algorithm : forall s a attrs id,
  nth_error (os_heap s) a = Some (PInst KPolicySet attrs) ->
  let '(r, s') := ostep cm s (OSet a "policyCombiningAlgId" (PNat (NStr id))) in
  match policy_algorithm id with
  | Some x => r = Ok tt /\ get_attr (os_heap s') a "policyCombiningAlg" = Ok (PAlg x)
  | None => r = Raise ETypeError /\
      get_attr (os_heap s') a "policyCombiningAlg" = get_attr (os_heap s) a "policyCombiningAlg"
  end.
Proof.
  intros [h m] a attrs id N. cbn [os_heap os_map ostep] in *. rewrite N.
  change (setter_type KPolicySet "policyCombiningAlgId") with (Some TStr). cbn [isinstance].
  change (assign cm KPolicySet "policyCombiningAlgId" (PNat (NStr id)) attrs m) with
    (let attrs1 := dict_set "policyCombiningAlgId" (PNat (NStr id)) attrs in
     match alg_from_table POLICY_ALG_MAP id with
     | Ok x => (Ok tt, dict_set "policyCombiningAlg" (PAlg x) attrs1, m)
     | Raise e => (Raise e, attrs1, m)
     end).
  rewrite alg_table_policy. unfold get_attr. rewrite N. cbn zeta. destruct (policy_algorithm id) as [x|];
    cbn [os_heap]; rewrite (nth_replace_same _ _ _ _ _ N); (split; [reflexivity|]).
  - rewrite dict_get_set_same. reflexivity.
  - rewrite dict_get_set_other by discriminate. reflexivity.
Qed.

(** After every history, an id assigned to a match or an apply puts the function of that
    id in force, or is refused and leaves the function; with loading switched off the
    function stays as it is. *)
Theorem C71_function : forall ops a c attrs name id b,
  let s := orun cm ostart ops in
  nth_error (os_heap s) a = Some (PInst c attrs) ->
  (exists k, c = KMatch k) /\ name = "matchId" \/ c = KApply /\ name = "functionId" ->
  get_attr (os_heap s) a "loadFunctionFromId" = Ok (PNat (NBool b)) ->
  let '(r, s') := ostep cm s (OSet a name (PNat (NStr id))) in
  let function := get_attr (os_heap s') a "function" in
  match b, usable (resolve cm id) with
  | true, Some f => r = Ok tt /\ function = Ok (PFn f)
  | true, None => (exists e, r = Raise e) /\ function = get_attr (os_heap s) a "function"
  | false, _ => r = Ok tt /\ function = get_attr (os_heap s) a "function"
  end.
Proof.
  intros ops a c attrs name id b s N C F.
  pose proof (orun_looked_up cm ops ostart (start_looked_up cm)) as L. fold s in L.
  destruct s as [h m]. cbn [os_heap os_map ostep] in *. rewrite N.
  pose proof (load_function_result cm id m L) as R.
  assert (S : setter_type c name = Some TStr) by (destruct C as [[[k ->] ->]|[-> ->]]; reflexivity).
  rewrite S. cbn [isinstance].
  assert (A : assign cm c name (PNat (NStr id)) attrs m =
    let attrs1 := dict_set name (PNat (NStr id)) attrs in
    if b then match load_function cm id m with
              | (Ok f, m') => (Ok tt, dict_set "function" (PFn f) attrs1, m')
              | (Raise e, m') => (Raise e, attrs1, m')
              end
    else (Ok tt, attrs1, m)).
  { assert (G : dict_get "loadFunctionFromId" (dict_set name (PNat (NStr id)) attrs) = Some (PNat (NBool b))).
    { rewrite dict_get_set_other by (destruct C as [[_ ->]|[_ ->]]; discriminate).
      unfold get_attr in F. rewrite N in F. destruct (dict_get "loadFunctionFromId" attrs); congruence. }
    unfold assign. rewrite G. destruct C as [[[k ->] ->]|[-> ->]]; cbn [String.eqb Ascii.eqb Bool.eqb];
      destruct b; reflexivity. }
  rewrite A. clear A.
  assert (D : dict_get "function" (dict_set name (PNat (NStr id)) attrs) = dict_get "function" attrs)
    by (apply dict_get_set_other; destruct C as [[_ ->]|[_ ->]]; discriminate).
  cbn zeta. unfold get_attr. rewrite N. destruct b.
  - destruct (load_function cm id m) as [r m']. cbn [fst] in R.
    destruct (usable (resolve cm id)) as [f|].
    + subst r. cbn [os_heap]. rewrite (nth_replace_same _ _ _ _ _ N), dict_get_set_same. auto.
    + destruct R as [e ->]. cbn [os_heap]. rewrite (nth_replace_same _ _ _ _ _ N), D. eauto.
  - cbn [os_heap]. rewrite (nth_replace_same _ _ _ _ _ N), D. auto.
Qed.

(** A match never has both a designator and a selector. *)
Theorem C71_exclusive : forall ops a k attrs,
  let h := os_heap (orun cm ostart ops) in
  nth_error h a = Some (PInst (KMatch k) attrs) ->
  get_attr h a "attributeDesignator" = Ok (PNat NNone) \/ get_attr h a "attributeSelector" = Ok (PNat NNone).
Proof.
  intros ops a k attrs h N.
  assert (E : exclusive (PInst (KMatch k) attrs)).
  { refine (orun_exclusive cm ops ostart _ a _ N). intros b o E. destruct b; discriminate E. }
  unfold get_attr. rewrite N. destruct E as [E|E]; rewrite E; auto.
Qed.

(** An operation that raises changes nothing, except that an id that is refused after
    the type test is kept (see below). *)
Theorem C71_refused : forall s o e s', ostep cm s o = (Raise e, s') ->
  s' = s \/ exists a name v, o = OSet a name v /\ In name id_attributes.
Proof. apply refused_same. Qed.

(** No operation changes an object that it is not called on. *)
Theorem C71_other_objects : forall s o b x,
  touches o <> Some b -> nth_error (os_heap s) b = Some x ->
  nth_error (os_heap (snd (ostep cm s o))) b = Some x.
Proof. apply ostep_other. Qed.

(** What a policy object stands for is changed only by operations on objects that it
    refers to, directly or through others. *)
Theorem C71_local : forall ops o a p,
  careful_history cm ostart ops ->
  let s := orun cm ostart ops in
  for_policy (os_heap s) (PRef a) p ->
  (forall b, touches o = Some b -> ~ reaches (os_heap s) a b) ->
  for_policy (os_heap (snd (ostep cm s o))) (PRef a) p.
Proof.
  intros ops o a p C s P T. eapply policy_local; [exact P|]. apply ostep_agree.
  - exact (orun_well_formed cm ops ostart start_well_formed C).
  - eapply for_policy_object; exact P.
  - exact T.
Qed.

Theorem C71_local_request : forall ops o a r,
  careful_history cm ostart ops ->
  let s := orun cm ostart ops in
  for_request (os_heap s) (PRef a) r ->
  (forall b, touches o = Some b -> ~ reaches (os_heap s) a b) ->
  for_request (os_heap (snd (ostep cm s o))) (PRef a) r.
Proof.
  intros ops o a p C s P T. eapply request_local; [|exact P]. apply ostep_agree.
  - exact (orun_well_formed cm ops ostart start_well_formed C).
  - eapply for_request_object; exact P.
  - exact T.
Qed.

(** A list refuses an item of the wrong type with TypeError and is not changed. *)
Theorem C71_append : forall s a t items v,
  nth_error (os_heap s) a = Some (PTypedList t items) ->
  let '(r, s') := ostep cm s (OList a (LAppend v)) in
  (has_type (os_heap s) v t /\ r = Ok tt /\
   nth_error (os_heap s') a = Some (PTypedList t (items ++ [v]))) \/
  (~ has_type (os_heap s) v t /\ r = Raise ETypeError /\ s' = s).
Proof.
  intros [h m] a t items v N. cbn in *. rewrite N. unfold tl_append.
  destruct (isinstance h v t) eqn:Q; cbn.
  - left. rewrite (nth_replace_same _ _ _ _ _ N). split; [apply isinstance_iff; exact Q | auto].
  - right. rewrite <- isinstance_iff, Q, (replace_same _ _ _ _ N). split; [discriminate | auto].
Qed.

(** extend and += refuse all items if one is of the wrong type. *)
Theorem C71_extend : forall s a t items new,
  nth_error (os_heap s) a = Some (PTypedList t items) ->
  let outcome '(r, s') :=
    (Forall (fun v => has_type (os_heap s) v t) new /\ r = Ok tt /\
     nth_error (os_heap s') a = Some (PTypedList t (items ++ new))) \/
    (~ Forall (fun v => has_type (os_heap s) v t) new /\ r = Raise ETypeError /\ s' = s) in
  outcome (ostep cm s (OList a (LExtend (Reiterable new)))) /\
  outcome (ostep cm s (OList a (LIadd (Reiterable new)))).
Proof.
  intros [h m] a t items new N.
  assert (K : forallb (fun v => isinstance h v t) new = true <-> Forall (fun v => has_type h v t) new).
  { rewrite forallb_forall, Forall_forall. split; intros F x I; apply isinstance_iff, F, I. }
  cbn in *. rewrite N. unfold tl_extend, tl_iadd. cbn.
  destruct (forallb (fun v => isinstance h v t) new) eqn:Q; cbn.
  - rewrite (nth_replace_same _ _ _ _ _ N). apply proj1 in K. specialize (K eq_refl). split; left; auto.
  - rewrite (replace_same _ _ _ _ N).
    assert (F : ~ Forall (fun v => has_type h v t) new) by (intro F; apply K in F; discriminate F).
    split; right; auto.
Qed.

Theorem C71_delete : forall s a t items i,
  nth_error (os_heap s) a = Some (PTypedList t items) ->
  let '(r, s') := ostep cm s (ODelete a i) in
  match nth_error items i with
  | Some _ => r = Ok tt /\ exists before v after, items = (before ++ v :: after)%list /\ List.length before = i /\
                nth_error (os_heap s') a = Some (PTypedList t (before ++ after)%list)
  | None => r = Raise EIndexError /\ s' = s
  end.
Proof.
  intros [h m] a t items i N. cbn [os_heap os_map ostep] in *. rewrite N.
  destruct (Nat.ltb_spec i (length items)) as [L|L].
  - destruct (nth_error items i) as [v|] eqn:E; [|apply nth_error_None in E; lia].
    split; [reflexivity|]. destruct (nth_error_split _ _ E) as (before & after & -> & <-).
    exists before, v, after. split; [reflexivity|]. split; [reflexivity|].
    cbn [os_heap]. rewrite (nth_replace_same _ _ _ _ _ N). do 2 f_equal.
    rewrite firstn_app, firstn_all, Nat.sub_diag, app_nil_r.
    rewrite skipn_app, (skipn_all2 before) by lia.
    replace (S (length before) - length before) with 1 by lia. reflexivity.
  - apply nth_error_None in L. rewrite L. auto.
Qed.

(** *** The limits *)

(** The inherited list methods do not test: every operation here succeeds, and the rule
    list of the policy has a string in it. *)
Theorem C71_insert_refuted : exists ops,
  let h := os_heap (orun cm ostart ops) in
  (forall i o, nth_error ops i = Some o -> fst (ostep cm (orun cm ostart (firstn i ops)) o) = Ok tt) /\
  exists a attrs l items,
    nth_error h a = Some (PInst KPolicy attrs) /\ get_attr h a "rules" = Ok (PRef l) /\
    nth_error h l = Some (PTypedList (TCls KRule) items) /\ In (PNat (NStr "no rule")) items /\
    (forall p, ~ for_policy h (PRef a) p).
Proof.
  exists [ONew KPolicy; OInsert 1 0 (PNat (NStr "no rule"))]. split.
  { intros [|[|i]] o E; try (injection E as <-; reflexivity). destruct i; discriminate E. }
  exists 0. do 3 eexists. repeat split; try reflexivity; [left; reflexivity|].
  intros p F. inversion F; subst.
  - match goal with H : instance _ _ _ _ |- _ => destruct H as (E & _); injection E as <- end.
    match goal with H : attr_is _ 0 "rules" _ |- _ => destruct H as (v & G & l & t' & items & -> & NL & FA) end.
    cbn in G. injection G as <-. cbn in NL. injection NL as <- <-. inversion FA; subst.
    match goal with H : for_rule _ _ _ |- _ => destruct H as (a & (E & _) & _); discriminate E end.
  - match goal with H : instance _ _ _ _ |- _ => destruct H as (E & attrs & N); injection E as <-; discriminate N end.
Qed.

(** The attributeValues of a request attribute may be set to a list of anything. *)
Theorem C71_attribute_values_refuted : exists ops,
  let h := os_heap (orun cm ostart ops) in
  (forall i o, nth_error ops i = Some o -> fst (ostep cm (orun cm ostart (firstn i ops)) o) = Ok tt) /\
  exists a attrs l items,
    nth_error h a = Some (PInst KAttribute attrs) /\ get_attr h a "attributeValues" = Ok (PRef l) /\
    nth_error h l = Some (PTypedList TStr items) /\ In (PNat (NStr "text")) items.
Proof.
  exists [ONew KAttribute; ONewList TStr [PNat (NStr "text")]; OSet 0 "attributeValues" (PRef 2)]. split.
  { intros [|[|[|i]]] o E; try (injection E as <-; reflexivity). destruct i; discriminate E. }
  exists 0. do 3 eexists. repeat split; try reflexivity. left; reflexivity.
Qed.

(** A policy set may be put into itself; it then stands for no policy. *)
Theorem C71_circular_refuted : exists ops,
  careful_history cm ostart ops /\
  let h := os_heap (orun cm ostart ops) in
  (forall i o, nth_error ops i = Some o -> fst (ostep cm (orun cm ostart (firstn i ops)) o) = Ok tt) /\
  exists a, has_type h (PRef a) TPolicyBase /\ (forall p, ~ for_policy h (PRef a) p).
Proof.
  exists [ONew KPolicySet; OList 1 (LAppend (PRef 0))]. split; [cbn; auto|]. split.
  { intros [|[|i]] o E; try (injection E as <-; reflexivity). destruct i; discriminate E. }
  exists 0. split; [eapply ht_policyset; reflexivity|].
  intros p F. pose proof F as F'. inversion F; subst.
  - match goal with H : instance _ _ _ _ |- _ => destruct H as (E & attrs & N); injection E as <-; discriminate N end.
  - match goal with H : instance _ _ _ _ |- _ => destruct H as (E & _); injection E as <- end.
    match goal with H : get_attr _ 0 "policies" = _ |- _ => cbn in H; injection H as <- end.
    match goal with H : nth_error _ 1 = _ |- _ => cbn in H; injection H as <- <- end.
    match goal with H : for_policies _ _ _ |- _ => inversion H; subst end.
    match goal with H : for_policies _ [] _ |- _ => inversion H; subst end.
    match goal with H : for_policy _ (PRef 0) ?q |- _ =>
      pose proof (policy_unique _ _ _ H _ F') as E end.
    exact (no_circle _ _ _ _ E).
Qed.

(** Attributes that are not documented can be neither assigned, on objects of classes
    with __slots__, nor read, on any object: AttributeError, and nothing changes. *)
Theorem C71_unknown : forall ops a x name,
  let s := orun cm ostart ops in
  nth_error (os_heap s) a = Some x ->
  match x with
  | PInst c _ => ~ In name (map fst (documented_attributes c))
  | PValue _ => name <> "value" /\ name <> "dataType"
  | PEffect _ => name <> "value"
  | PTypedList _ _ => True
  end ->
  (match x with
   | PInst (KMatch _) _ | PInst KCtxAction _ | PInst KCtxEnvironment _
   | PValue _ | PTypedList _ _ => True
   | _ => forall v, ostep cm s (OSet a name v) = (Raise EAttributeError, s)
   end) /\
  forall e, get_attr (os_heap s) a name = Raise e -> e = EAttributeError.
Proof.
  intros ops a x name s N D. split.
  - assert (K : forall c attrs, x = PInst c attrs -> forall v, ostep cm s (OSet a name v) = (Raise EAttributeError, s)).
    { intros c attrs -> v. cbn [ostep]. rewrite N.
      assert (E : setter_type c name = None); [|rewrite E; reflexivity].
      destruct (setter_type c name) as [t|] eqn:E; [|reflexivity]. exfalso. apply D.
      eapply setter_documented; eauto. }
    destruct x as [c attrs|t l|y|y]; auto.
    + destruct c; auto; eapply K; reflexivity.
    + intros v. cbn [ostep]. rewrite N. apply String.eqb_neq in D. rewrite D. reflexivity.
  - intros e. unfold get_attr. rewrite N. destruct x as [c attrs|t l|y|y].
    + destruct (dict_get name attrs); congruence.
    + congruence.
    + destruct (String.eqb name "value"); [discriminate|].
      destruct (String.eqb name "dataType"); congruence.
    + destruct (String.eqb name "value"); congruence.
Qed.

(** An id that is refused is kept: TypeError is raised, yet the policy changed. *)
Theorem C71_refused_id_refuted : exists ops a s' id,
  let s := orun cm ostart ops in
  careful_history cm ostart ops /\
  ostep cm s (OSet a "ruleCombiningAlgId" (PNat (NStr id))) = (Raise ETypeError, s') /\
  get_attr (os_heap s) a "ruleCombiningAlgId" = Ok (PNat NNone) /\
  get_attr (os_heap s') a "ruleCombiningAlgId" = Ok (PNat (NStr id)).
Proof.
  exists [ONew KPolicy], 0, (mkOState (replace_nth 0
    (PInst KPolicy (dict_set "ruleCombiningAlgId" (PNat (NStr "unknown"))
       (fst (init_from 1 (init_attrs KPolicy))))) (construct [] KPolicy)) fm_new), "unknown".
  cbn [careful_history careful orun fold_left]. repeat split; reflexivity.
Qed.
End Claims.

(** A policy set with a policy, its target and a rule with a condition, built step by
    step; among the steps are some that are refused. *)
Definition built : list oop :=
  let str s := PNat (NStr s) in
  [ONew KPolicySet;                                        (* 0, policies 1, obligations 2 *)
   OSet 0 "policySetId" (str "ps");
   OSet 0 "policyCombiningAlgId"
     (str "urn:oasis:names:tc:xacml:1.0:policy-combining-algorithm:permit-overrides");
   ONew KPolicy;                                           (* 3, rules 4, obligations 5 *)
   OList 1 (LAppend (PRef 3)); OList 1 (LAppend (str "no policy"));
   OSet 3 "target" (PRef 0);
   ONew KTarget;                                           (* 6, lists 7 8 9 10 *)
   OSet 3 "target" (PRef 6); OSet 3 "description" PNone;
   ONew (KTargetChild DSubject);                           (* 11, matches 12 *)
   OList 7 (LExtend (Reiterable [PRef 11])); OList 8 (LAppend (PRef 11));
   ONew (KMatch DSubject);                                 (* 13 *)
   OList 12 (LAppend (PRef 13)); OSet 13 "matchId" (str (v1 "string-equal"));
   ONew (KDesignator DSubject);                            (* 14 *)
   OSet 14 "attributeId" (str "role"); OSet 14 "mustBePresent" (str "true");
   ONewValue (sstr "staff");                               (* 15 *)
   OSet 13 "attributeValue" (PRef 15); OSet 13 "attributeDesignator" (PRef 14);
   OSet 13 "attributeSelector" (PRef 14);
   ONew KRule;                                             (* 16 *)
   ONewEffect (str "Permit"); ONewEffect (str "Perhaps");  (* 17 *)
   OSet 16 "effect" (PRef 17); OSet 16 "effect" (str "Permit");
   OInsert 4 0 (PRef 16);
   ONew KCondition; ONew KApply;                           (* 18, 19, expressions 20 *)
   OSet 16 "condition" (PRef 18); OSet 18 "expression" (PRef 19);
   OList 20 (LAppend (PRef 15)); OSet 19 "functionId" (str (v1 "not"))].

Definition built_policy : policybase :=
  PPolicySet (mkMeta (Some "ps") None
      (Some "urn:oasis:names:tc:xacml:1.0:policy-combining-algorithm:permit-overrides") None None)
    None (Some PermitOverrides)
    [PPolicy (mkMeta None None None None None)
       (Some (mkTarget [[mkMatch (Some (v1 "string-equal")) (Some (FnEqual StringAV)) (Some (sstr "staff"))
                           (Some (mkDesignator DSubject (Some "role") None None false)) None]] [] [] []))
       None
       [mkRule None (Some EffPermit) None
          (Some (Some (XApply (Some (v1 "not")) (Some FnNot) [XValue (sstr "staff")]))) None]].

Example C71_case :
  careful_history STD_CLASS_MAP ostart built /\
  let h := os_heap (orun STD_CLASS_MAP ostart built) in
  has_type h (PRef 0) TPolicyBase /\ not_circular h 0 /\ for_policy h (PRef 0) built_policy /\
  ~ reaches h 3 0.
Proof.
  assert (C : careful_history STD_CLASS_MAP ostart built).
  { unfold built. cbn [careful_history].
    repeat match goal with
           | |- _ /\ _ => split
           | |- careful _ (OSet _ _ _) => intros ? ? ? ? ? Q; discriminate Q
           | |- True => exact I
           | |- careful _ (OInsert _ _ _) =>
               let N := fresh in intros t items N; vm_compute in N; injection N as <- <-;
               eapply ht_class; vm_compute; reflexivity
           | |- careful _ _ => exact I
           end. }
  split; [exact C|]. intro h.
  assert (E : h = os_heap (orun STD_CLASS_MAP ostart built)) by reflexivity.
  clearbody h. vm_compute in E. subst h.
  split; [eapply ht_policyset; reflexivity|].
  split; [apply (ranked_not_circular (fun a => nth a
            [20; 19; 0; 18; 17; 0; 10; 9; 8; 8; 8; 7; 6; 5; 0; 0; 16; 0; 15; 14; 13] 0)); vm_compute; reflexivity|].
  split.
  - unfold built_policy.
    repeat match goal with
           | |- for_policy _ _ (PPolicySet _ _ _ _) => eapply fp_policyset
           | |- for_policy _ _ (PPolicy _ _ _ _) => eapply fp_policy
           | |- for_policies _ _ _ => constructor
           | |- for_expr _ _ (XApply _ _ _) => eapply fe_apply
           | |- for_expr _ _ (XValue _) => apply fe_value
           | |- for_exprs _ _ _ => constructor
           | |- instance _ _ _ _ => split; [reflexivity | eexists; reflexivity]
           | |- attr_is _ _ _ _ => eexists; split; [reflexivity |
               cbn [maybe mt_value mt_designator mt_selector rl_effect rl_target rl_condition tg_subjects
                    tg_resources tg_actions tg_environments]]
           | |- listing _ _ _ _ => do 3 eexists; split; [reflexivity | split; [reflexivity|]]
           | |- Forall2 _ _ _ => constructor
           | |- for_defaults _ _ _ => left; split; reflexivity
           | |- for_value _ _ _ => eexists; split; reflexivity
           | |- for_effect _ _ _ => eexists; split; reflexivity
           | |- for_rule _ _ _ => eexists
           | |- for_target _ _ _ => eexists
           | |- for_condition _ _ _ => eexists
           | |- for_child _ _ _ _ => eexists
           | |- for_match _ _ _ _ => eexists
           | |- for_designator _ _ _ => eexists
           | |- _ /\ _ => split
           | |- _ => reflexivity
           end.
  - intro R. match type of R with reaches ?hh _ _ =>
      assert (P : forall x y, reaches hh x y -> x <> 0 -> y <> 0) end.
    { intros x y Rxy. apply Operators_Properties.clos_rt_rt1n in Rxy.
      induction Rxy as [|x y z Rxy _ IH]; [auto|]. intro X. apply IH.
      apply refers_in in Rxy as (o & N & I).
      do 21 (destruct x as [|x]; [first [congruence | cbn in N; injection N as <-; cbn in I; intuition lia]|]).
      cbn in N. destruct x; discriminate N. }
    exact (P _ _ R ltac:(discriminate) eq_refl).
Qed.

(** A request with a subject that has one attribute. *)
Example C71_request_case :
  let ops := [ONew KRequest;                                (* 0, subjects 1, resources 2 *)
              ONew KCtxSubject; ONew KAttribute;            (* 3, 4; 5, values 6 *)
              OSet 5 "attributeId" (PNat (NStr "role")); OSet 5 "dataType" (PNat (NInt 3));
              ONewValue (sstr "staff");                     (* 7 *)
              OList 6 (LAppend (PRef 7)); OList 6 (LAppend (PRef 5));
              OList 4 (LAppend (PRef 5)); OList 1 (LAppend (PRef 3));
              OSet 0 "action" (PRef 3); OSet 0 "ctxHandler" (PHandler 2)] in
  careful_history STD_CLASS_MAP ostart ops /\
  let h := os_heap (orun STD_CLASS_MAP ostart ops) in
  for_request h (PRef 0)
    (mkRequest [mkSubject None [mkAttribute (Some "role") None None [sstr "staff"]]] [] None None
       (Some 2%N) None).
Proof.
  intro ops. split.
  { unfold ops. cbn [careful_history].
    repeat match goal with
           | |- _ /\ _ => split
           | |- careful _ (OSet _ _ _) => intros ? ? ? ? ? Q; discriminate Q
           | |- True => exact I
           | |- careful _ _ => exact I
           end. }
  intro h. assert (E : h = os_heap (orun STD_CLASS_MAP ostart ops)) by reflexivity.
  clearbody h. vm_compute in E. subst h.
  repeat match goal with
         | |- instance _ _ _ _ => split; [reflexivity | eexists; reflexivity]
         | |- attr_is _ _ _ _ => eexists; split; [reflexivity | cbn [maybe rq_subjects rq_resources
              rq_action rq_environment rq_ctxHandler rq_selector at_values sb_attributes sb_category]]
         | |- listing _ _ _ _ => do 3 eexists; split; [reflexivity | split; [reflexivity|]]
         | |- Forall2 _ _ _ => constructor
         | |- for_value _ _ _ => eexists; split; reflexivity
         | |- for_request _ _ _ => eexists
         | |- for_attribute _ _ _ => eexists
         | |- for_subject _ _ _ => split
         | |- for_attributes _ _ _ _ => eexists
         | |- exists _, _ => eexists
         | |- _ /\ _ => split
         | |- _ => reflexivity
         end.
Qed.


Print Assumptions C71_typed.
Print Assumptions C71_present.
Print Assumptions C71_items.
Print Assumptions C71_policy.
Print Assumptions C71_request.
Print Assumptions C71_new.
Print Assumptions C71_setters.
Print Assumptions C71_other_attributes.
Print Assumptions C71_rule_algorithm.
Print Assumptions C71_policy_algorithm.
Print Assumptions C71_function.
Print Assumptions C71_exclusive.
Print Assumptions C71_refused.
Print Assumptions C71_other_objects.
Print Assumptions C71_local.
Print Assumptions C71_local_request.
Print Assumptions C71_append.
Print Assumptions C71_extend.
Print Assumptions C71_delete.
Print Assumptions C71_insert_refuted.
Print Assumptions C71_attribute_values_refuted.
Print Assumptions C71_circular_refuted.
Print Assumptions C71_refused_id_refuted.
Print Assumptions C71_unknown.
