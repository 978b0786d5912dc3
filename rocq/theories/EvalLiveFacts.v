(** Facts about evaluations that look at one object at a time: with objects that stay as
    they are they give what EvalObjects.v says. *)
From Verif Require Import EvalLive SpecEvalObjects EvalFacts EvalObjectsFacts2.
From Coq Require Import Lia.
Local Open Scope string_scope.

Lemma get_just : forall h a name, get_attr (just (nth_error h a)) 0 name = get_attr h a name.
Proof. intros h a name. unfold get_attr. destruct (nth_error h a) as [o|]; reflexivity. Qed.
Lemma pyval_just : forall h a, as_pyval (just (nth_error h a)) (PRef 0) = as_pyval h (PRef a).
Proof. intros h a. cbn. destruct (nth_error h a) as [o|]; reflexivity. Qed.

Section Ev.
Variable O : oenv.
Variable h : heap.
(** the objects looked at *)
Variable S : nat -> Prop.
(** the questions asked to the collaborators *)
Variable R : nat -> Prop.

(** [ev t r]: with the objects of [h], [t] ends with [r], and looks at objects of [S] only *)
Inductive ev : forall A, LT A -> res A -> Prop :=
| ev_done : forall A (r : res A), ev A (LDone r) r
| ev_look : forall A a k (r : res A), S a -> ev A (k (nth_error h a)) r -> ev A (LLook a k) r
| ev_pip : forall A a d k (r : res A), R a -> ev A (k (oe_pip O h a d)) r -> ev A (LPip a d k) r
| ev_xpath : forall A a v k (r : res A), R a -> ev A (k (oe_xpath O h a v)) r -> ev A (LXpath a v k) r
| ev_bind : forall A B (x : LT B) f (r : res A) r1, ev B x r1 -> ev A (f r1) r -> ev A (LBind x f) r
| ev_loop : forall A a i (s : A) body r, S a ->
    ev A (next_round (nth_error h a) a i s body) r -> ev A (LLoop a i s body) r.
Arguments ev {A} _ _.

Lemma ev_ret : forall A (v : A), ev (ret v) (Ok v).
Proof. intros. apply ev_done. Qed.
Lemma ev_raise : forall A e, ev (@raise A e) (Raise e).
Proof. intros. apply ev_done. Qed.
Lemma ev_lbind : forall A B (x : LT A) (f : A -> LT B) rx g,
  ev x rx -> (forall v, rx = Ok v -> ev (f v) (g v)) -> ev (lbind x f) (bind rx g).
Proof.
  intros A B x f rx g X F. eapply ev_bind; [exact X|]. destruct rx as [v|e]; [apply F; reflexivity|apply ev_done].
Qed.
Lemma ev_pure : forall A B (rx : res A) (f : A -> LT B) g,
  (forall v, rx = Ok v -> ev (f v) (g v)) -> ev (lbind (LDone rx) f) (bind rx g).
Proof. intros. apply ev_lbind; [apply ev_done|assumption]. Qed.

Hypothesis Hclosed : forall a b, S a -> refers h a b -> S b.
Let seen := seen S.

Lemma ev_get : forall a name, S a -> ev (l_get a name) (get_attr h a name).
Proof. intros a name H. apply ev_look; [exact H|]. rewrite get_just. apply ev_done. Qed.
Lemma ev_attr : forall v name, seen v -> ev (l_attr v name) (attr h v name).
Proof. intros [| a | | | | |] name H; try apply ev_done. apply ev_get, H; reflexivity. Qed.
Lemma ev_pyval : forall v, seen v -> ev (l_pyval v) (Ok (as_pyval h v)).
Proof.
  intros [| a | | | | |] H; try apply ev_done. apply ev_look; [apply H; reflexivity|].
  rewrite pyval_just. apply ev_done.
Qed.
Lemma ev_is_request : forall c, seen c -> ev (l_is_request c) (Ok (is_request h c)).
Proof.
  intros [| a | | | | |] H; try apply ev_done. apply ev_look; [apply H; reflexivity|]. cbn.
  destruct (nth_error h a) as [[[]| | |]|]; apply ev_done.
Qed.
Lemma ev_len : forall v, seen v ->
  ev (l_len v) (bind (list_items h v) (fun items => Ok (length items))).
Proof.
  intros [| a | | | | |] H; try apply ev_done. apply ev_look; [apply H; reflexivity|]. cbn.
  destruct (nth_error h a) as [[| | |]|]; apply ev_done.
Qed.

(** A loop over items that are there *)
Inductive loops {A} (body : A -> pval -> LT (A * bool)) : list pval -> A -> res A -> Prop :=
| loops_end : forall s, loops body [] s (Ok s)
| loops_next : forall v rest s s' r, ev (body s v) (Ok (s', false)) -> loops body rest s' r ->
    loops body (v :: rest) s r
| loops_break : forall v rest s s', ev (body s v) (Ok (s', true)) -> loops body (v :: rest) s (Ok s')
| loops_raise : forall v rest s e, ev (body s v) (Raise e) -> loops body (v :: rest) s (Raise e).

Lemma skipn_cons : forall A i (l : list A) x r, skipn i l = x :: r ->
  nth_error l i = Some x /\ skipn (Datatypes.S i) l = r.
Proof.
  induction i as [|i IH]; intros [|y l] x r E; cbn in *; try discriminate.
  - injection E as -> ->. auto.
  - apply IH in E. exact E.
Qed.
Lemma skipn_nil : forall A i (l : list A), skipn i l = [] -> nth_error l i = None.
Proof. induction i as [|i IH]; intros [|y l] E; cbn in *; try discriminate; auto. Qed.

Lemma ev_loop_from : forall A a t items body i (s : A) r, S a -> nth_error h a = Some (PTypedList t items) ->
  loops body (skipn i items) s r -> ev (LLoop a i s body) r.
Proof.
  intros A a t items body i s r Sa N L. remember (skipn i items) as l eqn:E. revert i E.
  induction L as [s|v rest s s' r B L IH|v rest s s' B|v rest s e B]; intros i E; symmetry in E;
    (apply ev_loop; [exact Sa|]); rewrite N; unfold next_round.
  - rewrite (skipn_nil _ _ _ E). apply ev_done.
  - destruct (skipn_cons _ _ _ _ _ E) as (-> & E'). eapply ev_bind; [exact B|]. cbn. apply IH. symmetry. exact E'.
  - destruct (skipn_cons _ _ _ _ _ E) as (-> & _). eapply ev_bind; [exact B|]. apply ev_done.
  - destruct (skipn_cons _ _ _ _ _ E) as (-> & _). eapply ev_bind; [exact B|]. apply ev_done.
Qed.
Lemma ev_for : forall A v (s : A) body g, seen v ->
  (forall items, list_items h v = Ok items -> loops body items s (g items)) ->
  ev (l_for v s body) (bind (list_items h v) g).
Proof.
  intros A v s body g H L. destruct v as [| a | | | | |]; try apply ev_done. cbn in *.
  destruct (nth_error h a) as [[c attrs|t items|w|e]|] eqn:N;
    try (apply ev_loop; [apply H; reflexivity|]; rewrite N; apply ev_done).
  eapply ev_loop_from; [apply H; reflexivity|exact N|]. apply L. reflexivity.
Qed.
(** A body that never breaks *)
Lemma loops_bind : forall A (body : A -> pval -> LT (A * bool)) v rest s (rv : res A) r,
  ev (body s v) (bind rv (fun s' => Ok (s', false))) ->
  (forall s', rv = Ok s' -> loops body rest s' (r s')) -> loops body (v :: rest) s (bind rv r).
Proof.
  intros A body v rest s [s'|e] r B L; cbn in *.
  - eapply loops_next; [exact B|]. apply L. reflexivity.
  - apply loops_raise. exact B.
Qed.

Ltac st := apply ev_lbind; [solve [apply ev_get; assumption | apply ev_attr; assumption]|].

Lemma ev_attr_match : forall id dt issuer v, seen v ->
  ev (l_attr_match id dt issuer v) (o_attr_match h id dt issuer v).
Proof.
  intros id dt issuer v H. unfold l_attr_match, o_attr_match. st. intros i _.
  destruct (negb (same i id)); [apply ev_done|]. st. intros t _. destruct (negb (same t dt)); [apply ev_done|].
  st. intros s _. destruct issuer as [[]| | | | | |]; apply ev_done.
Qed.

Lemma bind_assoc : forall A B C (x : res A) (f : A -> res B) (g : B -> res C),
  bind (bind x f) g = bind x (fun v => bind (f v) g).
Proof. intros A B C [v|e] f g; reflexivity. Qed.
Lemma bind_bind_ok : forall A B (x : res A) (f : A -> B), bind x (fun v => Ok (f v)) =
  match x with Ok v => Ok (f v) | Raise e => Raise e end.
Proof. intros A B [v|e] f; reflexivity. Qed.

Lemma loops_typed_values : forall dt items, Forall seen items -> forall acc,
  loops (fun vs i => let+ t := l_attr i "dataType" in
    if same t dt then let+ v := l_pyval i in ret (vs ++ [v], false) else ret (vs, false))%list items acc
    (bind (o_typed_values h dt items) (fun vs => Ok (acc ++ vs)%list)).
Proof.
  intros dt items F. induction F as [|v items V F IH]; intro acc.
  - cbn. rewrite app_nil_r. apply loops_end.
  - cbn [o_typed_values]. rewrite bind_assoc.
    destruct (attr h v "dataType") as [t|e] eqn:T; cbn [bind].
    + destruct (same t dt) eqn:Q.
      * eapply loops_next; [|specialize (IH (acc ++ [as_pyval h v])%list); rewrite bind_assoc].
        -- eapply ev_bind; [apply ev_attr; exact V|]. rewrite T. cbn. rewrite Q.
           eapply ev_bind; [apply ev_pyval; exact V|]. apply ev_done.
        -- destruct (o_typed_values h dt items) as [vs|e]; cbn in *; [rewrite <- app_assoc in IH|]; exact IH.
      * eapply loops_next; [|specialize (IH acc); rewrite bind_assoc].
        -- eapply ev_bind; [apply ev_attr; exact V|]. rewrite T. cbn. rewrite Q. apply ev_done.
        -- destruct (o_typed_values h dt items) as [vs|e]; exact IH.
    + apply loops_raise. eapply ev_bind; [apply ev_attr; exact V|]. rewrite T. apply ev_done.
Qed.
Lemma ev_typed_values : forall dt l, seen l ->
  ev (l_typed_values dt l) (bind (list_items h l) (o_typed_values h dt)).
Proof.
  intros dt l H. apply ev_for; [exact H|]. intros items I.
  pose proof (loops_typed_values dt items (items_seen h S Hclosed l items H I) []) as L.
  cbn in L. destruct (o_typed_values h dt items); exact L.
Qed.

Lemma ev_collect_attrs : forall id dt issuer et bag l, seen l ->
  ev (l_collect_attrs id dt issuer et bag l)
     (bind (list_items h l) (fun attrs => o_collect_attrs h id dt issuer et bag attrs)).
Proof.
  intros id dt issuer et bag l H. apply ev_for; [exact H|]. intros items I.
  pose proof (items_seen h S Hclosed l items H I) as F. clear I. revert bag.
  induction F as [|v items V F IH]; intro bag; [apply loops_end|].
  cbn [o_collect_attrs]. pose proof (ev_attr_match id dt issuer v V) as M.
  destruct (o_attr_match h id dt issuer v) as [[|]|e]; cbn [bind].
  - pose proof (ev_attr v "attributeValues" V) as A. destruct (attr h v "attributeValues") as [w|e] eqn:W; cbn [bind].
    + pose proof (attr_seen h S Hclosed v _ w V W) as SW. pose proof (ev_typed_values dt w SW) as T.
      destruct (list_items h w) as [its|e]; cbn [bind] in *.
      * destruct (o_typed_values h dt its) as [vs|e]; cbn [bind].
        -- apply loops_bind; [|intros s' _; apply IH]. eapply ev_bind; [exact M|]. cbn. eapply ev_bind; [exact A|]. cbn.
           eapply ev_bind; [exact T|]. cbn. apply ev_pure. intros; apply ev_done.
        -- apply loops_raise. eapply ev_bind; [exact M|]. cbn. eapply ev_bind; [exact A|]. cbn.
           eapply ev_bind; [exact T|]. apply ev_done.
      * apply loops_raise. eapply ev_bind; [exact M|]. cbn. eapply ev_bind; [exact A|]. cbn.
        eapply ev_bind; [exact T|]. apply ev_done.
    + apply loops_raise. eapply ev_bind; [exact M|]. cbn. eapply ev_bind; [exact A|]. apply ev_done.
  - eapply loops_next; [eapply ev_bind; [exact M|]; apply ev_done|apply IH].
  - apply loops_raise. eapply ev_bind; [exact M|]. apply ev_done.
Qed.
Lemma ev_section : forall id dt issuer et bag v, seen v ->
  ev (let+ l := l_attr v "attributes" in l_collect_attrs id dt issuer et bag l)
     (bind (attr h v "attributes") (fun l => bind (list_items h l) (fun attrs =>
        o_collect_attrs h id dt issuer et bag attrs))).
Proof.
  intros id dt issuer et bag v V. apply ev_lbind; [apply ev_attr; exact V|]. intros l L.
  apply ev_collect_attrs. exact (attr_seen h S Hclosed v _ l V L).
Qed.

Lemma ev_collect_subjects : forall r d id dt issuer et l, seen l -> S r -> R r ->
  ev (l_collect_subjects r d id dt issuer et l)
     (bind (list_items h l) (fun subs => o_collect_subjects O h r d id dt issuer et [] subs)).
Proof.
  intros r d id dt issuer et l H Sr Rr. apply ev_for; [exact H|]. intros items I.
  pose proof (items_seen h S Hclosed l items H I) as F. clear I. generalize (@nil attrval) as bag.
  induction F as [|v items V F IH]; intro bag; [apply loops_end|].
  cbn [o_collect_subjects].
  assert (Q : forall F : list attrval -> res (list attrval),
    bind (attr h v "attributes") (fun l0 => bind (list_items h l0) (fun attrs =>
      bind (o_collect_attrs h id dt issuer et bag attrs) (fun bag1 =>
      bind (get_attr h r "ctxHandler") (fun hd =>
      bind (match hd with
            | PNat NNone => Ok bag1
            | _ => bind (oe_pip O h r d) (fun answer => add_pip_values et bag1 answer)
            end) F)))) =
    bind (bind (attr h v "attributes") (fun l0 => bind (bind (list_items h l0) (fun attrs =>
      o_collect_attrs h id dt issuer et bag attrs)) (fun bag1 => bind (get_attr h r "ctxHandler") (fun hd =>
        match hd with
        | PNat NNone => Ok bag1
        | _ => bind (oe_pip O h r d) (fun answer => add_pip_values et bag1 answer)
        end)))) F).
  { intro F'. repeat (rewrite ?bind_assoc; apply bind_cong; [reflexivity|]; intros). rewrite ?bind_assoc. reflexivity. }
  rewrite Q. clear Q. apply loops_bind; [|intros s' _; apply IH]. rewrite bind_assoc.
  apply ev_lbind; [apply ev_attr; exact V|]. intros w W. rewrite bind_assoc.
  apply ev_lbind; [apply ev_collect_attrs; exact (attr_seen h S Hclosed v _ w V W)|]. intros bag1 _. rewrite bind_assoc.
  pose proof (ev_get r "ctxHandler" Sr) as G. apply ev_lbind; [exact G|]. intros hd HD.
  destruct hd as [[]| | | | | |]; try apply ev_done; cbn [bind]; (eapply ev_bind; [exact G|]); rewrite HD, bind_assoc;
    (apply ev_lbind; [apply ev_pip; [exact Rr|]; apply ev_done|]; intros answer _; apply ev_pure; intros; apply ev_done).
Qed.

Lemma ev_collect_resources : forall id dt issuer et l, seen l ->
  ev (l_collect_resources id dt issuer et l)
     (bind (list_items h l) (fun rs => o_collect_resources h id dt issuer et [] rs)).
Proof.
  intros id dt issuer et l H. apply ev_for; [exact H|]. intros items I.
  pose proof (items_seen h S Hclosed l items H I) as F. clear I. generalize (@nil attrval) as bag.
  induction F as [|v items V F IH]; intro bag; [apply loops_end|].
  cbn [o_collect_resources].
  replace (bind (attr h v "attributes") (fun l0 => bind (list_items h l0) (fun attrs =>
      bind (o_collect_attrs h id dt issuer et bag attrs) (fun bag1 => o_collect_resources h id dt issuer et bag1 items))))
    with (bind (bind (attr h v "attributes") (fun l0 => bind (list_items h l0) (fun attrs =>
      o_collect_attrs h id dt issuer et bag attrs))) (fun bag1 => o_collect_resources h id dt issuer et bag1 items)).
  2:{ rewrite bind_assoc. apply bind_cong; [reflexivity|]. intros. apply bind_assoc. }
  apply loops_bind; [|intros s' _; apply IH]. rewrite bind_assoc.
  apply ev_lbind; [apply ev_attr; exact V|]. intros w W. apply ev_lbind; [|intros; apply ev_done].
  apply ev_collect_attrs. exact (attr_seen h S Hclosed v _ w V W).
Qed.

Variable c : pval.
Hypothesis Hc : seen c.
Hypothesis HR : forall r, c = PRef r -> R r.

Lemma is_request_ref : forall r, is_request h c = Some r -> c = PRef r.
Proof.
  intros r G. destruct c as [| a | | | | |]; try discriminate G. cbn in G.
  destruct (nth_error h a) as [[[]| | |]|]; try discriminate G. injection G as <-. reflexivity.
Qed.

Lemma ev_designator : forall k d, S d -> ev (l_eval_designator O k d c) (o_eval_designator O h k d c).
Proof.
  intros k d D. unfold l_eval_designator, o_eval_designator.
  eapply ev_bind; [apply ev_is_request; exact Hc|]. cbn beta iota.
  destruct (is_request h c) as [r|] eqn:Rq; [|apply ev_done]. pose proof (request_seen h S c r Hc Rq) as Sr.
  pose proof (HR r (is_request_ref r Rq)) as Rr.
  st. intros dt _. st. intros id _. st. intros issuer _.
  assert (Sec : forall name et, ev (let+ x := l_get r name in let+ attrs := l_attr x "attributes" in
        l_collect_attrs id dt issuer et [] attrs)
      (bind (get_attr h r name) (fun x => bind (attr h x "attributes") (fun l => bind (list_items h l) (fun attrs =>
        o_collect_attrs h id dt issuer et [] attrs))))).
  { intros name et. st. intros x X. apply ev_section. exact (get_seen h S Hclosed _ _ _ Sr X). }
  apply ev_lbind.
  - destruct k; [| |apply Sec|apply Sec]; st; intros l L; pose proof (get_seen h S Hclosed _ _ _ Sr L) as SL.
    + apply ev_collect_subjects; assumption.
    + apply ev_collect_resources; assumption.
  - intros bag _. st. intros must _. apply ev_done.
Qed.

Lemma ev_selector : forall s, S s -> ev (l_eval_selector O s c) (o_eval_selector O h s c).
Proof.
  intros s D. unfold l_eval_selector, o_eval_selector.
  eapply ev_bind; [apply ev_is_request; exact Hc|]. cbn beta iota.
  destruct (is_request h c) as [r|] eqn:Rq; [|apply ev_done]. pose proof (request_seen h S c r Hc Rq) as Sr.
  pose proof (HR r (is_request_ref r Rq)) as Rr.
  st. intros sel X.
  destruct sel as [[]| | | | | |]; try apply ev_done; st; intros dt _;
    (destruct dt as [[]| | | | | |]; try apply ev_done);
    (match goal with |- context [dict_get ?s (oe_classes O)] => destruct (dict_get s (oe_classes O)) end; [|apply ev_done]);
    (eapply ev_bind; [apply ev_get; exact Sr|]); rewrite X; cbn beta iota; st; intros path _;
    (apply ev_lbind; [apply ev_xpath; [exact Rr|]; apply ev_done|]); intros texts _; apply ev_pure; intros bag _;
    st; intros must _; apply ev_done.
Qed.

Lemma ev_expr : forall n x, seen x -> ev (l_eval_expr O n c x) (o_eval_expr O h n c x).
Proof.
  induction n as [|n IH]; intros [| a | | | | |] H; try apply ev_done.
  assert (Sa : S a) by (apply H; reflexivity).
  cbn [l_eval_expr o_eval_expr]. apply ev_look; [exact Sa|].
  destruct (nth_error h a) as [[k attrs|t its|w|e]|] eqn:N; try apply ev_done.
  destruct k; try apply ev_done; [apply ev_designator; exact Sa | apply ev_selector; exact Sa |].
  eapply ev_lbind; [apply ev_get; exact Sa|]. intros l L. pose proof (get_seen h S Hclosed _ _ _ Sa L) as SL.
  pose proof (ev_len l SL) as Len. destruct (list_items h l) as [items|e] eqn:I; cbn [bind] in *.
  2:{ eapply ev_bind; [exact Len|]. apply ev_done. }
  eapply ev_bind; [exact Len|]. cbn beta iota. eapply ev_bind; [apply ev_get; exact Sa|]. rewrite L. cbn beta iota.
  set (size := length items).
  assert (Lp : ev (l_for l [] (fun inputs x => let+ v := l_eval_expr O n c x in
      if Nat.ltb (length inputs) size then ret ((inputs ++ [v])%list, false) else raise EIndexError))
    (bind (list_items h l) (mapM (o_eval_expr O h n c)))).
  { apply ev_for; [exact SL|]. intros its I'. rewrite I in I'. injection I' as <-.
    pose proof (items_seen h S Hclosed l items SL I) as F.
    assert (G : forall acc rest, Forall seen rest -> length acc + length rest = size ->
      loops (fun inputs x => let+ v := l_eval_expr O n c x in
        if Nat.ltb (length inputs) size then ret ((inputs ++ [v])%list, false) else raise EIndexError) rest acc
        (bind (mapM (o_eval_expr O h n c) rest) (fun vs => Ok (acc ++ vs)%list))).
    { intros acc rest Fr. revert acc. induction Fr as [|v rest V Fr IHr]; intros acc Q; cbn [length] in Q.
      - cbn. rewrite app_nil_r. apply loops_end.
      - cbn [mapM]. rewrite bind_assoc. pose proof (IH v V) as X.
        destruct (o_eval_expr O h n c v) as [y|e]; cbn [bind].
        + eapply loops_next.
          * eapply ev_bind; [exact X|]. cbn beta iota. assert (B : Nat.ltb (length acc) size = true) by (apply Nat.ltb_lt; lia).
            rewrite B. apply ev_done.
          * specialize (IHr (acc ++ [y])%list). rewrite app_length in IHr. cbn [length] in IHr.
            specialize (IHr ltac:(lia)). fold (mapM (o_eval_expr O h n c)). rewrite bind_assoc.
            destruct (mapM (o_eval_expr O h n c) rest) as [vs|e]; cbn in *; [rewrite <- app_assoc in IHr|]; exact IHr.
        + apply loops_raise. eapply ev_bind; [exact X|]. apply ev_done. }
    specialize (G [] items F eq_refl). cbn in G.
    destruct (mapM (o_eval_expr O h n c) items); exact G. }
  rewrite I in Lp. cbn [bind] in Lp. apply ev_lbind; [exact Lp|]. intros inputs M.
  assert (Ln : length inputs = size).
  { unfold size. clear - M. revert inputs M. induction items as [|x items IHi]; intros inputs M; cbn in M.
    - injection M as <-. reflexivity.
    - destruct (o_eval_expr O h n c x); [|discriminate]. cbn in M. fold (mapM (o_eval_expr O h n c)) in M.
      destruct (mapM (o_eval_expr O h n c) items) as [ys|e] eqn:Q; [|discriminate]. cbn in M. injection M as <-.
      cbn. f_equal. apply IHi. reflexivity. }
  st. intros f _. rewrite Ln, Nat.sub_diag. cbn [repeat]. rewrite app_nil_r. destruct f; apply ev_done.
Qed.

Lemma ev_condition : forall n v, seen v -> ev (l_eval_condition O n c v) (o_eval_condition O h n c v).
Proof.
  intros n v V. unfold l_eval_condition, o_eval_condition. st. intros x X. apply ev_expr.
  exact (attr_seen h S Hclosed _ _ _ V X).
Qed.

Lemma ev_match_values : forall f value, seen value -> forall bag status,
  ev (l_match_values O f value status bag)
     (bind (mapM (fun v => match f with
                           | PFn f => fn_eval (oe_fenv O) f [as_pyval h value; PAttr v]
                           | _ => Raise EAttributeError
                           end) bag) (fun results => Ok (status || existsb truthy results))).
Proof.
  intros f value V. induction bag as [|v bag IH]; intro status; cbn [l_match_values mapM].
  - cbn. rewrite Bool.orb_false_r. apply ev_done.
  - destruct f as [| |f | | | |]; try apply ev_done. eapply ev_bind; [apply ev_pyval; exact V|]. cbn beta iota.
    rewrite bind_assoc. apply ev_pure. intros y _. specialize (IH (status || truthy y)).
    match goal with |- ev _ (bind (bind ?X _) _) => change X with
      (mapM (fun v => fn_eval (oe_fenv O) f [as_pyval h value; PAttr v]) bag) end.
    rewrite bind_assoc. cbn [bind existsb].
    destruct (mapM (fun v => fn_eval (oe_fenv O) f [as_pyval h value; PAttr v]) bag); cbn [bind] in *;
      [rewrite Bool.orb_assoc|]; exact IH.
Qed.

Lemma ev_match : forall m, seen m -> ev (l_eval_match O c m) (o_eval_match O h c m).
Proof.
  intros m M. unfold l_eval_match, o_eval_match. st. intros d Dd.
  apply ev_lbind.
  - destruct d as [[]| a | | | | |];
      try (eapply ev_bind; [apply ev_attr; exact M|]; rewrite Dd; apply ev_done).
    + st. intros s Ss. destruct s as [[]| a | | | | |]; try apply ev_done;
        (eapply ev_bind; [apply ev_attr; exact M|]; rewrite Ss; try apply ev_done).
      pose proof (attr_seen h S Hclosed _ _ _ M Ss a eq_refl) as Sa. apply ev_look; [exact Sa|].
      destruct (nth_error h a) as [[[]| | |]|]; try apply ev_done. apply ev_selector; exact Sa.
    + eapply ev_bind; [apply ev_attr; exact M|]. rewrite Dd. cbn beta iota.
      pose proof (attr_seen h S Hclosed _ _ _ M Dd a eq_refl) as Sa. apply ev_look; [exact Sa|].
      destruct (nth_error h a) as [[[]| | |]|]; try apply ev_done. apply ev_designator; exact Sa.
  - intros bag _. st. intros f _. st. intros value Vv.
    pose proof (ev_match_values f value (attr_seen h S Hclosed _ _ _ M Vv) (bag_items bag) false) as X. exact X.
Qed.

Lemma ev_child : forall v, seen v -> ev (l_match_child O c v) (o_match_child O h c v).
Proof.
  intros v V. unfold l_match_child, o_match_child. st. intros l L. pose proof (attr_seen h S Hclosed _ _ _ V L) as SL.
  pose proof (ev_len l SL) as Len. destruct (list_items h l) as [items|e] eqn:I; cbn [bind] in *.
  2:{ eapply ev_bind; [exact Len|]. apply ev_done. }
  eapply ev_bind; [exact Len|]. cbn beta iota. eapply ev_bind; [apply ev_attr; exact V|]. rewrite L. cbn beta iota.
  set (size := length items).
  assert (Lp : ev (l_for l (0, true) (fun '(i, status) m => let+ b := l_eval_match O c m in
      if Nat.ltb i size then ret ((Datatypes.S i, status && b), false) else raise EIndexError))
    (bind (list_items h l) (fun items => bind (mapM (o_eval_match O h c) items) (fun bs =>
        Ok (length bs, forallb (fun b => b) bs))))).
  { apply ev_for; [exact SL|]. intros its I'. rewrite I in I'. injection I' as <-.
    pose proof (items_seen h S Hclosed l items SL I) as F.
    assert (G : forall i status rest, Forall seen rest -> i + length rest = size ->
      loops (fun '(i, status) m => let+ b := l_eval_match O c m in
        if Nat.ltb i size then ret ((Datatypes.S i, status && b), false) else raise EIndexError) rest (i, status)
        (bind (mapM (o_eval_match O h c) rest) (fun bs => Ok (i + length bs, status && forallb (fun b => b) bs)))).
    { intros i status rest Fr. revert i status. induction Fr as [|m rest M Fr IHr]; intros i status Q; cbn [length] in Q.
      - cbn. rewrite Nat.add_0_r, Bool.andb_true_r. apply loops_end.
      - cbn [mapM]. rewrite bind_assoc. pose proof (ev_match m M) as X.
        destruct (o_eval_match O h c m) as [b|e]; cbn [bind].
        + eapply loops_next.
          * eapply ev_bind; [exact X|]. cbn beta iota. assert (B : Nat.ltb i size = true) by (apply Nat.ltb_lt; lia).
            rewrite B. apply ev_done.
          * specialize (IHr (Datatypes.S i) (status && b) ltac:(lia)). fold (mapM (o_eval_match O h c)). rewrite bind_assoc.
            destruct (mapM (o_eval_match O h c) rest) as [bs|e]; cbn [bind length forallb] in *; [|exact IHr].
            rewrite <- Bool.andb_assoc in IHr. rewrite Nat.add_succ_r. exact IHr.
        + apply loops_raise. eapply ev_bind; [exact X|]. apply ev_done. }
    specialize (G 0 true items F eq_refl). cbn in G. exact G. }
  rewrite I in Lp. cbn [bind] in Lp. destruct (mapM (o_eval_match O h c) items) as [bs|e]; cbn [bind] in *;
    (eapply ev_bind; [exact Lp|]; apply ev_done).
Qed.

Lemma ev_match_section : forall t name, seen t -> ev (l_match_section O c t name) (o_match_section O h c t name).
Proof.
  intros t name T. unfold l_match_section, o_match_section. st. intros l L.
  pose proof (attr_seen h S Hclosed _ _ _ T L) as SL.
  pose proof (ev_len l SL) as Len. destruct (list_items h l) as [items|e] eqn:I; cbn [bind] in *;
    (eapply ev_bind; [exact Len|]); cbn beta iota; [|apply ev_done].
  assert (Lp : ev (l_for l false (fun status child => let+ b := l_match_child O c child in
      ret (if b then true else status, false))) (bind (list_items h l) (o_section_loop O h c false))).
  { apply ev_for; [exact SL|]. intros its I'. rewrite I in I'. injection I' as <-.
    pose proof (items_seen h S Hclosed l items SL I) as F.
    cut (forall status, loops (fun status child => let+ b := l_match_child O c child in
      ret (if b then true else status, false)) items status (o_section_loop O h c status items)); [intro X; apply X|].
    clear - F Hc HR Hclosed. induction F as [|v items V F IH]; intro status; [apply loops_end|].
    cbn [o_section_loop]. pose proof (ev_child v V) as X. destruct (o_match_child O h c v) as [b|e]; cbn [bind].
    - eapply loops_next; [|apply IH]. eapply ev_bind; [exact X|]. apply ev_done.
    - apply loops_raise. eapply ev_bind; [exact X|]. apply ev_done. }
  rewrite I in Lp. cbn [bind] in Lp. destruct items as [|v items]; [apply ev_done|]. exact Lp.
Qed.

Lemma ev_sections : forall t, seen t -> forall names status,
  ev (l_match_sections O c t status names)
     (bind (mapM (o_match_section O h c t) names) (fun bs => Ok (status && forallb (fun b => b) bs))).
Proof.
  intros t T. induction names as [|name names IH]; intro status; cbn [l_match_sections mapM].
  - cbn. rewrite Bool.andb_true_r. apply ev_done.
  - rewrite bind_assoc. apply ev_lbind; [apply ev_match_section; exact T|]. intros b _. specialize (IH (status && b)).
    fold (mapM (o_match_section O h c t)). rewrite bind_assoc.
    destruct (mapM (o_match_section O h c t) names) as [bs|e]; cbn [bind forallb] in *; [rewrite Bool.andb_assoc|]; exact IH.
Qed.

Lemma ev_check_target : forall v, seen v -> ev (l_check_target O c v) (o_check_target O h c v).
Proof.
  intros v V. unfold l_check_target, o_check_target. st. intros t T.
  pose proof (attr_seen h S Hclosed _ _ _ V T) as ST.
  pose proof (ev_sections t ST ["subjects"; "resources"; "actions"; "environments"] true) as X.
  destruct t as [[]| | | | | |]; try apply ev_done; (eapply ev_bind; [apply ev_attr; exact V|]); rewrite T; cbn beta iota; exact X.
Qed.

Lemma ev_effect_value : forall r, seen r -> ev (l_effect_value r) (o_effect_value h r).
Proof.
  intros r H. unfold l_effect_value, o_effect_value. st. intros e Ee. apply ev_attr.
  exact (attr_seen h S Hclosed _ _ _ H Ee).
Qed.
Lemma ev_is_deny : forall r, seen r -> ev (l_effect_is_deny r) (o_effect_is_deny h r).
Proof.
  intros r H. unfold l_effect_is_deny, o_effect_is_deny. apply ev_lbind; [apply ev_effect_value; exact H|].
  intros v _. apply ev_pure. intros; apply ev_done.
Qed.
Lemma ev_is_permit : forall r, seen r -> ev (l_effect_is_permit r) (o_effect_is_permit h r).
Proof.
  intros r H. unfold l_effect_is_permit, o_effect_is_permit. apply ev_lbind; [apply ev_effect_value; exact H|].
  intros v _. apply ev_done.
Qed.

Lemma ev_rule : forall n r, seen r -> ev (l_rule_eval O n c r) (o_rule_eval O h n c r).
Proof.
  intros n r H. unfold l_rule_eval, o_rule_eval, l_catch. eapply ev_bind; [|apply ev_done].
  unfold l_rule_body, o_rule_body. apply ev_lbind; [apply ev_check_target; exact H|]. intros b _.
  destruct (negb b); [apply ev_done|]. st. intros cond C. apply ev_lbind.
  - destruct cond as [[]| | | | | |]; try apply ev_done; (eapply ev_bind; [apply ev_attr; exact H|]); rewrite C; cbn beta iota;
      (apply ev_condition; exact (attr_seen h S Hclosed _ _ _ H C)).
  - intros status _. destruct (truthy status); [|apply ev_done]. apply ev_lbind; [apply ev_effect_value; exact H|].
    intros; apply ev_done.
Qed.

(** A loop and what is done after it *)
Lemma ev_for_then : forall A B l (s0 : A) body (fin : A -> LT B) (g : list pval -> res B), seen l ->
  (forall items, Forall seen items -> exists x, loops body items s0 x /\
     ev (match x with Ok v => fin v | Raise e => LDone (Raise e) end) (g items)) ->
  ev (lbind (l_for l s0 body) fin) (bind (list_items h l) g).
Proof.
  intros A B l s0 body fin g SL G. destruct (list_items h l) as [items|e] eqn:I; cbn [bind].
  - destruct (G items (items_seen h S Hclosed l items SL I)) as (x & L & Y).
    eapply ev_bind; [|exact Y].
    assert (X : ev (l_for l s0 body) (bind (list_items h l) (fun _ => x))).
    { apply ev_for; [exact SL|]. intros its I'. rewrite I in I'. injection I' as <-. exact L. }
    rewrite I in X. exact X.
  - eapply ev_bind with (r1 := Raise e); [|apply ev_done].
    assert (X : ev (l_for l s0 body) (bind (list_items h l) (fun _ => @Raise A e))).
    { apply ev_for; [exact SL|]. intros its I'. congruence. }
    rewrite I in X. exact X.
Qed.

Section Combine.
Variable f : pval -> LT decision.
Variable g : pval -> res decision.
Hypothesis Hf : forall v, seen v -> ev (f v) (g v).

Ltac on X := eapply ev_bind; [exact X|]; cbn beta iota.
Ltac go_on L X := eexists; split; [eapply loops_next; [|exact L]; on X; apply ev_done|].

Lemma ev_rules_do : forall l, seen l ->
  ev (l_rules_deny_overrides f l) (bind (list_items h l) (o_rules_deny_overrides h g false false false)).
Proof.
  intros l SL. unfold l_rules_deny_overrides.
  match goal with |- ev (lbind (l_for l _ ?b) ?k) _ => set (body := b); set (fin := k) end.
  apply ev_for_then; [exact SL|]. intros items F.
  cut (forall e p q : bool, exists x, loops body items (e, p, q, None) x /\
    ev (match x with Ok v => fin v | Raise e => LDone (Raise e) end) (o_rules_deny_overrides h g e p q items)); [intro G; apply G|].
  induction F as [|v items V F IH]; intros e p q.
  - eexists; split; [apply loops_end|]. cbn. destruct p, q, e; apply ev_done.
  - cbn [o_rules_deny_overrides]. pose proof (Hf v V) as X. destruct (g v) as [[]|x]; cbn [bind].
    + destruct (IH e p true) as (x & L & Y). go_on L X. exact Y.
    + eexists; split; [apply loops_break; on X; apply ev_done|]. apply ev_done.
    + pose proof (ev_is_deny v V) as D. destruct (o_effect_is_deny h v) as [b|x]; cbn [bind].
      * destruct (IH true (if b then true else p) q) as (x & L & Y). exists x; split; [|exact Y].
        eapply loops_next; [|exact L]. on X. on D. apply ev_done.
      * exists (Raise x); split; [|apply ev_done]. apply loops_raise. on X. on D. apply ev_done.
    + destruct (IH e p q) as (x & L & Y). go_on L X. exact Y.
    + exists (Raise x); split; [|apply ev_done]. apply loops_raise. on X. apply ev_done.
Qed.

Lemma ev_rules_po : forall l, seen l ->
  ev (l_rules_permit_overrides f l) (bind (list_items h l) (o_rules_permit_overrides h g false false false)).
Proof.
  intros l SL. unfold l_rules_permit_overrides.
  match goal with |- ev (lbind (l_for l _ ?b) ?k) _ => set (body := b); set (fin := k) end.
  apply ev_for_then; [exact SL|]. intros items F.
  cut (forall e p q : bool, exists x, loops body items (e, p, q, None) x /\
    ev (match x with Ok v => fin v | Raise e => LDone (Raise e) end) (o_rules_permit_overrides h g e p q items)); [intro G; apply G|].
  induction F as [|v items V F IH]; intros e p q.
  - eexists; split; [apply loops_end|]. cbn. destruct p, q, e; apply ev_done.
  - cbn [o_rules_permit_overrides]. pose proof (Hf v V) as X. destruct (g v) as [[]|x]; cbn [bind].
    + eexists; split; [apply loops_break; on X; apply ev_done|]. apply ev_done.
    + destruct (IH e p true) as (x & L & Y). go_on L X. exact Y.
    + pose proof (ev_is_permit v V) as D. destruct (o_effect_is_permit h v) as [b|x]; cbn [bind].
      * destruct (IH true (if b then true else p) q) as (x & L & Y). exists x; split; [|exact Y].
        eapply loops_next; [|exact L]. on X. on D. apply ev_done.
      * exists (Raise x); split; [|apply ev_done]. apply loops_raise. on X. on D. apply ev_done.
    + destruct (IH e p q) as (x & L & Y). go_on L X. exact Y.
    + exists (Raise x); split; [|apply ev_done]. apply loops_raise. on X. apply ev_done.
Qed.

Lemma ev_first : forall l, seen l ->
  ev (l_first_applicable f l) (bind (list_items h l) (o_first_applicable g)).
Proof.
  intros l SL. unfold l_first_applicable. apply ev_for_then; [exact SL|].
  intros items F. induction F as [|v items V F IH].
  - eexists; split; [apply loops_end|]. apply ev_done.
  - cbn [o_first_applicable]. pose proof (Hf v V) as X. destruct (g v) as [[]|x]; cbn [bind];
      try (eexists; split; [apply loops_break; on X; apply ev_done|]; apply ev_done).
    + destruct IH as (x & L & Y). go_on L X. exact Y.
    + exists (Raise x); split; [|apply ev_done]. apply loops_raise. on X. apply ev_done.
Qed.

Lemma ev_policies_do : forall l, seen l ->
  ev (l_policies_deny_overrides f l) (bind (list_items h l) (o_policies_deny_overrides g false)).
Proof.
  intros l SL. unfold l_policies_deny_overrides.
  match goal with |- ev (lbind (l_for l _ ?b) ?k) _ => set (body := b); set (fin := k) end.
  apply ev_for_then; [exact SL|]. intros items F.
  cut (forall q : bool, exists x, loops body items (q, None) x /\
    ev (match x with Ok v => fin v | Raise e => LDone (Raise e) end) (o_policies_deny_overrides g q items)); [intro G; apply G|].
  induction F as [|v items V F IH]; intro q.
  - eexists; split; [apply loops_end|]. cbn. destruct q; apply ev_done.
  - cbn [o_policies_deny_overrides]. pose proof (Hf v V) as X. destruct (g v) as [[]|x]; cbn [bind];
      try (eexists; split; [apply loops_break; on X; apply ev_done|]; apply ev_done).
    + destruct (IH true) as (x & L & Y). go_on L X. exact Y.
    + destruct (IH q) as (x & L & Y). go_on L X. exact Y.
    + exists (Raise x); split; [|apply ev_done]. apply loops_raise. on X. apply ev_done.
Qed.

Lemma ev_policies_po : forall l, seen l ->
  ev (l_policies_permit_overrides f l) (bind (list_items h l) (o_policies_permit_overrides g false false)).
Proof.
  intros l SL. unfold l_policies_permit_overrides.
  match goal with |- ev (lbind (l_for l _ ?b) ?k) _ => set (body := b); set (fin := k) end.
  apply ev_for_then; [exact SL|]. intros items F.
  cut (forall e q : bool, exists x, loops body items (e, q, None) x /\
    ev (match x with Ok v => fin v | Raise e => LDone (Raise e) end) (o_policies_permit_overrides g e q items)); [intro G; apply G|].
  induction F as [|v items V F IH]; intros e q.
  - eexists; split; [apply loops_end|]. cbn. destruct q, e; apply ev_done.
  - cbn [o_policies_permit_overrides]. pose proof (Hf v V) as X. destruct (g v) as [[]|x]; cbn [bind].
    + eexists; split; [apply loops_break; on X; apply ev_done|]. apply ev_done.
    + destruct (IH e true) as (x & L & Y). go_on L X. exact Y.
    + destruct (IH true q) as (x & L & Y). go_on L X. exact Y.
    + destruct (IH e q) as (x & L & Y). go_on L X. exact Y.
    + exists (Raise x); split; [|apply ev_done]. apply loops_raise. on X. apply ev_done.
Qed.
End Combine.

Lemma ev_policy : forall n p, seen p -> ev (l_policy_eval O n c p) (o_policy_eval O h n c p).
Proof.
  induction n as [|n IH]; intros [| a | | | | |] H; try apply ev_done.
  assert (Sa : S a) by (apply H; reflexivity).
  cbn [l_policy_eval o_policy_eval]. apply ev_look; [exact Sa|].
  destruct (nth_error h a) as [[[] attrs|t its|w|e]|] eqn:N; try apply ev_done;
    (eapply ev_bind; [|apply ev_done]);
    (apply ev_lbind; [apply ev_check_target; exact H|]); intros m _;
    (destruct (negb m); [apply ev_done|]); st; intros alg _; destruct alg; try apply ev_done;
    st; intros l L; pose proof (get_seen h S Hclosed _ _ _ Sa L) as SL.
  - destruct a0; cbn [l_combine_rules o_combine_rules];
      [apply ev_rules_do | apply ev_rules_po | apply ev_first]; try exact SL; intros v V; apply ev_rule; exact V.
  - destruct a0; cbn [l_combine_policies o_combine_policies];
      [apply ev_policies_do | apply ev_policies_po | apply ev_first]; try exact SL; intros v V; apply IH; exact V.
Qed.
End Ev.
