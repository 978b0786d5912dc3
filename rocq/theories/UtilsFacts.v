(** Facts about the container classes. *)
From Verif Require Import Utils SpecSetters SpecUtils SettersFacts StateFacts.

Lemma in_snoc : forall A (l : list A) x, In x (l ++ [x]).
Proof. intros. apply in_or_app. right. left. reflexivity. Qed.

(** ** TypedList *)
Section TL.
Context {A : Type}.
Variable inst : A -> bool.

Lemma tl_step_spec : forall l o,
  (forallb inst (offered o) = true ->
     tl_step inst l o = (Ok tt, l ++ match o with
                                     | LExtend (OneShot _) | LIadd (OneShot _) => []
                                     | _ => offered o
                                     end)) /\
  (forallb inst (offered o) = false -> tl_step inst l o = (Raise ETypeError, l)).
Proof.
  intros l [x|[m|m]|[m|m]]; cbn; unfold tl_append, tl_extend, tl_iadd; cbn;
    rewrite ?andb_true_r; split; intros H; rewrite ?H; reflexivity.
Qed.

Lemma tl_run_snoc : forall ops o l, tl_run inst (ops ++ [o]) l = snd (tl_step inst (tl_run inst ops l) o).
Proof. intros. unfold tl_run. rewrite fold_left_app. reflexivity. Qed.

Lemma tl_run_inv : forall ops l, (forall x, In x l -> inst x = true) ->
  forall x, In x (tl_run inst ops l) -> inst x = true.
Proof.
  intros ops l Hl. induction ops as [|o ops IH] using rev_ind; [exact Hl|].
  intros x. rewrite tl_run_snoc. destruct (tl_step_spec (tl_run inst ops l) o) as [H1 H2].
  destruct (forallb inst (offered o)) eqn:E.
  - rewrite (H1 eq_refl). cbn [snd]. intros Hx. apply in_app_or in Hx.
    destruct Hx as [Hx|Hx]; [apply IH; exact Hx|].
    rewrite forallb_forall in E. apply E. destruct o as [y|[m|m]|[m|m]]; try exact Hx; destruct Hx.
  - rewrite (H2 eq_refl). apply IH.
Qed.

Lemma tl_run_content : forall ops l, (forall o, In o ops -> reiterable o) ->
  tl_run inst ops l = (l ++ flat_map (fun o => if forallb inst (offered o) then offered o else []) ops)%list.
Proof.
  intros ops l. induction ops as [|o ops IH] using rev_ind; intros Hr.
  - cbn. rewrite app_nil_r. reflexivity.
  - rewrite tl_run_snoc, IH by (intros o' Ho'; apply Hr; apply in_or_app; auto).
    rewrite flat_map_app. cbn [flat_map]. rewrite app_nil_r, app_assoc.
    match goal with |- snd (tl_step _ ?l0 _) = _ => destruct (tl_step_spec l0 o) as [H1 H2] end.
    assert (Ho : reiterable o) by (apply Hr; apply in_or_app; right; left; reflexivity).
    destruct (forallb inst (offered o)) eqn:E.
    + rewrite (H1 eq_refl). cbn [snd]. destruct o as [y|[m|m]|[m|m]]; try reflexivity; destruct Ho.
    + rewrite (H2 eq_refl), app_nil_r. reflexivity.
Qed.
End TL.

(** ** UniqList *)
Section UL.
Context {A : Type}.
Variable same : A -> A -> bool.
Variable eq : A -> A -> res bool.

Lemma ul_contains_false : forall x l, ul_contains same eq x l = Ok false ->
  forall y, In y l -> eq y x = Ok false.
Proof.
  intros x l. induction l as [|z l IH]; intros H y Hy; [destruct Hy|]. cbn in H.
  destruct (same z x); [discriminate|]. destruct (eq z x) as [[]|] eqn:E; cbn in H; try discriminate.
  destruct Hy as [<-|Hy]; [exact E|apply IH; assumption].
Qed.

Lemma ul_present_false : forall x l, ul_present eq x l = Ok false ->
  forall y, In y l -> eq y x = Ok false.
Proof.
  intros x l. induction l as [|z l IH]; intros H y Hy; [destruct Hy|]. cbn in H.
  destruct (eq z x) as [[]|] eqn:E; cbn in H; try discriminate.
  destruct Hy as [<-|Hy]; [exact E|apply IH; assumption].
Qed.

Inductive sublist : list A -> list A -> Prop :=
| sub_nil : sublist [] []
| sub_skip : forall x a b, sublist a b -> sublist a (x :: b)
| sub_keep : forall x a b, sublist a b -> sublist (x :: a) (x :: b).

Lemma ul_new_items_spec : forall self l k, ul_new_items same eq self l = Ok k ->
  sublist k l /\ forall x, In x k -> forall y, In y self -> eq y x = Ok false.
Proof.
  intros self l. induction l as [|x l IH]; intros k H; cbn in H.
  - injection H as <-. split; [constructor|intros x []].
  - destruct (ul_contains same eq x self) as [b|] eqn:E; cbn in H; [|discriminate].
    destruct (ul_new_items same eq self l) as [r|]; cbn in H; [|discriminate].
    injection H as <-. destruct (IH r eq_refl) as [Hs Hx]. destruct b.
    + split; [constructor; exact Hs|exact Hx].
    + split; [apply sub_keep; exact Hs|]. intros z [<-|Hz]; [|apply Hx; exact Hz].
      apply ul_contains_false. exact E.
Qed.

Lemma no_equal_nil : no_equal eq [].
Proof. intros i j x y _ H. destruct i; discriminate. Qed.

Lemma no_equal_cons : forall x l, no_equal eq (x :: l) <->
  (forall y, In y l -> eq x y = Ok false) /\ no_equal eq l.
Proof.
  intros x l. split.
  - intros H. split.
    + intros y Hy. apply In_nth_error in Hy. destruct Hy as [n Hn].
      apply (H 0 (S n)); [apply Nat.lt_0_succ|reflexivity|exact Hn].
    + intros i j a b Hij Ha Hb. apply (H (S i) (S j)); auto. apply -> Nat.succ_lt_mono. exact Hij.
  - intros [H1 H2] i j a b Hij Ha Hb. destruct j as [|j]; [inversion Hij|].
    destruct i as [|i]; cbn in Ha, Hb.
    + injection Ha as <-. apply H1. apply nth_error_In in Hb. exact Hb.
    + apply (H2 i j); auto. apply Nat.succ_lt_mono. exact Hij.
Qed.

Lemma no_equal_app : forall a b, no_equal eq a -> no_equal eq b ->
  (forall x, In x b -> forall y, In y a -> eq y x = Ok false) -> no_equal eq (a ++ b).
Proof.
  induction a as [|x a IH]; intros b Ha Hb H; [exact Hb|].
  cbn [app]. apply no_equal_cons in Ha. destruct Ha as [Hx Ha]. apply no_equal_cons. split.
  - intros y Hy. apply in_app_or in Hy. destruct Hy as [Hy|Hy]; [apply Hx; exact Hy|].
    apply H; [exact Hy|left; reflexivity].
  - apply IH; [exact Ha|exact Hb|]. intros z Hz y Hy. apply H; [exact Hz|right; exact Hy].
Qed.

Lemma sublist_in : forall a b, sublist a b -> forall x, In x a -> In x b.
Proof.
  intros a b H. induction H; intros z Hz; [destruct Hz|right; auto|].
  destruct Hz as [<-|Hz]; [left; reflexivity|right; auto].
Qed.

Lemma no_equal_sublist : forall a b, sublist a b -> no_equal eq b -> no_equal eq a.
Proof.
  intros a b H. induction H; intros Hb; [apply no_equal_nil| |].
  - apply no_equal_cons in Hb. apply IHsublist, Hb.
  - apply no_equal_cons in Hb. destruct Hb as [H1 H2]. apply no_equal_cons. split; [|auto].
    intros y Hy. apply H1. apply (sublist_in a b); assumption.
Qed.

Lemma ul_run_snoc : forall ops o l,
  ul_run same eq (ops ++ [o]) l = snd (ul_step same eq (ul_run same eq ops l) o).
Proof. intros. unfold ul_run. rewrite fold_left_app. reflexivity. Qed.

Lemma ul_run_no_equal : forall ops,
  (forall o, In o ops -> match o with LAppend _ => True | _ => no_equal eq (offered o) end) ->
  no_equal eq (ul_run same eq ops []).
Proof.
  intros ops. induction ops as [|o ops IH] using rev_ind; intros H; [apply no_equal_nil|].
  rewrite ul_run_snoc. set (l := ul_run same eq ops []) in *.
  assert (Hl : no_equal eq l) by (apply IH; intros o' Ho'; apply H; apply in_or_app; auto).
  assert (Ho := H o (in_snoc _ ops o)).
  assert (Hext : forall it, no_equal eq (items it) -> 
     no_equal eq (snd (match ul_new_items same eq l (fst (iterate it)) with
                       | Ok k => (Ok tt, (l ++ k)%list) | Raise e => (Raise e, l) end))).
  { intros it Hit. destruct (ul_new_items same eq l (fst (iterate it))) as [k|e] eqn:E; [|exact Hl].
    cbn [snd]. destruct (ul_new_items_spec _ _ _ E) as [Hs Hx]. apply no_equal_app; [exact Hl| |exact Hx].
    apply (no_equal_sublist k (items it)); [|exact Hit]. destruct it; exact Hs. }
  destruct o as [x|it|it]; cbn [ul_step].
  - unfold ul_append. destruct (ul_present eq x l) as [[]|e] eqn:E; try exact Hl. cbn [snd].
    apply no_equal_app; [exact Hl| |].
    + apply no_equal_cons. split; [intros y []|apply no_equal_nil].
    + intros z [<-|[]] y Hy. apply (ul_present_false _ _ E). exact Hy.
  - apply Hext. exact Ho.
  - apply Hext. exact Ho.
Qed.

Lemma ul_step_raise : forall l o e, fst (ul_step same eq l o) = Raise e -> snd (ul_step same eq l o) = l.
Proof.
  intros l [x|it|it] e; cbn [ul_step]; unfold ul_append, ul_extend, ul_iadd.
  - destruct (ul_present eq x l) as [[]|]; try discriminate. reflexivity.
  - destruct (ul_new_items same eq l (fst (iterate it))); [discriminate|reflexivity].
  - destruct (ul_new_items same eq l (fst (iterate it))); [discriminate|reflexivity].
Qed.
End UL.

Section ULEq.
Context {A : Type}.
Variable same : A -> A -> bool.
Variable eqb : A -> A -> bool.
Hypothesis Heq : equality eqb.
Hypothesis Hsame : forall x y, same x y = true -> eqb x y = true.
Let eq (x y : A) : res bool := Ok (eqb x y).

Lemma eqb_false_sym : forall x y, eqb x y = eqb y x.
Proof.
  intros x y. destruct (eqb x y) eqn:E; [symmetry; apply (equality_sym _ Heq); exact E|].
  destruct (eqb y x) eqn:E2; [|reflexivity]. apply (equality_sym _ Heq) in E2. congruence.
Qed.

Lemma present_existsb : forall x l, ul_present eq x l = Ok (existsb (fun y => eqb y x) l).
Proof.
  intros x l. induction l as [|y l IH]; [reflexivity|]. cbn.
  destruct (eqb y x); [reflexivity|exact IH].
Qed.
Lemma contains_existsb : forall x l, ul_contains same eq x l = Ok (existsb (fun y => eqb y x) l).
Proof.
  intros x l. induction l as [|y l IH]; [reflexivity|]. cbn.
  destruct (same y x) eqn:E; [rewrite (Hsame _ _ E); reflexivity|].
  destruct (eqb y x); [reflexivity|exact IH].
Qed.
Lemma new_items_filter : forall self l,
  ul_new_items same eq self l = Ok (filter (fun x => negb (existsb (fun y => eqb y x) self)) l).
Proof.
  intros self l. induction l as [|x l IH]; [reflexivity|]. cbn [ul_new_items filter].
  rewrite contains_existsb, IH. cbn. destruct (existsb (fun y => eqb y x) self); reflexivity.
Qed.

Lemma existsb_firsts : forall x l, existsb (fun y => eqb y x) (firsts eqb l) = existsb (fun y => eqb y x) l.
Proof.
  intros x l. induction l as [|z l IH]; [reflexivity|]. cbn [firsts existsb].
  destruct (eqb z x) eqn:E; [reflexivity|]. cbn [orb]. rewrite <- IH. clear IH.
  induction (firsts eqb l) as [|w f IHf]; [reflexivity|]. cbn [filter existsb].
  destruct (eqb z w) eqn:Ew; cbn [negb existsb].
  - rewrite IHf. destruct (eqb w x) eqn:Ewx; [|reflexivity]. exfalso.
    rewrite (equality_trans _ Heq _ _ _ Ew Ewx) in E. discriminate.
  - rewrite IHf. reflexivity.
Qed.

Lemma filter_comm : forall (f g : A -> bool) l, filter f (filter g l) = filter g (filter f l).
Proof.
  intros f g l. induction l as [|x l IH]; [reflexivity|]. cbn.
  destruct (f x) eqn:Ef, (g x) eqn:Eg; cbn; rewrite ?Ef, ?Eg, IH; reflexivity.
Qed.

Lemma firsts_app : forall a b,
  firsts eqb (a ++ b) =
  (firsts eqb a ++ filter (fun x => negb (existsb (fun y => eqb y x) a)) (firsts eqb b))%list.
Proof.
  induction a as [|x a IH]; intros b; cbn [app firsts existsb].
  - cbn. induction (firsts eqb b) as [|y l IHl]; [reflexivity|]. cbn. rewrite <- IHl. reflexivity.
  - rewrite IH, filter_app. cbn [app]. f_equal. f_equal.
    clear IH. induction (firsts eqb b) as [|y l IHl]; [reflexivity|]. cbn [filter].
    destruct (existsb (fun y0 => eqb y0 y) a) eqn:E1; cbn [negb];
      destruct (eqb x y) eqn:E2; cbn [orb negb filter]; rewrite ?E2; cbn [negb]; rewrite IHl; reflexivity.
Qed.

Lemma firsts_id : forall l, no_equal eq l -> firsts eqb l = l.
Proof.
  induction l as [|x l IH]; intros H; [reflexivity|]. apply no_equal_cons in H. destruct H as [H1 H2].
  cbn. rewrite (IH H2). f_equal. clear IH H2. induction l as [|y l IHl]; [reflexivity|]. cbn.
  assert (Hy : eqb x y = false) by (specialize (H1 y (or_introl eq_refl)); injection H1; auto).
  rewrite Hy. cbn. f_equal. apply IHl. intros z Hz. apply H1. right. exact Hz.
Qed.

Lemma ul_run_firsts : forall ops,
  (forall o, In o ops -> match o with LAppend _ => True | _ => no_equal eq (offered o) end) ->
  ul_run same eq ops [] = firsts eqb (flat_map offered ops).
Proof.
  intros ops. induction ops as [|o ops IH] using rev_ind; intros H; [reflexivity|].
  rewrite ul_run_snoc, IH by (intros o' Ho'; apply H; apply in_or_app; auto).
  rewrite flat_map_app. cbn [flat_map]. rewrite app_nil_r, firsts_app.
  assert (Ho := H o (in_snoc _ ops o)).
  assert (Hf : forall l, filter (fun x => negb (existsb (fun y => eqb y x) (firsts eqb (flat_map offered ops)))) l
     = filter (fun x => negb (existsb (fun y => eqb y x) (flat_map offered ops))) l).
  { intros l. apply filter_ext. intros x. rewrite existsb_firsts. reflexivity. }
  destruct o as [x|it|it]; cbn [ul_step offered].
  - unfold ul_append. rewrite present_existsb, existsb_firsts. cbn [firsts filter].
    destruct (existsb (fun y => eqb y x) (flat_map offered ops)); cbn [negb snd]; [|reflexivity].
    rewrite app_nil_r. reflexivity.
  - unfold ul_extend. rewrite new_items_filter. cbn [snd]. cbn [offered] in Ho. rewrite Hf, (firsts_id _ Ho).
    destruct it; reflexivity.
  - unfold ul_iadd. rewrite new_items_filter. cbn [snd]. cbn [offered] in Ho. rewrite Hf, (firsts_id _ Ho).
    destruct it; reflexivity.
Qed.
End ULEq.

(** ** Dictionaries *)
Section Dict.
Context {V : Type}.

Lemma dict_get_set : forall k k' (v : V) d,
  dict_get k (dict_set k' v d) = if String.eqb k k' then Some v else dict_get k d.
Proof.
  intros k k' v d. destruct (String.eqb_spec k k') as [->|Hn].
  - apply dict_get_set_same.
  - apply dict_get_set_other. congruence.
Qed.

Lemma dict_get_del : forall k k' (d : list (string * V)),
  dict_get k (dict_del k' d) = if String.eqb k k' then None else dict_get k d.
Proof.
  intros k k' d. induction d as [|[k0 v0] d IH]; [destruct (String.eqb k k'); reflexivity|].
  cbn [dict_del filter fst]. fold (dict_del k' d).
  destruct (String.eqb_spec k' k0) as [->|Hn]; cbn [negb].
  - rewrite IH. cbn [dict_get]. destruct (String.eqb k k0); reflexivity.
  - cbn [dict_get]. destruct (String.eqb_spec k k0) as [->|Hn2].
    + destruct (String.eqb_spec k0 k') as [->|]; [contradiction|reflexivity].
    + exact IH.
Qed.

Lemma dict_get_none_in : forall k (d : list (string * V)),
  dict_get k d = None <-> ~ In k (map fst d).
Proof.
  intros k d. induction d as [|[k0 v0] d IH]; cbn; [tauto|].
  destruct (String.eqb_spec k k0) as [->|Hn]; [split; [discriminate|tauto]|].
  rewrite IH. split; [intros H [E|E]; [congruence|tauto]|tauto].
Qed.

Lemma dict_get_update : forall k (d m : list (string * V)),
  dict_get k (dict_update d m) = None <-> dict_get k m = None /\ ~ In k (map fst d).
Proof.
  intros k d. unfold dict_update. induction d as [|[k0 v0] d IH]; intros m; cbn [fold_left fst snd map In].
  - tauto.
  - rewrite IH, dict_get_set. destruct (String.eqb_spec k k0) as [->|Hn].
    + split; [intros [H _]; discriminate|tauto].
    + split; [intros [H1 H2]; split; [exact H1|intros [E|E]; [congruence|tauto]]|tauto].
Qed.
End Dict.

(** ** RestrictedKeyNamesDict *)
Section RD.
Context {V : Type}.

Lemma rd_run_snoc : forall ops o (s : rdict V), rd_run (ops ++ [o]) s = snd (rd_step (rd_run ops s) o).
Proof. intros. unfold rd_run. rewrite fold_left_app. reflexivity. Qed.

Lemma rd_names_step : forall (s : rdict V) o, rd_names (snd (rd_step s o)) = rd_names s.
Proof.
  intros s [k v|d kw|k|k v]; cbn [rd_step]; unfold rd_setitem, rd_update, rd_delitem, rd_setdefault.
  - destruct (str_in k (rd_names s)); reflexivity.
  - destruct (forallb _ d); [destruct (forallb _ kw)|]; reflexivity.
  - destruct (dict_mem k (rd_items s)); reflexivity.
  - destruct (dict_mem k (rd_items s)); reflexivity.
Qed.

Lemma rd_step_raise : forall (s : rdict V) o e, fst (rd_step s o) = Raise e -> snd (rd_step s o) = s.
Proof.
  intros s [k v|d kw|k|k v] e; cbn [rd_step]; unfold rd_setitem, rd_update, rd_delitem, rd_setdefault.
  - destruct (str_in k (rd_names s)); [discriminate|reflexivity].
  - destruct (forallb _ d); [destruct (forallb _ kw); [discriminate|reflexivity]|reflexivity].
  - destruct (dict_mem k (rd_items s)); [discriminate|reflexivity].
  - destruct (dict_mem k (rd_items s)); discriminate.
Qed.

Lemma names_new : forall d : list (string * V), forall k,
  In k (rd_names (rd_new d)) <-> dict_get k (rd_items (rd_new d)) <> None.
Proof.
  intros d k. cbn. rewrite dict_get_none_in. split; [tauto|].
  intros H. destruct (in_dec string_dec k (map fst (dict_update d []))) as [Hi|Hi]; [exact Hi|].
  exfalso. apply H. exact Hi.
Qed.

(** set / update only: exactly the same keys *)
Lemma rd_keys_same : forall ops (d : list (string * V)),
  (forall o, In o ops -> match o with RSet _ _ | RUpdate _ _ => True | _ => False end) ->
  same_keys (rd_items (rd_run ops (rd_new d))) (rd_items (rd_new d)) /\
  rd_names (rd_run ops (rd_new d)) = rd_names (rd_new d).
Proof.
  intros ops d. induction ops as [|o ops IH] using rev_ind; intros H.
  - split; [intros k; tauto|reflexivity].
  - assert (Ho := H o (in_snoc _ ops o)).
    destruct IH as [Hk Hn]; [intros o' Ho'; apply H; apply in_or_app; auto|].
    rewrite rd_run_snoc, rd_names_step. split; [|exact Hn].
    set (s := rd_run ops (rd_new d)) in *. intros k.
    assert (Hin : forall k, str_in k (rd_names s) = true -> dict_get k (rd_items s) <> None).
    { intros k' H'. apply str_in_iff in H'. rewrite Hn in H'. apply names_new in H'.
      intros Hc. apply H', Hk, Hc. }
    rewrite <- (Hk k). destruct o as [k' v|d' kw|k'|k' v]; try destruct Ho; cbn [rd_step].
    + unfold rd_setitem. destruct (str_in k' (rd_names s)) eqn:E; [|tauto]. cbn [snd rd_items].
      rewrite dict_get_set. destruct (String.eqb_spec k k') as [->|]; [|tauto].
      split; [discriminate|]. intros Hc. exfalso. apply (Hin k' E Hc).
    + unfold rd_update. destruct (forallb _ d') eqn:E1; [|tauto].
      destruct (forallb _ kw) eqn:E2; [|tauto]. cbn [snd rd_items].
      rewrite !dict_get_update. rewrite forallb_forall in E1, E2. split; [tauto|].
      intros Hc. split; [split; [exact Hc|]|]; intros Hx; apply in_map_iff in Hx;
        destruct Hx as ([k0 v0] & E & Hp); cbn in E; subst k0.
      * apply (Hin k); [apply (E1 _ Hp)|exact Hc].
      * apply (Hin k); [apply (E2 _ Hp)|exact Hc].
Qed.

Lemma rd_keys_never_gained : forall ops (d : list (string * V)) k,
  (forall o, In o ops -> match o with RSetDefault _ _ => False | _ => True end) ->
  dict_get k (rd_items (rd_new d)) = None -> dict_get k (rd_items (rd_run ops (rd_new d))) = None.
Proof.
  intros ops d k H Hk.
  assert (Hnn : ~ In k (rd_names (rd_new d))) by (rewrite names_new; congruence).
  enough (dict_get k (rd_items (rd_run ops (rd_new d))) = None /\
          rd_names (rd_run ops (rd_new d)) = rd_names (rd_new d)) by tauto.
  induction ops as [|o ops IH] using rev_ind; [split; [exact Hk|reflexivity]|].
  assert (Ho := H o (in_snoc _ ops o)).
  destruct IH as [IH Hn]; [intros o' Ho'; apply H; apply in_or_app; auto|].
  rewrite rd_run_snoc, rd_names_step. split; [|exact Hn]. set (s := rd_run ops (rd_new d)) in *.
  rewrite <- Hn in Hnn.
  destruct o as [k' v|d' kw|k'|k' v]; try destruct Ho; cbn [rd_step].
  - unfold rd_setitem. destruct (str_in k' (rd_names s)) eqn:E; [|exact IH]. cbn [snd rd_items].
    rewrite dict_get_set. destruct (String.eqb_spec k k') as [->|]; [|exact IH].
    exfalso. apply Hnn, str_in_iff, E.
  - unfold rd_update. destruct (forallb _ d') eqn:E1; [|exact IH].
    destruct (forallb _ kw) eqn:E2; [|exact IH]. cbn [snd rd_items].
    rewrite !dict_get_update. rewrite forallb_forall in E1, E2.
    split; [split; [exact IH|]|]; intros Hx; apply in_map_iff in Hx;
      destruct Hx as ([k0 v0] & E & Hp); cbn in E; subst k0; apply Hnn, str_in_iff.
    + apply (E1 _ Hp).
    + apply (E2 _ Hp).
  - unfold rd_delitem. destruct (dict_mem k' (rd_items s)); [|exact IH]. cbn [snd rd_items].
    rewrite dict_get_del. destruct (String.eqb k k'); [reflexivity|exact IH].
Qed.
End RD.

(** ** VettedDict *)
Section VD.
Context {V : Type}.
Variable kf : string -> res bool.
Variable vf : V -> res bool.

Lemma vd_verify_spec : forall k v, vd_verify kf vf k v = Ok true <-> vetted kf vf k v.
Proof.
  intros k v. unfold vd_verify, vetted. destruct (kf k) as [[]|]; cbn.
  - destruct (vf v) as [[]|]; cbn; split; try tauto; try discriminate; intros [_ H]; discriminate.
  - split; [discriminate|intros [H _]; discriminate].
  - split; [discriminate|intros [H _]; discriminate].
Qed.

Lemma vd_setitem_spec : forall k v m,
  (vetted kf vf k v -> vd_setitem kf vf k v m = (Ok tt, dict_set k v m)) /\
  (~ vetted kf vf k v -> snd (vd_setitem kf vf k v m) = m /\
     fst (vd_setitem kf vf k v m) =
       match kf k with
       | Raise e => Raise e
       | Ok false => Ok tt
       | Ok true => match vf v with Raise e => Raise e | Ok _ => Ok tt end
       end).
Proof.
  intros k v m. unfold vd_setitem. split.
  - intros H. apply vd_verify_spec in H. rewrite H. reflexivity.
  - intros H. unfold vd_verify, vetted in *. destruct (kf k) as [[]|]; cbn; auto.
    destruct (vf v) as [[]|]; cbn; auto. exfalso. apply H. auto.
Qed.

Lemma vd_setitem_cases : forall k v m,
  (vetted kf vf k v /\ snd (vd_setitem kf vf k v m) = dict_set k v m) \/
  (~ vetted kf vf k v /\ snd (vd_setitem kf vf k v m) = m).
Proof.
  intros k v m. destruct (vd_setitem_spec k v m) as [H1 H2].
  destruct (vd_verify kf vf k v) as [[]|] eqn:E.
  - left. apply vd_verify_spec in E. split; [exact E|]. rewrite (H1 E). reflexivity.
  - right. assert (Hn : ~ vetted kf vf k v) by (rewrite <- vd_verify_spec; congruence).
    split; [exact Hn|apply H2, Hn].
  - right. assert (Hn : ~ vetted kf vf k v) by (rewrite <- vd_verify_spec; congruence).
    split; [exact Hn|apply H2, Hn].
Qed.

Definition vd_inv (m : list (string * V)) : Prop := forall k v, dict_get k m = Some v -> vetted kf vf k v.

Lemma vd_set_inv : forall k v m, vd_inv m -> vd_inv (snd (vd_setitem kf vf k v m)).
Proof.
  intros k v m Hm. destruct (vd_setitem_cases k v m) as [[Hv ->]|[_ ->]]; [|exact Hm].
  intros k' v'. rewrite dict_get_set. destruct (String.eqb_spec k' k) as [->|]; [|apply Hm].
  intros [= <-]. exact Hv.
Qed.
Lemma vd_del_inv : forall k m, vd_inv m -> vd_inv (snd (vd_delitem k m)).
Proof.
  intros k m Hm. unfold vd_delitem. destruct (dict_mem k m); [|exact Hm]. cbn [snd].
  intros k' v'. rewrite dict_get_del. destruct (String.eqb k' k); [discriminate|apply Hm].
Qed.
Lemma vd_update_inv : forall d m, vd_inv m -> vd_inv (snd (vd_update kf vf d m)).
Proof.
  induction d as [|[k v] d IH]; intros m Hm; [exact Hm|]. cbn [vd_update].
  pose proof (vd_set_inv k v m Hm) as Hs. destruct (vd_setitem kf vf k v m) as [[u|e] m']; cbn [snd] in *.
  - apply IH, Hs.
  - exact Hs.
Qed.

Lemma vd_step_inv : forall m o, vd_inv m -> vd_inv (snd (vd_step kf vf m o)).
Proof.
  intros m o Hm. destruct o as [k v|k|d|k| | |k v]; cbn [vd_step].
  - apply vd_set_inv, Hm.
  - apply vd_del_inv, Hm.
  - apply vd_update_inv, Hm.
  - unfold vd_pop. destruct (vd_getitem k m); [apply vd_del_inv, Hm|exact Hm].
  - unfold vd_popitem. destruct m as [|[k v] m']; [exact Hm|apply vd_del_inv, Hm].
  - intros k v H. discriminate.
  - unfold vd_setdefault. destruct (vd_getitem k m); [exact Hm|apply vd_set_inv, Hm].
Qed.

Lemma vd_run_snoc : forall ops o m, vd_run kf vf (ops ++ [o]) m = snd (vd_step kf vf (vd_run kf vf ops m) o).
Proof. intros. unfold vd_run. rewrite fold_left_app. reflexivity. Qed.

Lemma vd_run_inv : forall ops, vd_inv (vd_run kf vf ops []).
Proof.
  intros ops. induction ops as [|o ops IH] using rev_ind; [intros k v H; discriminate|].
  rewrite vd_run_snoc. apply vd_step_inv, IH.
Qed.

Lemma vd_assigned : forall k h x, assigned kf vf k h x -> dict_get k (vd_run kf vf h []) = x.
Proof.
  intros k h x H. induction H as [|h v Hv|h k' v x Hn H IH|h|h k' x Hn H IH]; [reflexivity| | | |];
    rewrite vd_run_snoc; cbn [vd_step].
  - destruct (vd_setitem_cases k v (vd_run kf vf h [])) as [[_ ->]|[Hc _]]; [|contradiction].
    apply dict_get_set_same.
  - destruct (vd_setitem_cases k' v (vd_run kf vf h [])) as [[Hv ->]|[_ ->]]; [|exact IH].
    rewrite dict_get_set. destruct (String.eqb_spec k k') as [->|]; [|exact IH].
    destruct Hn as [Hn|Hn]; contradiction.
  - unfold vd_delitem. destruct (dict_mem k (vd_run kf vf h [])) eqn:E; cbn [snd].
    + rewrite dict_get_del, String.eqb_refl. reflexivity.
    + unfold dict_mem in E. destruct (dict_get k (vd_run kf vf h [])); [discriminate|reflexivity].
  - unfold vd_delitem. destruct (dict_mem k' (vd_run kf vf h [])); cbn [snd]; [|exact IH].
    rewrite dict_get_del. destruct (String.eqb_spec k k') as [->|]; [contradiction|exact IH].
Qed.

Lemma vd_assigned_total : forall k h,
  (forall o, In o h -> match o with VSet _ _ | VDel _ => True | _ => False end) ->
  exists x, assigned kf vf k h x.
Proof.
  intros k h. induction h as [|o h IH] using rev_ind; intros H; [exists None; constructor|].
  assert (Ho := H o (in_snoc _ h o)).
  destruct IH as [x Hx]; [intros o' Ho'; apply H; apply in_or_app; auto|].
  destruct o as [k' v|k'| | | | |]; try destruct Ho.
  - destruct (string_dec k' k) as [->|Hn].
    + destruct (vd_verify kf vf k v) as [[]|] eqn:E.
      * exists (Some v). apply assigned_set, vd_verify_spec, E.
      * exists x. apply assigned_rejected; [|exact Hx]. right. rewrite <- vd_verify_spec. congruence.
      * exists x. apply assigned_rejected; [|exact Hx]. right. rewrite <- vd_verify_spec. congruence.
    + exists x. apply assigned_rejected; auto.
  - destruct (string_dec k' k) as [->|Hn].
    + exists None. constructor.
    + exists x. apply assigned_del_other; auto.
Qed.
Lemma vd_set_does : forall k v m f, (forall k', dict_get k' m = f k') ->
  exists f', vd_does kf vf (VSet k v) f (fst (vd_setitem kf vf k v m)) f' /\
             forall k', dict_get k' (snd (vd_setitem kf vf k v m)) = f' k'.
Proof.
  intros k v m f Hf. unfold vd_setitem, vd_verify.
  destruct (kf k) as [[]|e] eqn:Ek; cbn [bind negb].
  - destruct (vf v) as [[]|e] eqn:Ev; cbn [bind negb].
    + exists (upd f k (Some v)). split; [apply does_set; split; assumption|].
      intros k'. cbn [snd]. rewrite dict_get_set. unfold upd. destruct (String.eqb k' k); [reflexivity|apply Hf].
    + exists f. split; [apply does_not_set; right; split; assumption|exact Hf].
    + exists f. split; [apply does_refuse; right; split; assumption|exact Hf].
  - exists f. split; [apply does_not_set; left; assumption|exact Hf].
  - exists f. split; [apply does_refuse; left; assumption|exact Hf].
Qed.
Lemma vd_del_get : forall k (m : list (string * V)) f, (forall k', dict_get k' m = f k') ->
  forall k', dict_get k' (dict_del k m) = upd f k None k'.
Proof. intros k m f Hf k'. rewrite dict_get_del. unfold upd. destruct (String.eqb k' k); [reflexivity|apply Hf]. Qed.

Lemma vd_step_does_gen : forall o m f, (forall k', dict_get k' m = f k') ->
  exists f', vd_does kf vf o f (fst (vd_step kf vf m o)) f' /\
             forall k', dict_get k' (snd (vd_step kf vf m o)) = f' k'.
Proof.
  intros o m f Hf. destruct o as [k v|k|d|k| | |k v]; cbn [vd_step].
  - exact (vd_set_does k v m f Hf).
  - unfold vd_delitem, dict_mem. rewrite Hf. destruct (f k) eqn:E.
    + exists (upd f k None). split; [apply does_del; congruence|exact (vd_del_get k m f Hf)].
    + exists f. split; [apply does_not_del; exact E|exact Hf].
  - revert m f Hf. induction d as [|[k v] d IH]; intros m f Hf; cbn [vd_update].
    + exists f. split; [apply does_nothing|exact Hf].
    + destruct (vd_set_does k v m f Hf) as (f1 & D1 & H1).
      destruct (vd_setitem kf vf k v m) as [[[]|e] m1]; cbn [fst snd] in D1, H1.
      * destruct (IH m1 f1 H1) as (f2 & D2 & H2). exists f2. split; [exact (does_update kf vf k v d f f1 _ f2 D1 D2)|exact H2].
      * exists f1. split; [exact (does_stop kf vf k v d f e f1 D1)|exact H1].
  - unfold vd_pop, vd_getitem, vd_delitem, dict_mem. rewrite Hf. destruct (f k) eqn:E.
    + exists (upd f k None). split; [apply does_pop; congruence|exact (vd_del_get k m f Hf)].
    + exists f. split; [apply does_not_pop; exact E|exact Hf].
  - destruct m as [|[k v] m]; cbn [vd_popitem].
    + exists f. split; [apply does_not_popitem; intros k; symmetry; apply (Hf k)|exact Hf].
    + assert (E : dict_get k ((k, v) :: m) = Some v) by (cbn [dict_get]; rewrite String.eqb_refl; reflexivity).
      unfold vd_delitem, dict_mem. rewrite E. exists (upd f k None). split.
      * apply does_popitem. rewrite <- Hf, E. discriminate.
      * exact (vd_del_get k _ f Hf).
  - exists (fun _ => None). split; [apply does_clear|reflexivity].
  - unfold vd_setdefault, vd_getitem. rewrite Hf. destruct (f k) eqn:E.
    + exists f. split; [apply does_keep; congruence|exact Hf].
    + destruct (vd_set_does k v m f Hf) as (f1 & D1 & H1). exists f1.
      split; [exact (does_default kf vf k v f _ f1 E D1)|exact H1].
Qed.
Lemma vd_step_does : forall o m,
  exists f, vd_does kf vf o (fun k => dict_get k m) (fst (vd_step kf vf m o)) f /\
            forall k, dict_get k (snd (vd_step kf vf m o)) = f k.
Proof. intros o m. apply vd_step_does_gen. reflexivity. Qed.
End VD.

(** ** Class registry *)
Lemma add_class_spec : forall id c ov m,
  add_class id c ov m =
  match id, c with
  | NStr k, CAttrClass _ => (Ok tt, if ov || negb (dict_mem k m) then dict_set k c m else m)
  | _, _ => (Raise ETypeError, m)
  end.
Proof.
  intros id c ov m. destruct id as [ |k| | | | | | ]; try (destruct c; reflexivity).
  destruct c as [c|n|n]; try reflexivity. cbn. destruct ov; [reflexivity|]. cbn.
  destruct (dict_mem k m); reflexivity.
Qed.

Lemma class_run_lookup : forall adds uri m,
  dict_get uri (class_run (map (fun a => CAdd (fst (fst a)) (snd (fst a)) (snd a)) adds) m) =
  fold_left (addition_effect uri) adds (dict_get uri m).
Proof.
  induction adds as [|[[id c] ov] adds IH]; intros uri m; [reflexivity|].
  cbn [map class_run fold_left fst snd class_step]. unfold class_run in IH. rewrite IH. f_equal.
  rewrite add_class_spec. cbn [addition_effect].
  destruct id as [ |k| | | | | | ]; try reflexivity. destruct c as [c|n|n]; try reflexivity.
  cbn [snd]. destruct (String.eqb_spec k uri) as [->|Hn].
  - unfold dict_mem. destruct (dict_get uri m) as [c0|] eqn:E, ov; cbn [orb negb];
      rewrite ?dict_get_set_same, ?E; reflexivity.
  - destruct (ov || negb (dict_mem k m)); [|reflexivity].
    rewrite dict_get_set. destruct (String.eqb_spec uri k) as [->|]; [contradiction|reflexivity].
Qed.

Lemma class_run_snoc : forall ops o m, class_run (ops ++ [o]) m = snd (class_step (class_run ops m) o).
Proof. intros. unfold class_run. rewrite fold_left_app. reflexivity. Qed.

Lemma class_vetted : forall k v, vetted class_key_filter class_value_filter k v <-> exists c, v = CAttrClass c.
Proof.
  intros k v. unfold vetted, class_key_filter. destruct v as [c|n|n]; cbn.
  - split; [eauto|auto].
  - split; [intros [_ H]; discriminate|intros [c H]; discriminate].
  - split; [intros [_ H]; discriminate|intros [c H]; discriminate].
Qed.

Lemma class_run_valid : forall ops uri v,
  dict_get uri (class_run ops class_map_init) = Some v -> exists c, v = CAttrClass c.
Proof.
  intros ops. enough (H : vd_inv class_key_filter class_value_filter (class_run ops class_map_init)).
  { intros uri v Hv. apply (class_vetted uri), (H _ _ Hv). }
  induction ops as [|o ops IH] using rev_ind.
  - intros k v H. apply class_vetted. unfold class_run, class_map_init in H. cbn [fold_left] in H.
    induction STD_CLASS_MAP as [|[k0 c0] l IHl]; [discriminate|]. cbn in H.
    destruct (String.eqb k k0); [injection H as <-; eauto|apply IHl, H].
  - rewrite class_run_snoc. destruct o as [id c ov|o]; cbn [class_step].
    + rewrite add_class_spec. destruct id as [ |k| | | | | | ]; try exact IH.
      destruct c as [c|n|n]; try exact IH. cbn [snd].
      destruct (ov || negb (dict_mem k (class_run ops class_map_init))); [|exact IH].
      intros k' v'. rewrite dict_get_set. destruct (String.eqb k' k); [|apply IH].
      intros [= <-]. apply class_vetted. eauto.
    + apply vd_step_inv, IH.
Qed.
