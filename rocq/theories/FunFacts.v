(** Proofs about native equality, attribute values and the XACML functions. *)
From Verif Require Import Eval SpecEval EvalFacts SpecFun.
From Coq Require Import Lia ZArith.

(** ** Equality of dyadic numbers *)

Lemma dyadic_eqb_at : forall m1 e1 m2 e2 k,
  (k <= e1)%Z -> (k <= e2)%Z ->
  (dyadic_eqb m1 e1 m2 e2 = true <-> (m1 * 2 ^ (e1 - k) = m2 * 2 ^ (e2 - k))%Z).
Proof.
  intros m1 e1 m2 e2 k H1 H2. unfold dyadic_eqb. rewrite Z.eqb_eq.
  set (m := Z.min e1 e2).
  assert (Hm1 : (m <= e1)%Z) by (unfold m; lia).
  assert (Hm2 : (m <= e2)%Z) by (unfold m; lia).
  assert (Hkm : (k <= m)%Z) by (unfold m; lia).
  assert (Hs1 : (2 ^ (e1 - k) = 2 ^ (e1 - m) * 2 ^ (m - k))%Z).
  { rewrite <- Z.pow_add_r by lia. f_equal. lia. }
  assert (Hs2 : (2 ^ (e2 - k) = 2 ^ (e2 - m) * 2 ^ (m - k))%Z).
  { rewrite <- Z.pow_add_r by lia. f_equal. lia. }
  assert (Hpos : (0 < 2 ^ (m - k))%Z) by (apply Z.pow_pos_nonneg; lia).
  rewrite Hs1, Hs2, !Z.mul_assoc. split.
  - intros ->. reflexivity.
  - intros H. apply Z.mul_reg_r in H; [exact H|lia].
Qed.

Lemma dyadic_eqb_refl : forall m e, dyadic_eqb m e m e = true.
Proof. intros. apply (dyadic_eqb_at m e m e e); lia. Qed.

Lemma dyadic_eqb_sym : forall m1 e1 m2 e2, dyadic_eqb m1 e1 m2 e2 = dyadic_eqb m2 e2 m1 e1.
Proof. intros. unfold dyadic_eqb. rewrite Z.min_comm. apply Z.eqb_sym. Qed.

Lemma dyadic_eqb_trans : forall m1 e1 m2 e2 m3 e3,
  dyadic_eqb m1 e1 m2 e2 = true -> dyadic_eqb m2 e2 m3 e3 = true ->
  dyadic_eqb m1 e1 m3 e3 = true.
Proof.
  intros m1 e1 m2 e2 m3 e3 H1 H2.
  set (k := Z.min e1 (Z.min e2 e3)).
  apply (dyadic_eqb_at _ _ _ _ k) in H1; try (unfold k; lia).
  apply (dyadic_eqb_at _ _ _ _ k) in H2; try (unfold k; lia).
  apply (dyadic_eqb_at _ _ _ _ k); try (unfold k; lia). congruence.
Qed.

Lemma pyfloat_eqb_sym : forall x y, pyfloat_eqb x y = pyfloat_eqb y x.
Proof.
  intros [|a|m1 e1] [|b|m2 e2]; simpl; try reflexivity.
  - destruct a, b; reflexivity.
  - apply dyadic_eqb_sym.
Qed.

Lemma pyfloat_eqb_trans : forall x y z,
  pyfloat_eqb x y = true -> pyfloat_eqb y z = true -> pyfloat_eqb x z = true.
Proof.
  intros [|a|m1 e1] [|b|m2 e2] [|c|m3 e3]; simpl; try discriminate.
  - destruct a, b, c; simpl; congruence.
  - apply dyadic_eqb_trans.
Qed.

(** The only native value not equal to itself. *)

Lemma native_eqb_refl : forall v, native_eqb v v = negb (is_nan v).
Proof.
  intros [|s|z|b|[|n|m e]|z|z|t n]; unfold native_eqb; cbn [native_num is_nan negb];
    try reflexivity; try apply String.eqb_refl; try apply Z.eqb_refl;
    try (apply dyadic_eqb_refl).
  - destruct n; reflexivity.
  - rewrite String.eqb_refl, N.eqb_refl. reflexivity.
Qed.

Lemma native_eqb_sym : forall x y, native_eqb x y = native_eqb y x.
Proof.
  intros x y. unfold native_eqb.
  destruct (native_num x) as [a|] eqn:Hx, (native_num y) as [b|] eqn:Hy; try reflexivity.
  - apply pyfloat_eqb_sym.
  - destruct x, y; try reflexivity; try apply String.eqb_sym; try apply Z.eqb_sym.
    rewrite String.eqb_sym, N.eqb_sym. reflexivity.
Qed.

Lemma native_eqb_trans : forall x y z,
  native_eqb x y = true -> native_eqb y z = true -> native_eqb x z = true.
Proof.
  intros x y z. unfold native_eqb.
  destruct (native_num x) as [a|] eqn:Hx, (native_num y) as [b|] eqn:Hy,
    (native_num z) as [c|] eqn:Hz; try discriminate.
  - apply pyfloat_eqb_trans.
  - destruct x, y, z; try discriminate; try reflexivity;
      rewrite ?andb_true_iff, ?String.eqb_eq, ?Z.eqb_eq, ?N.eqb_eq; intuition congruence.
Qed.

(** Equality of strings is equality *)
Lemma native_eqb_str : forall a b, native_eqb (NStr a) (NStr b) = true <-> a = b.
Proof. intros. unfold native_eqb. simpl. apply String.eqb_eq. Qed.

(** ** Attribute value equality *)

Lemma class_eqb_sym : forall a b, class_eqb a b = class_eqb b a.
Proof. intros. unfold class_eqb. apply String.eqb_sym. Qed.
Lemma class_eqb_refl : forall a, class_eqb a a = true.
Proof. intros. unfold class_eqb. apply String.eqb_refl. Qed.

Lemma av_eq_sym : forall a b, av_eq a b = av_eq b a.
Proof.
  intros a b. unfold av_eq, av_dunder_eq, av_isinstance, issubclass.
  rewrite (class_eqb_sym (av_class b) (av_class a)).
  destruct (class_eqb (av_class a) (av_class b)); simpl.
  - rewrite native_eqb_sym. reflexivity.
  - destruct (str_in (ac_name (av_class a)) (ac_bases (av_class b))) eqn:H1;
    destruct (str_in (ac_name (av_class b)) (ac_bases (av_class a))) eqn:H2; simpl;
    rewrite ?H1, ?H2; try reflexivity.
    rewrite native_eqb_sym. reflexivity.
Qed.

Lemma av_eq_same_class : forall a b,
  ac_name (av_class a) = ac_name (av_class b) ->
  av_eq a b = Ok (native_eqb (av_value a) (av_value b)).
Proof.
  intros a b H. unfold av_eq, av_dunder_eq, av_isinstance, issubclass, class_eqb.
  rewrite H, !String.eqb_refl. reflexivity.
Qed.

Lemma av_eq_other_class : forall a b,
  ac_name (av_class a) <> ac_name (av_class b) ->
  ~ (issubclass (av_class a) (av_class b) = true /\ issubclass (av_class b) (av_class a) = true) ->
  av_eq a b = Raise ETypeError.
Proof.
  intros a b H Hsub. unfold av_eq, av_dunder_eq, av_isinstance.
  assert (Hne : class_eqb (av_class a) (av_class b) = false)
    by (apply String.eqb_neq; exact H).
  rewrite Hne. simpl.
  destruct (issubclass (av_class b) (av_class a)) eqn:H1; [|reflexivity].
  destruct (issubclass (av_class a) (av_class b)) eqn:H2; [|reflexivity].
  exfalso. apply Hsub. auto.
Qed.

(** ** and / not *)

Lemma as_bool_some : forall v b, as_bool v = Some b -> v = PNat (NBool b).
Proof. intros [[]| | |] b' H; simpl in H; congruence. Qed.

Lemma and_check_bools : forall bs, and_check (map (fun b => PNat (NBool b)) bs) = Ok bs.
Proof. induction bs as [|b bs IH]; simpl; [reflexivity|]. rewrite IH. reflexivity. Qed.

Lemma and_scan_forallb : forall bs, and_scan bs = forallb (fun b => b) bs.
Proof. induction bs as [|[] bs IH]; simpl; auto. Qed.

Lemma and_ok : forall F bs,
  fn_eval F FnAnd (map (fun b => PNat (NBool b)) bs) =
  Ok (PNat (NBool (forallb (fun b => b) bs))).
Proof.
  intros F bs. simpl. unfold and_eval. destruct bs as [|b bs]; [reflexivity|].
  rewrite and_check_bools. simpl. rewrite <- and_scan_forallb. destruct b; reflexivity.
Qed.

Lemma and_check_bad : forall args,
  (exists v, In v args /\ forall b, v <> PNat (NBool b)) ->
  and_check args = Raise EXacmlContextTypeError.
Proof.
  induction args as [|a args IH]; intros (v & Hv & Hb); [contradiction|].
  simpl. destruct (as_bool a) as [b|] eqn:Ha; [|reflexivity].
  destruct Hv as [->|Hv]; [apply as_bool_some in Ha; exfalso; eapply Hb; eauto|].
  rewrite IH; [reflexivity|]. eauto.
Qed.

Lemma and_bad : forall F args,
  (exists v, In v args /\ forall b, v <> PNat (NBool b)) ->
  fn_eval F FnAnd args = Raise EXacmlContextTypeError.
Proof.
  intros F args H. simpl. unfold and_eval. destruct args; [destruct H as (v & [] & _)|].
  rewrite and_check_bad by exact H. reflexivity.
Qed.

Lemma not_ok : forall F b,
  fn_eval F FnNot [PNat (NBool b)] = Ok (PNat (NBool (negb b))).
Proof. reflexivity. Qed.

Lemma not_bad : forall F args,
  (forall b, args <> [PNat (NBool b)]) -> exists e, fn_eval F FnNot args = Raise e.
Proof.
  intros F [|a [|]] H; simpl; eauto. destruct (as_bool a) as [b|] eqn:Ha; eauto.
  apply as_bool_some in Ha. subst. exfalso. apply (H b); reflexivity.
Qed.

(** ** equal / match *)

Lemma equal_ok : forall F c a b,
  av_isinstance a c = true -> av_isinstance b c = true ->
  fn_eval F (FnEqual c) [PAttr a; PAttr b] =
  Ok (PNat (NBool (native_eqb (av_value a) (av_value b)))).
Proof. intros F c a b Ha Hb. simpl. rewrite Ha, Hb. reflexivity. Qed.

Lemma equal_bad : forall F c args,
  (forall a b, args = [PAttr a; PAttr b] -> av_isinstance a c && av_isinstance b c = false) ->
  exists e, fn_eval F (FnEqual c) args = Raise e.
Proof.
  intros F c [|x [|y [|z l]]] H; simpl; eauto.
  destruct x as [|a| |]; eauto. destruct (av_isinstance a c) eqn:Ha; eauto.
  destruct y as [|b| |]; eauto. destruct (av_isinstance b c) eqn:Hb; eauto.
  specialize (H a b eq_refl). rewrite Ha, Hb in H. discriminate.
Qed.

Lemma match_ok : forall F c a b,
  av_isinstance a c = true -> av_isinstance b c = true ->
  ac_name (av_class a) = ac_name (av_class b) ->
  fn_eval F (FnMatch c) [PAttr a; PAttr b] =
  Ok (PNat (NBool (native_eqb (av_value a) (av_value b)))).
Proof.
  intros F c a b Ha Hb Hc. simpl. rewrite Ha, Hb, av_eq_same_class by exact Hc. reflexivity.
Qed.

Lemma match_bad : forall F c args,
  (forall a b, args = [PAttr a; PAttr b] -> av_isinstance a c && av_isinstance b c = false) ->
  exists e, fn_eval F (FnMatch c) args = Raise e.
Proof.
  intros F c [|x [|y [|z l]]] H; simpl; eauto.
  destruct x as [|a| |]; eauto. destruct (av_isinstance a c) eqn:Ha; eauto.
  destruct y as [|b| |]; eauto. destruct (av_isinstance b c) eqn:Hb; eauto.
  specialize (H a b eq_refl). rewrite Ha, Hb in H. discriminate.
Qed.

(** A class without custom superclasses has only its own instances. *)
Lemma isinstance_std : forall a c,
  ac_bases (av_class a) = [] ->
  (av_isinstance a c = true <-> ac_name (av_class a) = ac_name c).
Proof.
  intros a c H. unfold av_isinstance, issubclass, class_eqb. rewrite H. simpl.
  rewrite orb_false_r. apply String.eqb_eq.
Qed.

(** ** one-and-only, bag *)

Lemma opt_class_eqb : forall et c,
  opt_eqb class_eqb et (Some c) = true <-> exists c', et = Some c' /\ ac_name c' = ac_name c.
Proof.
  intros [c'|] c; simpl; split.
  - intros H. apply String.eqb_eq in H. eauto.
  - intros (c'' & H & Heq). injection H as ->. apply String.eqb_eq; exact Heq.
  - discriminate.
  - intros (c'' & H & _). discriminate.
Qed.

Lemma one_and_only_ok : forall F c c' a,
  ac_name c' = ac_name c ->
  fn_eval F (FnOneAndOnly c) [PBag (Some c') [a]] = Ok (PAttr a).
Proof.
  intros F c c' a H. simpl. unfold class_eqb. rewrite H, String.eqb_refl. reflexivity.
Qed.

Lemma one_and_only_bad : forall F c args,
  (forall c' a, args = [PBag (Some c') [a]] -> ac_name c' <> ac_name c) ->
  exists e, fn_eval F (FnOneAndOnly c) args = Raise e.
Proof.
  intros F c [|x [|y l]] H; simpl; eauto. destruct x as [| |et items|]; eauto.
  destruct (opt_eqb class_eqb et (Some c)) eqn:He; eauto.
  destruct items as [|a [|b items]]; eauto.
  apply opt_class_eqb in He. destruct He as (c' & -> & Heq).
  exfalso. eapply H; eauto.
Qed.

Lemma bag_loop_ok : forall c vs bag,
  forallb (fun v => av_isinstance v c) vs = true ->
  bag_loop c bag (map PAttr vs) = Ok (bag ++ vs).
Proof.
  induction vs as [|v vs IH]; intros bag H; simpl in *.
  - rewrite app_nil_r. reflexivity.
  - apply andb_true_iff in H. destruct H as [-> H]. rewrite IH by exact H.
    rewrite <- app_assoc. reflexivity.
Qed.

Lemma bag_ok : forall F c vs,
  (forall v, In v vs -> av_isinstance v c = true) ->
  fn_eval F (FnBag c) (map PAttr vs) = Ok (PBag (Some c) vs).
Proof.
  intros F c vs H. simpl. unfold bag_eval. rewrite bag_loop_ok; [reflexivity|].
  apply forallb_forall. exact H.
Qed.

Lemma bag_bad : forall F c args,
  (exists x, In x args /\ forall v, x = PAttr v -> av_isinstance v c = false) ->
  fn_eval F (FnBag c) args = Raise ETypeError.
Proof.
  intros F c args (x & Hx & Hb). simpl. unfold bag_eval.
  assert (H : forall bag, bag_loop c bag args = Raise ETypeError).
  { induction args as [|y args IH]; intros bag; [contradiction|]. simpl.
    destruct Hx as [->|Hx].
    - destruct x as [|v| |]; try reflexivity. rewrite (Hb v eq_refl). reflexivity.
    - destruct y as [|v| |]; try reflexivity. destruct (av_isinstance v c); auto. }
  rewrite H. reflexivity.
Qed.

(** ** at-least-one-member-of *)

Lemma py_set_in : forall l x, In x (py_set l) -> In x l.
Proof.
  induction l as [|y l IH]; intros x H; [exact H|]. simpl in H.
  destruct H as [->|H]; [left; reflexivity|]. apply filter_In in H. right. apply IH, H.
Qed.

Lemma py_set_repr : forall l x, In x l -> is_nan x = false ->
  exists y, In y (py_set l) /\ native_eqb y x = true.
Proof.
  induction l as [|z l IH]; intros x H Hn; [contradiction|]. simpl.
  destruct H as [->|H].
  - exists x. split; [left; reflexivity|]. rewrite native_eqb_refl, Hn. reflexivity.
  - destruct (IH x H Hn) as (y & Hy & Heq).
    destruct (native_eqb z y) eqn:Hzy.
    + exists z. split; [left; reflexivity|]. eapply native_eqb_trans; eauto.
    + exists y. split; [|exact Heq]. right. apply filter_In. rewrite Hzy. auto.
Qed.

Lemma native_eqb_not_nan : forall x y, native_eqb x y = true -> is_nan x = false.
Proof.
  intros x y H. destruct (is_nan x) eqn:Hn; [|reflexivity].
  destruct x as [| | | |[]| | |]; try discriminate.
  unfold native_eqb in H. simpl in H. destruct (native_num y); discriminate.
Qed.

Lemma set_and_iff : forall l1 l2,
  Nat.ltb 0 (length (set_and (py_set l1) (py_set l2))) = true <->
  exists x y, In x l1 /\ In y l2 /\ native_eqb x y = true.
Proof.
  intros l1 l2. split.
  - intros H. destruct (set_and (py_set l1) (py_set l2)) as [|x rest] eqn:Hs; [discriminate|].
    assert (Hin : In x (set_and (py_set l1) (py_set l2))) by (rewrite Hs; left; reflexivity).
    unfold set_and in Hin. apply filter_In in Hin. destruct Hin as [H1 H2].
    apply existsb_exists in H2. destruct H2 as (y & Hy & Heq).
    exists x, y. auto using py_set_in.
  - intros (x & y & Hx & Hy & Heq).
    assert (Hyx : native_eqb y x = true) by (rewrite native_eqb_sym; exact Heq).
    destruct (py_set_repr l1 x Hx (native_eqb_not_nan _ _ Heq)) as (x' & Hx' & Hxx).
    destruct (py_set_repr l2 y Hy (native_eqb_not_nan _ _ Hyx)) as (y' & Hy' & Hyy).
    assert (Hin : In x' (set_and (py_set l1) (py_set l2))).
    { unfold set_and. apply filter_In. split; [exact Hx'|]. apply existsb_exists.
      exists y'. split; [exact Hy'|].
      eapply native_eqb_trans; [exact Hxx|]. eapply native_eqb_trans; [exact Heq|].
      rewrite native_eqb_sym; exact Hyy. }
    destruct (set_and (py_set l1) (py_set l2)); [contradiction|reflexivity].
Qed.

Lemma at_least_one_ok : forall F c c1 c2 l1 l2,
  ac_name c1 = ac_name c -> ac_name c2 = ac_name c ->
  exists b, fn_eval F (FnAtLeastOne c) [PBag (Some c1) l1; PBag (Some c2) l2] =
            Ok (PNat (NBool b)) /\
  (b = true <-> exists v1 v2, In v1 l1 /\ In v2 l2 /\
                native_eqb (av_value v1) (av_value v2) = true).
Proof.
  intros F c c1 c2 l1 l2 H1 H2. cbn [fn_eval at_least_one_eval opt_eqb].
  unfold class_eqb. rewrite H1, H2, String.eqb_refl.
  eexists. split; [reflexivity|]. rewrite set_and_iff. split.
  - intros (x & y & Hx & Hy & Heq). apply in_map_iff in Hx. apply in_map_iff in Hy.
    destruct Hx as (v1 & <- & Hv1). destruct Hy as (v2 & <- & Hv2). eauto.
  - intros (v1 & v2 & Hv1 & Hv2 & Heq). exists (av_value v1), (av_value v2).
    auto using in_map.
Qed.

Lemma at_least_one_bad : forall F c args,
  (forall c1 c2 l1 l2, args = [PBag (Some c1) l1; PBag (Some c2) l2] ->
     ~ (ac_name c1 = ac_name c /\ ac_name c2 = ac_name c)) ->
  exists e, fn_eval F (FnAtLeastOne c) args = Raise e.
Proof.
  intros F c [|x [|y [|z l]]] H; cbn [fn_eval at_least_one_eval]; eauto.
  destruct x as [| |et1 l1|]; eauto. destruct (opt_eqb class_eqb et1 (Some c)) eqn:H1; eauto.
  destruct y as [| |et2 l2|]; eauto. destruct (opt_eqb class_eqb et2 (Some c)) eqn:H2; eauto.
  apply opt_class_eqb in H1. apply opt_class_eqb in H2.
  destruct H1 as (c1 & -> & H1). destruct H2 as (c2 & -> & H2).
  exfalso. eapply H; eauto.
Qed.

(** ** concatenate *)

Definition str_av (s : string) : attrval := mkAV StringAV (ac_id StringAV) (NStr s).


Lemma str_app_assoc : forall a b c : string, ((a ++ b) ++ c = a ++ (b ++ c))%string.
Proof. induction a as [|x a IH]; intros; simpl; [reflexivity|]. rewrite IH; reflexivity. Qed.

Lemma str_app_nil_r : forall a : string, (a ++ "" = a)%string.
Proof. induction a as [|x a IH]; simpl; [reflexivity|]. rewrite IH; reflexivity. Qed.

Lemma concat_strings_app : forall l1 l2,
  concat_strings (l1 ++ l2) = (concat_strings l1 ++ concat_strings l2)%string.
Proof.
  induction l1 as [|s l1 IH]; intros l2; simpl; [reflexivity|].
  rewrite IH, str_app_assoc. reflexivity.
Qed.

Lemma concat_rest_ok : forall l,
  (forall v, In v l -> av_isinstance v StringAV = true) ->
  concat_rest (map PAttr l) = Ok l.
Proof.
  induction l as [|v l IH]; intros H; [reflexivity|]. simpl map. cbn [concat_rest].
  rewrite (H v (or_introl eq_refl)), IH; [reflexivity|].
  intros w Hw; apply H; right; exact Hw.
Qed.

Lemma join_values_ok : forall l, join_values (map NStr l) = Ok (concat_strings l).
Proof. induction l as [|s l IH]; simpl; [reflexivity|]. rewrite IH. reflexivity. Qed.

Lemma concat_ok : forall F c a s vs ss,
  ac_type c = NTStr -> av_isinstance a c = true -> av_value a = NStr s ->
  vs <> [] ->
  Forall2 (fun v t => av_isinstance v StringAV = true /\ av_value v = NStr t) vs ss ->
  fn_eval F (FnConcat c) (PAttr a :: map PAttr vs) =
  Ok (PAttr (mkAV c (ac_id c) (NStr (s ++ concat_strings ss)))).
Proof.
  intros F c a s vs ss Ht Ha Hv Hne H2.
  assert (Hrest : concat_rest (map PAttr vs) = Ok vs).
  { apply concat_rest_ok. intros v Hin.
    destruct (Forall2_In_l _ _ _ _ _ _ H2 Hin) as (t & _ & H & _). exact H. }
  assert (Hvals : map av_value vs = map NStr ss).
  { clear Hne Hrest. induction H2 as [|v t vs ss [_ Hvt] _ IH]; [reflexivity|].
    simpl. rewrite Hvt, IH. reflexivity. }
  destruct vs as [|v vs]; [congruence|].
  cbn [fn_eval concat_eval map]. rewrite Ha.
  change (PAttr v :: map PAttr vs) with (map PAttr (v :: vs)). rewrite Hrest.
  cbn [bind]. rewrite Hvals, Hv.
  change (NStr s :: map NStr ss) with (map NStr (s :: ss)). rewrite join_values_ok.
  cbn [bind concat_strings]. unfold av_new, av_set_value. cbn [av_class av_dataType].
  rewrite Ht. reflexivity.
Qed.

Lemma concat_rest_cases : forall args,
  (exists vs, args = map PAttr vs /\ forall v, In v vs -> av_isinstance v StringAV = true) \/
  concat_rest args = Raise EXacmlContextTypeError.
Proof.
  induction args as [|x args IH].
  - left. exists []. split; [reflexivity|contradiction].
  - cbn [concat_rest]. destruct x as [|a| |]; try (right; reflexivity).
    destruct (av_isinstance a StringAV) eqn:Ha; [|right; reflexivity].
    destruct IH as [(vs & -> & Hvs)|IH].
    + left. exists (a :: vs). split; [reflexivity|].
      intros v [<-|Hv]; auto.
    + right. rewrite IH. reflexivity.
Qed.

Lemma concat_bad : forall F c args,
  ~ (exists a vs, args = PAttr a :: map PAttr vs /\ vs <> [] /\ av_isinstance a c = true /\
       forall v, In v vs -> av_isinstance v StringAV = true) ->
  exists e, fn_eval F (FnConcat c) args = Raise e.
Proof.
  intros F c args H. destruct args as [|x [|y rest]]; cbn [fn_eval concat_eval]; eauto.
  destruct x as [|a| |]; eauto. destruct (av_isinstance a c) eqn:Ha; eauto.
  destruct (concat_rest_cases (y :: rest)) as [(vs & Heq & Hvs)|Hr].
  - exfalso. apply H. exists a, vs. rewrite Heq. repeat split; auto.
    intros ->. discriminate.
  - rewrite Hr. simpl. eauto.
Qed.

(** ** Setting values *)

Lemma av_set_value_ok : forall v x v',
  av_set_value v x = Ok v' ->
  native_isinstance x (ac_type (av_class v)) = Ok true /\
  v' = mkAV (av_class v) (av_dataType v) x.
Proof.
  intros v x v' H. unfold av_set_value in H. apply bind_ok in H.
  destruct H as (b & Hb & H). destruct b; [|discriminate]. injection H as <-. auto.
Qed.
