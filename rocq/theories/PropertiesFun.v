(** Properties C21-C25 and C34: the XACML functions and value equality.
    [native_eqb] is Python's == on the underlying values (Values.v). *)
From Verif Require Import Eval SpecFun Sample EvalFacts FunFacts.

(** ** C21 *)
Theorem C21_and : forall F bs,
  fn_eval F FnAnd (map (fun b => PNat (NBool b)) bs) =
  Ok (PNat (NBool (forallb (fun b => b) bs))).
Proof. exact and_ok. Qed.

Theorem C21_and_rejects : forall F args,
  (exists v, In v args /\ forall b, v <> PNat (NBool b)) ->
  fn_eval F FnAnd args = Raise EXacmlContextTypeError.
Proof. exact and_bad. Qed.

Theorem C21_not : forall F b,
  fn_eval F FnNot [PNat (NBool b)] = Ok (PNat (NBool (negb b))).
Proof. exact not_ok. Qed.

Theorem C21_not_rejects : forall F args,
  (forall b, args <> [PNat (NBool b)]) -> exists e, fn_eval F FnNot args = Raise e.
Proof. exact not_bad. Qed.

Example C21_examples :
  fn_eval sF FnAnd [] = Ok (py_bool true) /\
  fn_eval sF FnAnd [py_bool true; py_bool false; py_bool true] = Ok (py_bool false) /\
  fn_eval sF FnAnd [py_bool false; PAttr (sstr "x")] = Raise EXacmlContextTypeError /\
  fn_eval sF FnNot [PAttr (mkAV BooleanAV (xs "boolean") (NBool true))]
    = Raise EXacmlContextTypeError.
Proof. repeat split; vm_compute; reflexivity. Qed.

(** ** C22 *)
Theorem C22_equal : forall F c a b,
  av_isinstance a c = true -> av_isinstance b c = true ->
  fn_eval F (FnEqual c) [PAttr a; PAttr b] =
  Ok (PNat (NBool (native_eqb (av_value a) (av_value b)))).
Proof. exact equal_ok. Qed.

Theorem C22_equal_rejects : forall F c args,
  (forall a b, args = [PAttr a; PAttr b] -> av_isinstance a c && av_isinstance b c = false) ->
  exists e, fn_eval F (FnEqual c) args = Raise e.
Proof. exact equal_bad. Qed.

Theorem C22_match : forall F c a b,
  av_isinstance a c = true -> av_isinstance b c = true ->
  ac_name (av_class a) = ac_name (av_class b) ->
  fn_eval F (FnMatch c) [PAttr a; PAttr b] =
  Ok (PNat (NBool (native_eqb (av_value a) (av_value b)))).
Proof. exact match_ok. Qed.

Theorem C22_match_rejects : forall F c args,
  (forall a b, args = [PAttr a; PAttr b] -> av_isinstance a c && av_isinstance b c = false) ->
  exists e, fn_eval F (FnMatch c) args = Raise e.
Proof. exact match_bad. Qed.

(** Equality of values: symmetric, transitive, reflexive except for NaN, and on
    strings, integers and booleans it is the equality of those. *)
Theorem C22_value_equality : forall x y z,
  native_eqb x y = native_eqb y x /\
  (native_eqb x y = true -> native_eqb y z = true -> native_eqb x z = true) /\
  native_eqb x x = negb (is_nan x).
Proof.
  intros x y z. split; [apply native_eqb_sym|]. split; [apply native_eqb_trans|].
  apply native_eqb_refl.
Qed.

Theorem C22_value_equality_meaning :
  (forall a b, native_eqb (NStr a) (NStr b) = true <-> a = b) /\
  (forall a b, native_eqb (NInt a) (NInt b) = true <-> a = b) /\
  (forall a b, native_eqb (NBool a) (NBool b) = true <-> a = b) /\
  (forall m1 e1 m2 e2, (0 <= e1)%Z -> (0 <= e2)%Z ->
     (native_eqb (NFloat (FNum m1 e1)) (NFloat (FNum m2 e2)) = true <->
      (m1 * 2 ^ e1 = m2 * 2 ^ e2)%Z)).
Proof.
  split; [exact native_eqb_str|]. split; [|split].
  - intros a b. unfold native_eqb. simpl. rewrite (dyadic_eqb_at a 0 b 0 0) by reflexivity.
    simpl. rewrite !Z.mul_1_r. reflexivity.
  - intros [] []; split; intros H; try reflexivity; vm_compute in H; discriminate.
  - intros m1 e1 m2 e2 H1 H2. unfold native_eqb. simpl. rewrite (dyadic_eqb_at m1 e1 m2 e2 0) by assumption.
    rewrite !Z.sub_0_r. reflexivity.
Qed.

Example C22_examples :
  fn_eval sF (FnEqual StringAV) [PAttr (sstr "a"); PAttr (sstr "a")] = Ok (py_bool true) /\
  fn_eval sF (FnEqual StringAV) [PAttr (sstr "a"); PAttr (sstr "b")] = Ok (py_bool false) /\
  fn_eval sF (FnEqual StringAV) [PAttr (sstr "a"); PAttr (sint 1)]
    = Raise EXacmlContextTypeError /\
  fn_eval sF (FnMatch StringAV) [PAttr (sstr "a"); PAttr (sstr "a")] = Ok (py_bool true) /\
  native_eqb (NFloat (FNum 3 1)) (NFloat (FNum 6 0)) = true /\
  native_eqb (NFloat FNan) (NFloat FNan) = false.
Proof. repeat split; vm_compute; reflexivity. Qed.

(** ** C23 *)
Theorem C23_one_and_only : forall F c c' a,
  ac_name c' = ac_name c ->
  fn_eval F (FnOneAndOnly c) [PBag (Some c') [a]] = Ok (PAttr a).
Proof. exact one_and_only_ok. Qed.

Theorem C23_one_and_only_rejects : forall F c args,
  (forall c' a, args = [PBag (Some c') [a]] -> ac_name c' <> ac_name c) ->
  exists e, fn_eval F (FnOneAndOnly c) args = Raise e.
Proof. exact one_and_only_bad. Qed.

Theorem C23_bag : forall F c vs,
  (forall v, In v vs -> av_isinstance v c = true) ->
  fn_eval F (FnBag c) (map PAttr vs) = Ok (PBag (Some c) vs).
Proof. exact bag_ok. Qed.

Theorem C23_bag_rejects : forall F c args,
  (exists x, In x args /\ forall v, x = PAttr v -> av_isinstance v c = false) ->
  fn_eval F (FnBag c) args = Raise ETypeError.
Proof. exact bag_bad. Qed.

Theorem C23_one_and_only_inverts_bag : forall F c v,
  av_isinstance v c = true ->
  exists b, fn_eval F (FnBag c) [PAttr v] = Ok b /\
            fn_eval F (FnOneAndOnly c) [b] = Ok (PAttr v).
Proof.
  intros F c v Hv. exists (PBag (Some c) [v]). split.
  - apply (bag_ok F c [v]). intros v' [<-|[]]; exact Hv.
  - apply one_and_only_ok. reflexivity.
Qed.

Example C23_examples :
  fn_eval sF (FnBag StringAV) [PAttr (sstr "a"); PAttr (sstr "b"); PAttr (sstr "b")]
    = Ok (PBag (Some StringAV) [sstr "a"; sstr "b"; sstr "b"]) /\
  fn_eval sF (FnBag StringAV) [PAttr (sstr "a"); PAttr (sint 2)] = Raise ETypeError /\
  fn_eval sF (FnOneAndOnly StringAV) [PBag (Some StringAV) [sstr "a"; sstr "b"]]
    = Raise EXacmlContextError /\
  fn_eval sF (FnOneAndOnly StringAV) [PBag (Some IntegerAV) [sint 1]] = Raise EXacmlContextError.
Proof. repeat split; vm_compute; reflexivity. Qed.

(** ** C24 *)
Theorem C24_at_least_one_member_of : forall F c c1 c2 l1 l2,
  ac_name c1 = ac_name c -> ac_name c2 = ac_name c ->
  exists b, fn_eval F (FnAtLeastOne c) [PBag (Some c1) l1; PBag (Some c2) l2] =
            Ok (PNat (NBool b)) /\
  (b = true <-> exists v1 v2, In v1 l1 /\ In v2 l2 /\
                native_eqb (av_value v1) (av_value v2) = true).
Proof. exact at_least_one_ok. Qed.

Theorem C24_at_least_one_rejects : forall F c args,
  (forall c1 c2 l1 l2, args = [PBag (Some c1) l1; PBag (Some c2) l2] ->
     ~ (ac_name c1 = ac_name c /\ ac_name c2 = ac_name c)) ->
  exists e, fn_eval F (FnAtLeastOne c) args = Raise e.
Proof. exact at_least_one_bad. Qed.

(** Only which values occur matters, and the order of the bags does not. *)
Theorem C24_symmetric_order_insensitive : forall F c l1 l2 l1' l2',
  (forall v, In v l1 <-> In v l1') -> (forall v, In v l2 <-> In v l2') ->
  fn_eval F (FnAtLeastOne c) [PBag (Some c) l1; PBag (Some c) l2] =
  fn_eval F (FnAtLeastOne c) [PBag (Some c) l1'; PBag (Some c) l2'] /\
  fn_eval F (FnAtLeastOne c) [PBag (Some c) l1; PBag (Some c) l2] =
  fn_eval F (FnAtLeastOne c) [PBag (Some c) l2; PBag (Some c) l1].
Proof.
  intros F c l1 l2 l1' l2' H1 H2.
  destruct (at_least_one_ok F c c c l1 l2 eq_refl eq_refl) as (b & -> & Hb).
  destruct (at_least_one_ok F c c c l1' l2' eq_refl eq_refl) as (b' & -> & Hb').
  destruct (at_least_one_ok F c c c l2 l1 eq_refl eq_refl) as (b'' & -> & Hb'').
  split; do 3 f_equal; apply Bool.eq_iff_eq_true.
  - rewrite Hb, Hb'. split; intros (v1 & v2 & Hv1 & Hv2 & He); exists v1, v2;
      (split; [apply H1; exact Hv1|split; [apply H2; exact Hv2|exact He]]).
  - rewrite Hb, Hb''. split; intros (v1 & v2 & Hv1 & Hv2 & He); exists v2, v1;
      rewrite native_eqb_sym; auto.
Qed.

Theorem C24_empty : forall F c l,
  fn_eval F (FnAtLeastOne c) [PBag (Some c) []; PBag (Some c) l] = Ok (PNat (NBool false)) /\
  fn_eval F (FnAtLeastOne c) [PBag (Some c) l; PBag (Some c) []] = Ok (PNat (NBool false)).
Proof.
  intros F c l.
  destruct (at_least_one_ok F c c c [] l eq_refl eq_refl) as (b & -> & Hb).
  destruct (at_least_one_ok F c c c l [] eq_refl eq_refl) as (b' & -> & Hb').
  split; do 3 f_equal; apply Bool.not_true_is_false; [rewrite Hb|rewrite Hb'];
    intros (v1 & v2 & H1 & H2 & _); contradiction.
Qed.

Example C24_examples :
  fn_eval sF (FnAtLeastOne StringAV)
    [PBag (Some StringAV) [sstr "a"; sstr "b"]; PBag (Some StringAV) [sstr "c"; sstr "b"]]
    = Ok (py_bool true) /\
  fn_eval sF (FnAtLeastOne StringAV)
    [PBag (Some StringAV) [sstr "a"; sstr "b"]; PBag (Some StringAV) [sstr "c"]]
    = Ok (py_bool false) /\
  fn_eval sF (FnAtLeastOne StringAV) [PBag (Some StringAV) [sstr "a"]; PAttr (sstr "a")]
    = Raise EXacmlContextTypeError.
Proof. repeat split; vm_compute; reflexivity. Qed.

(** ** C25 *)
Theorem C25_concatenate : forall F c a s vs ss,
  ac_type c = NTStr -> av_isinstance a c = true -> av_value a = NStr s ->
  vs <> [] ->
  Forall2 (fun v t => av_isinstance v StringAV = true /\ av_value v = NStr t) vs ss ->
  fn_eval F (FnConcat c) (PAttr a :: map PAttr vs) =
  Ok (PAttr (mkAV c (ac_id c) (NStr (s ++ concat_strings ss)))).
Proof. exact concat_ok. Qed.

Theorem C25_concatenate_rejects : forall F c args,
  ~ (exists a vs, args = PAttr a :: map PAttr vs /\ vs <> [] /\ av_isinstance a c = true /\
       forall v, In v vs -> av_isinstance v StringAV = true) ->
  exists e, fn_eval F (FnConcat c) args = Raise e.
Proof. exact concat_bad. Qed.

Theorem C25_stepwise : forall F c a s vs1 ss1 vs2 ss2,
  ac_type c = NTStr -> av_isinstance a c = true -> av_value a = NStr s ->
  vs1 <> [] -> vs2 <> [] ->
  Forall2 (fun v t => av_isinstance v StringAV = true /\ av_value v = NStr t) vs1 ss1 ->
  Forall2 (fun v t => av_isinstance v StringAV = true /\ av_value v = NStr t) vs2 ss2 ->
  exists v, fn_eval F (FnConcat c) (PAttr a :: map PAttr vs1) = Ok v /\
    fn_eval F (FnConcat c) (v :: map PAttr vs2) =
    fn_eval F (FnConcat c) (PAttr a :: map PAttr (vs1 ++ vs2)).
Proof.
  intros F c a s vs1 ss1 vs2 ss2 Hc Ha Hs H1 H2 F1 F2.
  exists (PAttr (mkAV c (ac_id c) (NStr (s ++ concat_strings ss1)))). split.
  - apply concat_ok; assumption.
  - rewrite (concat_ok F c _ (s ++ concat_strings ss1) vs2 ss2); auto.
    + rewrite (concat_ok F c a s (vs1 ++ vs2) (ss1 ++ ss2)); auto.
      * rewrite concat_strings_app, str_app_assoc. reflexivity.
      * intros H. apply app_eq_nil in H. destruct H; contradiction.
      * apply Forall2_app; assumption.
    + unfold av_isinstance, issubclass. simpl. rewrite class_eqb_refl. reflexivity.
Qed.

Example C25_examples :
  fn_eval sF (FnConcat AnyURIAV)
    [PAttr (mkAV AnyURIAV (xs "anyURI") (NStr "http://h/")); PAttr (sstr "a"); PAttr (sstr "b")]
    = Ok (PAttr (mkAV AnyURIAV (xs "anyURI") (NStr "http://h/ab"))) /\
  fn_eval sF (FnConcat StringAV) [PAttr (sstr "a")] = Raise EXacmlContextError /\
  fn_eval sF (FnConcat StringAV) [PAttr (sstr "a"); PAttr (sint 1)] = Raise EXacmlContextTypeError.
Proof. repeat split; vm_compute; reflexivity. Qed.

(** ** C34 *)
Theorem C34_same_class : forall a b,
  ac_name (av_class a) = ac_name (av_class b) ->
  av_eq a b = Ok (native_eqb (av_value a) (av_value b)).
Proof. exact av_eq_same_class. Qed.

Theorem C34_symmetric : forall a b, av_eq a b = av_eq b a.
Proof. exact av_eq_sym. Qed.

(** Different classes, unrelated or one derived from the other: never False. *)
Theorem C34_other_class : forall a b,
  ac_name (av_class a) <> ac_name (av_class b) ->
  ~ (issubclass (av_class a) (av_class b) = true /\ issubclass (av_class b) (av_class a) = true) ->
  av_eq a b = Raise ETypeError /\ av_eq b a = Raise ETypeError.
Proof.
  intros a b H1 H2. split; [apply av_eq_other_class; assumption|].
  rewrite av_eq_sym. apply av_eq_other_class; assumption.
Qed.

Theorem C34_equivalence : forall a b c,
  ac_name (av_class a) = ac_name (av_class b) -> ac_name (av_class b) = ac_name (av_class c) ->
  (av_eq a a = Ok (negb (is_nan (av_value a)))) /\
  (av_eq a b = Ok true -> av_eq b c = Ok true -> av_eq a c = Ok true).
Proof.
  intros a b c H1 H2. rewrite !av_eq_same_class by congruence. split.
  - rewrite native_eqb_refl. reflexivity.
  - intros Ha Hb. injection Ha as Ha. injection Hb as Hb. f_equal.
    eapply native_eqb_trans; eauto.
Qed.

Example C34_examples :
  av_eq (sstr "a") (sstr "a") = Ok true /\ av_eq (sstr "a") (sstr "b") = Ok false /\
  av_eq (sstr "a") (mkAV AnyURIAV (xs "anyURI") (NStr "a")) = Raise ETypeError.
Proof. repeat split; vm_compute; reflexivity. Qed.

Print Assumptions C21_and.
Print Assumptions C21_and_rejects.
Print Assumptions C21_not.
Print Assumptions C21_not_rejects.
Print Assumptions C22_equal.
Print Assumptions C22_equal_rejects.
Print Assumptions C22_match.
Print Assumptions C22_match_rejects.
Print Assumptions C22_value_equality.
Print Assumptions C22_value_equality_meaning.
Print Assumptions C23_one_and_only.
Print Assumptions C23_one_and_only_rejects.
Print Assumptions C23_bag.
Print Assumptions C23_bag_rejects.
Print Assumptions C23_one_and_only_inverts_bag.
Print Assumptions C24_at_least_one_member_of.
Print Assumptions C24_at_least_one_rejects.
Print Assumptions C24_symmetric_order_insensitive.
Print Assumptions C24_empty.
Print Assumptions C25_concatenate.
Print Assumptions C25_concatenate_rejects.
Print Assumptions C25_stepwise.
Print Assumptions C34_same_class.
Print Assumptions C34_symmetric.
Print Assumptions C34_other_class.
Print Assumptions C34_equivalence.
