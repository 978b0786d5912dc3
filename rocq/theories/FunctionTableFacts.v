(** Proofs about the table of what the built in functions give. *)
From Verif Require Import Eval SpecFun SpecFunctionTable EvalFacts FunFacts SettersFacts.
From Coq Require Import Lia ZArith.
Local Open Scope list_scope.

Lemma is_a_iff : forall a c, av_isinstance a c = true <-> is_a a c.
Proof.
  intros a c. unfold av_isinstance, issubclass, class_eqb, is_a. rewrite Bool.orb_true_iff, String.eqb_eq.
  rewrite str_in_iff. reflexivity.
Qed.
Lemma is_a_no : forall a c, av_isinstance a c = false <-> ~ is_a a c.
Proof.
  intros a c. rewrite <- is_a_iff. destruct (av_isinstance a c); split; intros H; try discriminate; auto.
  - exfalso. apply H. reflexivity.
Qed.
Lemma a_value_iff : forall c x,
  a_value c x <-> match x with PAttr a => av_isinstance a c = true | _ => False end.
Proof.
  intros c x. unfold a_value. split.
  - intros (a & -> & H). apply is_a_iff, H.
  - destruct x as [n|a|et l|n b]; try contradiction. intros H. exists a. split; [reflexivity|apply is_a_iff, H].
Qed.

(** ** Rounding *)
Lemma pow_pos : forall e, (e < 0)%Z -> (0 < 2 ^ (- e))%Z.
Proof. intros e H. apply Z.pow_pos_nonneg; lia. Qed.

Lemma rounded : forall m e, nearest m e (round_half_even m e).
Proof.
  intros m e. unfold nearest, round_half_even. destruct (0 <=? e)%Z eqn:E; [reflexivity|].
  apply Z.leb_gt in E. pose proof (pow_pos e E) as Hd. set (d := (2 ^ (- e))%Z) in *. clearbody d.
  pose proof (Z.div_mod m d ltac:(lia)) as Hm. pose proof (Z.mod_pos_bound m d Hd) as Hr.
  set (q := (m / d)%Z) in *. set (r := (m mod d)%Z) in *. clearbody q r.
  destruct (2 * r <? d)%Z eqn:E1; [left; apply Z.ltb_lt in E1; rewrite Z.abs_eq; nia|].
  apply Z.ltb_ge in E1.
  destruct (d <? 2 * r)%Z eqn:E2; [left; apply Z.ltb_lt in E2; rewrite Z.abs_neq; nia|].
  apply Z.ltb_ge in E2.
  destruct (Z.even q) eqn:Eq.
  - right. split; [rewrite Z.abs_eq; nia|]. apply Z.even_spec, Eq.
  - right. split; [rewrite Z.abs_neq; nia|]. apply Z.even_spec. rewrite Z.even_add, Eq. reflexivity.
Qed.
Lemma nearest_unique : forall m e y z, nearest m e y -> nearest m e z -> y = z.
Proof.
  intros m e y z. unfold nearest. destruct (0 <=? e)%Z eqn:E; [congruence|].
  apply Z.leb_gt in E. pose proof (pow_pos e E) as Hd. set (d := (2 ^ (- e))%Z) in *. clearbody d.
  intros Hy Hz.
  assert (By : (2 * Z.abs (m - y * d) <= d)%Z) by (destruct Hy as [Hy|[Hy _]]; lia).
  assert (Bz : (2 * Z.abs (m - z * d) <= d)%Z) by (destruct Hz as [Hz|[Hz _]]; lia).
  assert (Hdiff : (-1 <= y - z <= 1)%Z) by nia.
  destruct (Z.eq_dec y z) as [->|Hn]; [reflexivity|]. exfalso.
  assert (Ty : (2 * Z.abs (m - y * d) = d)%Z) by nia.
  assert (Tz : (2 * Z.abs (m - z * d) = d)%Z) by nia.
  assert (Ey : Z.Even y) by (destruct Hy as [Hy|[_ Hy]]; [lia|exact Hy]).
  assert (Ez : Z.Even z) by (destruct Hz as [Hz|[_ Hz]]; [lia|exact Hz]).
  destruct Ey as [i ->]. destruct Ez as [j ->]. lia.
Qed.

(** ** Every outcome is in the table *)
Section Table.
Variable F : fenv.

Lemma not_length : forall (args : list pyval) n, (length args =? n)%nat = false -> length args <> n.
Proof. intros args n H. apply Nat.eqb_neq, H. Qed.

Lemma and_gives : forall args, gives F FnAnd args (and_eval args).
Proof.
  intros args.
  assert (H : (exists bs, args = map truth bs) \/ exists x, In x args /\ ~ a_boolean x).
  { induction args as [|x args IH]; [left; exists []; reflexivity|].
    destruct x as [[]| | |]; try (right; eexists; split; [left; reflexivity|intros (b9 & E); discriminate E]).
    destruct IH as [(bs & ->)|(x & Hx & Hn)]; [left; exists (b :: bs); reflexivity|].
    right. exists x. split; [right; exact Hx|exact Hn]. }
  destruct H as [(bs & ->)|(x & Hx & Hn)].
  - replace (and_eval (map truth bs)) with (Ok (truth (forallb (fun b => b) bs))); [constructor|].
    symmetry. exact (and_ok F bs).
  - replace (and_eval args) with (@Raise pyval EXacmlContextTypeError); [exact (and_type F args x Hx Hn)|].
    symmetry. apply (and_bad F args). exists x. split; [exact Hx|]. intros b ->. apply Hn. exists b. reflexivity.
Qed.
Lemma not_gives : forall args, gives F FnNot args (not_eval args).
Proof.
  intros [|x [|y rest]]; [constructor| |constructor].
  destruct x as [[]| | |]; cbn [not_eval as_bool];
    try (apply not_type; intros (b9 & E); discriminate E). constructor.
Qed.
Lemma round_gives : forall args, gives F FnRound args (round_eval args).
Proof.
  intros [|x [|y rest]]; [cbn; apply round_many; discriminate| |].
  - destruct x as [[| | | |[]| | |]| | |]; cbn [round_eval];
      try (apply round_type; intros [(z9 & E)|[(z9 & E)|(z9 & E)]]; discriminate E); try constructor.
    apply rounded.
  - replace (round_eval (x :: y :: rest)) with (@Raise pyval ETypeError).
    + apply round_many. discriminate.
    + destruct x as [[| | | |[]| | |]| | |]; reflexivity.
Qed.

Ltac two args := destruct args as [|x9 [|y9 [|z9 rest9]]];
  [cbn; constructor; discriminate|cbn; constructor; discriminate| |cbn; constructor; discriminate].

Lemma equal_gives : forall c args, gives F (FnEqual c) args (equal_eval c args).
Proof.
  intros c args. two args.
  assert (Hno : ~ (a_value c x9 /\ a_value c y9) -> gives F (FnEqual c) [x9; y9] (Raise EXacmlContextTypeError))
    by apply equal_type.
  rewrite !a_value_iff in Hno. cbn [equal_eval].
  destruct x9 as [n1|a|et1 l1|n1 t1]; try (apply Hno; intros [[] _]).
  destruct (av_isinstance a c) eqn:Ea; [|apply Hno; intros [E _]; discriminate E].
  destruct y9 as [n2|b|et2 l2|n2 t2]; try (apply Hno; intros [_ []]).
  destruct (av_isinstance b c) eqn:Eb; [|apply Hno; intros [_ E]; discriminate E].
  apply equal_value; apply is_a_iff; assumption.
Qed.
Lemma av_eq_table : forall a b,
  (is_a b (av_class a) /\ is_a a (av_class b) -> av_eq a b = Ok (native_eqb (av_value a) (av_value b))) /\
  (~ (is_a b (av_class a) /\ is_a a (av_class b)) -> av_eq a b = Raise ETypeError).
Proof.
  intros a b. rewrite <- !is_a_iff. unfold av_eq, av_dunder_eq.
  destruct (class_eqb (av_class a) (av_class b)) eqn:Ec.
  - assert (E1 : av_isinstance b (av_class a) = true).
    { unfold av_isinstance, issubclass. rewrite class_eqb_sym, Ec. reflexivity. }
    assert (E2 : av_isinstance a (av_class b) = true).
    { unfold av_isinstance, issubclass. rewrite Ec. reflexivity. }
    rewrite E1, E2. cbn [negb andb]. split; [reflexivity|]. intros H. exfalso. apply H. auto.
  - destruct (av_isinstance b (av_class a)) eqn:E1; cbn [negb andb].
    + destruct (av_isinstance a (av_class b)) eqn:E2.
      * split; [intros _; rewrite native_eqb_sym; reflexivity|]. intros H. exfalso. apply H. auto.
      * split; [intros [_ H]; discriminate|reflexivity].
    + split; [intros [H _]; discriminate|reflexivity].
Qed.
Lemma match_gives : forall c args, gives F (FnMatch c) args (match_eval c args).
Proof.
  intros c args. two args.
  assert (Hno : ~ (a_value c x9 /\ a_value c y9) -> gives F (FnMatch c) [x9; y9] (Raise EXacmlContextTypeError))
    by apply match_type.
  rewrite !a_value_iff in Hno. cbn [match_eval].
  destruct x9 as [n1|a|et1 l1|n1 t1]; try (apply Hno; intros [[] _]).
  destruct (av_isinstance a c) eqn:Ea; [|apply Hno; intros [E _]; discriminate E].
  destruct y9 as [n2|b|et2 l2|n2 t2]; try (apply Hno; intros [_ []]).
  destruct (av_isinstance b c) eqn:Eb; [|apply Hno; intros [_ E]; discriminate E].
  apply is_a_iff in Ea. apply is_a_iff in Eb. destruct (av_eq_table a b) as [T1 T2].
  assert (D : is_a b (av_class a) /\ is_a a (av_class b) \/ ~ (is_a b (av_class a) /\ is_a a (av_class b))).
  { rewrite <- !is_a_iff. destruct (av_isinstance b (av_class a)), (av_isinstance a (av_class b));
      [left; auto|right; intros [? ?]; discriminate..]. }
  destruct D as [D|D].
  - rewrite T1 by exact D. destruct D. cbn. apply match_value; assumption.
  - rewrite T2 by exact D. cbn. apply match_classes; assumption.
Qed.
Lemma values_or_not : forall c args,
  (exists l, args = map PAttr l /\ forall a, In a l -> is_a a c) \/ (exists x, In x args /\ ~ a_value c x).
Proof.
  intros c. induction args as [|x args IH]; [left; exists []; split; [reflexivity|intros a []]|].
  assert (D : a_value c x \/ ~ a_value c x).
  { rewrite a_value_iff. destruct x as [n|a|et l|n t]; auto. destruct (av_isinstance a c); [left; reflexivity|right; discriminate]. }
  destruct D as [(a & -> & Ha)|D]; [|right; exists x; split; [left; reflexivity|exact D]].
  destruct IH as [(l & -> & Hl)|(y & Hy & Hn)].
  - left. exists (a :: l). split; [reflexivity|]. intros b [<-|Hb]; [exact Ha|exact (Hl b Hb)].
  - right. exists y. split; [right; exact Hy|exact Hn].
Qed.
Lemma bag_gives : forall c args, gives F (FnBag c) args (bag_eval c args).
Proof.
  intros c args. destruct (values_or_not c args) as [(l & -> & Hl)|(x & Hx & Hn)].
  - replace (bag_eval c (map PAttr l)) with (Ok (PBag (Some c) l)); [constructor; exact Hl|].
    symmetry. apply (bag_ok F c l). intros v Hv. apply is_a_iff, Hl, Hv.
  - replace (bag_eval c args) with (@Raise pyval ETypeError); [exact (bag_type F c args x Hx Hn)|].
    symmetry. apply (bag_bad F c args). exists x. split; [exact Hx|]. intros v ->. apply is_a_no.
    intros H. apply Hn. exists v. auto.
Qed.
Lemma a_bag_iff : forall c x l, a_bag c x l <->
  match x with PBag et l' => opt_eqb class_eqb et (Some c) = true /\ l' = l | _ => False end.
Proof.
  intros c x l. unfold a_bag. split.
  - intros (c' & -> & E). cbn. unfold class_eqb. rewrite E, String.eqb_refl. auto.
  - destruct x as [n|a|[c'|] l'|n t]; try contradiction; cbn; [|intros [H _]; discriminate].
    intros [E ->]. exists c'. split; [reflexivity|]. apply String.eqb_eq, E.
Qed.
Lemma one_gives : forall c args, gives F (FnOneAndOnly c) args (one_and_only_eval c args).
Proof.
  intros c [|x [|y rest]]; [cbn; constructor; discriminate| |cbn; constructor; discriminate].
  assert (Hno : (forall a, ~ a_bag c x [a]) -> gives F (FnOneAndOnly c) [x] (Raise EXacmlContextError)) by apply one_not.
  cbn [one_and_only_eval]. destruct x as [n|a|et l|n t];
    try (apply Hno; intros a9 H; apply a_bag_iff in H; exact H).
  destruct (opt_eqb class_eqb et (Some c)) eqn:E.
  - destruct l as [|a [|b l]].
    + apply Hno. intros a9 H. apply a_bag_iff in H. destruct H as [_ H]. discriminate H.
    + apply one_value. apply a_bag_iff. auto.
    + apply Hno. intros a9 H. apply a_bag_iff in H. destruct H as [_ H]. discriminate H.
  - apply Hno. intros a9 H. apply a_bag_iff in H. destruct H as [H _]. congruence.
Qed.
Lemma member_gives : forall c args, gives F (FnAtLeastOne c) args (at_least_one_eval c args).
Proof.
  intros c args. two args.
  assert (Hno : ~ ((exists l, a_bag c x9 l) /\ (exists l, a_bag c y9 l)) ->
    gives F (FnAtLeastOne c) [x9; y9] (Raise EXacmlContextTypeError)) by apply member_type.
  cbn [at_least_one_eval].
  destruct x9 as [n1|a|et1 l1|n1 t1]; try (apply Hno; intros [[l9 H] _]; apply a_bag_iff in H; exact H).
  destruct (opt_eqb class_eqb et1 (Some c)) eqn:E1;
    [|apply Hno; intros [[l9 H] _]; apply a_bag_iff in H; destruct H; congruence].
  destruct y9 as [n2|b|et2 l2|n2 t2]; try (apply Hno; intros [_ [l9 H]]; apply a_bag_iff in H; exact H).
  destruct (opt_eqb class_eqb et2 (Some c)) eqn:E2;
    [|apply Hno; intros [_ [l9 H]]; apply a_bag_iff in H; destruct H; congruence].
  destruct et1 as [c1|]; [|discriminate E1]. destruct et2 as [c2|]; [|discriminate E2].
  destruct (at_least_one_ok F c c1 c2 l1 l2 (proj1 (String.eqb_eq _ _) E1) (proj1 (String.eqb_eq _ _) E2)) as (b & Hb & Hi).
  cbn [fn_eval at_least_one_eval] in Hb. rewrite E1, E2 in Hb. cbv zeta in Hb |- *. rewrite Hb.
  assert (B1 : a_bag c (PBag (Some c1) l1) l1) by (apply a_bag_iff; auto).
  assert (B2 : a_bag c (PBag (Some c2) l2) l2) by (apply a_bag_iff; auto).
  destruct b.
  - destruct (proj1 Hi eq_refl) as (v1 & v2 & H1 & H2 & He).
    exact (member_true F c _ _ l1 l2 v1 v2 B1 B2 H1 H2 He).
  - refine (member_false F c _ _ l1 l2 B1 B2 _). intros a b H1 H2.
    destruct (native_eqb (av_value a) (av_value b)) eqn:Ee; [|reflexivity].
    assert (false = true) by (apply Hi; exists a, b; auto). discriminate.
Qed.
Lemma regexp_gives : forall c args, gives F (FnRegexp c) args (regexp_eval F c args).
Proof.
  intros c args. two args.
  assert (Hno : ~ (a_value c x9 /\ a_value c y9) -> gives F (FnRegexp c) [x9; y9] (Raise ETypeError))
    by apply regexp_type.
  rewrite !a_value_iff in Hno. cbn [regexp_eval].
  destruct x9 as [n1|a|et1 l1|n1 t1]; try (apply Hno; intros [[] _]).
  destruct (av_isinstance a c) eqn:Ea; [|apply Hno; intros [E _]; discriminate E].
  destruct y9 as [n2|b|et2 l2|n2 t2]; try (apply Hno; intros [_ []]).
  destruct (av_isinstance b c) eqn:Eb; [|apply Hno; intros [_ E]; discriminate E].
  apply is_a_iff in Ea. apply is_a_iff in Eb. unfold regexp_values.
  assert (Hp : (forall p, ~ text_of a p) -> gives F (FnRegexp c) [PAttr a; PAttr b] (Raise ETypeError))
    by (apply regexp_pattern; assumption).
  unfold text_of in Hp. destruct (av_value a) as [|p| | | | | |] eqn:Ep; try (apply Hp; discriminate).
  destruct (fe_compile F p) as [e|] eqn:Ec; [exact (regexp_compile F c a b p e Ea Eb Ep Ec)|].
  assert (Hs : (forall s, ~ text_of b s) -> gives F (FnRegexp c) [PAttr a; PAttr b] (Raise ETypeError))
    by (apply (regexp_input F c a b p); assumption).
  unfold text_of in Hs. destruct (av_value b) as [|s| | | | | |] eqn:Es; try (apply Hs; discriminate).
  exact (regexp_value F c a b p s Ea Eb Ep Es Ec).
Qed.

Lemma concat_strings_concat : forall ss, concat_strings ss = String.concat "" ss.
Proof.
  induction ss as [|s ss IH]; [reflexivity|]. cbn [concat_strings]. rewrite IH.
  destruct ss as [|t ss]; [cbn; apply str_app_nil_r|]. reflexivity.
Qed.
Lemma texts_or_not : forall l : list attrval,
  (exists ss, map av_value l = map NStr ss) \/ (exists v, In v l /\ forall s, ~ text_of v s).
Proof.
  induction l as [|v l IH]; [left; exists []; reflexivity|].
  assert (D : (exists s, text_of v s) \/ forall s, ~ text_of v s).
  { unfold text_of. destruct (av_value v); try (right; discriminate). left. eexists. reflexivity. }
  destruct D as [(s & Hs)|D]; [|right; exists v; split; [left; reflexivity|exact D]].
  destruct IH as [(ss & Hss)|(w & Hw & Hn)].
  - left. exists (s :: ss). cbn [map]. rewrite Hss. f_equal. exact Hs.
  - right. exists w. split; [right; exact Hw|exact Hn].
Qed.
Lemma join_values_bad : forall l v, In v l -> (forall s, ~ text_of v s) ->
  join_values (map av_value l) = Raise ETypeError.
Proof.
  induction l as [|w l IH]; intros v Hv Hn; [destruct Hv|]. cbn [map join_values].
  destruct Hv as [->|Hv].
  - unfold text_of in Hn. destruct (av_value v); try reflexivity. destruct (Hn _ eq_refl).
  - rewrite (IH v Hv Hn). destruct (av_value w); reflexivity.
Qed.
Lemma concat_rest_no : forall args x, In x args -> ~ a_value StringAV x ->
  concat_rest args = Raise EXacmlContextTypeError.
Proof.
  induction args as [|y args IH]; intros x Hx Hn; [destruct Hx|]. cbn [concat_rest]. destruct Hx as [->|Hx].
  - rewrite a_value_iff in Hn. destruct x as [n|a|et l|n t]; try reflexivity.
    destruct (av_isinstance a StringAV); [destruct (Hn eq_refl)|reflexivity].
  - rewrite (IH x Hx Hn). destruct y as [n|a|et l|n t]; try reflexivity.
    destruct (av_isinstance a StringAV); reflexivity.
Qed.
Lemma concat_rest_values : forall l, (forall a, In a l -> is_a a StringAV) -> concat_rest (map PAttr l) = Ok l.
Proof.
  induction l as [|a l IH]; intros H; [reflexivity|]. cbn [map concat_rest].
  rewrite (proj2 (is_a_iff a StringAV) (H a (or_introl eq_refl))), IH by (intros b Hb; apply H; right; exact Hb).
  reflexivity.
Qed.
Lemma concat_outcome : forall c a l, is_a a c -> l <> [] -> (forall v, In v l -> is_a v StringAV) ->
  concat_eval c (PAttr a :: map PAttr l) =
  (let* s := join_values (map av_value (a :: l)) in let* v := av_new c (NStr s) in Ok (PAttr v)).
Proof.
  intros c a l Ha Hl Hs. destruct l as [|b l]; [congruence|].
  change (concat_eval c (PAttr a :: map PAttr (b :: l))) with
    (if av_isinstance a c then
       let* l0 := concat_rest (map PAttr (b :: l)) in
       let* s := join_values (av_value a :: map av_value l0) in
       let* v := av_new c (NStr s) in Ok (PAttr v)
     else Raise EXacmlContextTypeError).
  rewrite (proj2 (is_a_iff a c) Ha), (concat_rest_values _ Hs). reflexivity.
Qed.
Lemma av_new_text : forall c s, av_new c (NStr s) =
  match ac_type c with NTStr => Ok (mkAV c (ac_id c) (NStr s)) | _ => Raise ETypeError end.
Proof.
  intros c s. unfold av_new, av_set_value. cbn [av_class av_dataType]. destruct (ac_type c); reflexivity.
Qed.
Lemma two_texts : forall a l s ss, map av_value (a :: l) = map NStr (s :: ss) ->
  (forall v, In v l -> is_a v StringAV) ->
  text_of a s /\ Forall2 (fun v t => is_a v StringAV /\ text_of v t) l ss.
Proof.
  intros a l s ss E H. cbn [map] in E. split; [congruence|].
  assert (E2 : map av_value l = map NStr ss) by congruence. clear E. revert ss E2.
  induction l as [|v l IH]; intros [|t ss] E; try discriminate; constructor; cbn [map] in E.
  - split; [apply H; left; reflexivity|]. unfold text_of. congruence.
  - apply IH; [intros w Hw; apply H; right; exact Hw|]. congruence.
Qed.
Lemma concat_gives : forall c args, gives F (FnConcat c) args (concat_eval c args).
Proof.
  intros c args. destruct args as [|x [|y rest]]; [cbn; apply concat_few; cbn; lia|cbn; apply concat_few; cbn; lia|].
  assert (D : a_value c x \/ ~ a_value c x).
  { rewrite a_value_iff. destruct x as [n|a|et l|n t]; auto. destruct (av_isinstance a c); [left; reflexivity|right; discriminate]. }
  destruct D as [(a & -> & Ha)|D].
  2:{ replace (concat_eval c (x :: y :: rest)) with (@Raise pyval EXacmlContextTypeError); [apply concat_type; left; exact D|].
      rewrite a_value_iff in D. cbn [concat_eval]. destruct x as [n|a|et l|n t]; try reflexivity.
      destruct (av_isinstance a c); [destruct (D eq_refl)|reflexivity]. }
  destruct (values_or_not StringAV (y :: rest)) as [(l & El & Hl)|(z & Hz & Hn)].
  - rewrite El. assert (Hne : l <> []) by (intros ->; discriminate El). rewrite (concat_outcome c a l Ha Hne Hl).
    destruct (texts_or_not (a :: l)) as [(ss & Hss)|(v & Hv & Hn)].
    + destruct ss as [|s ss]; [discriminate Hss|]. rewrite Hss, join_values_ok.
      cbn [bind]. rewrite av_new_text. destruct (two_texts a l s ss Hss Hl) as [Ht Hf].
      destruct (ac_type c) eqn:Et; cbn [bind];
        try (apply concat_class; [exact Ha|exact Hne|exact Hl|left; congruence]).
      cbn [concat_strings]. rewrite concat_strings_concat.
      apply concat_value; assumption.
    + rewrite (join_values_bad (a :: l) v Hv Hn). cbn [bind].
      apply concat_class; [exact Ha|exact Hne|exact Hl|]. right. exists v. auto.
  - replace (concat_eval c (PAttr a :: y :: rest)) with (@Raise pyval EXacmlContextTypeError).
    + apply concat_type. right. exists z. auto.
    + change (concat_eval c (PAttr a :: y :: rest)) with
        (if av_isinstance a c then
           let* l0 := concat_rest (y :: rest) in
           let* s := join_values (av_value a :: map av_value l0) in
           let* v := av_new c (NStr s) in Ok (PAttr v)
         else Raise EXacmlContextTypeError).
      rewrite (proj2 (is_a_iff a c) Ha), (concat_rest_no _ z Hz Hn). reflexivity.
Qed.

Lemma fn_gives : forall f args, gives F f args (fn_eval F f args).
Proof.
  intros f args. destruct f as [| | |c|c|c|c|c|c|c|name]; cbn [fn_eval];
    [apply and_gives|apply not_gives|apply round_gives|apply equal_gives|apply match_gives|apply bag_gives
    |apply one_gives|apply member_gives|apply regexp_gives|apply concat_gives|constructor].
Qed.

(** ** The table has one outcome *)
Lemma not_boolean : forall x, ~ a_boolean x -> as_bool x = None.
Proof. intros x H. destruct x as [[]| | |]; try reflexivity. exfalso. apply H. eexists. reflexivity. Qed.
Lemma given_eval : forall f args r, gives F f args r -> fn_eval F f args = r.
Proof.
  intros f args r H.
  destruct H as [bs|args x Hx Hn|b| |x Hn|x y rest
    |z|b|m e z Hz| |sg|x Hn|args Hl
    |c a b Ha Hb|c x y Hn|c args Hl
    |c a b Ha Hb H1 H2|c a b Ha Hb Hn|c x y Hn|c args Hl
    |c l Hl|c args x Hx Hn
    |c x a Hb|c x Hn|c args Hl
    |c x y l1 l2 a b B1 B2 H1 H2 He|c x y l1 l2 B1 B2 Hn|c x y Hn|c args Hl
    |c a b p s Ha Hb Hp Hs Hc|c a b p e Ha Hb Hp Hc|c a b p Ha Hb Hp Hc Hn|c a b Ha Hb Hn|c x y Hn|c args Hl
    |c a s l ss Ha Hs Hne Hf Ht|c a l Ha Hne Hl Hn|c x y rest Hn|c args Hl
    |name args]; try reflexivity; cbn [fn_eval].
  - exact (and_ok F bs).
  - apply (and_bad F args). exists x. split; [exact Hx|]. intros b ->. apply Hn. exists b. reflexivity.
  - cbn [not_eval]. rewrite (not_boolean x Hn). reflexivity.
  - cbn [round_eval]. rewrite (nearest_unique m e _ z (rounded m e) Hz). reflexivity.
  - assert (E : forall y, ~ a_number y -> round_eval [y] = Raise EXacmlContextTypeError).
    { intros y. unfold a_number.
      destruct y as [[| | | |[]| | |]| | |]; try reflexivity; intros H; exfalso; apply H;
        ((left; eexists; reflexivity) || (right; left; eexists; reflexivity) || (right; right; eexists; reflexivity)). }
    exact (E x Hn).
  - destruct args as [|x [|y rest]]; [reflexivity|destruct (Hl eq_refl)|].
    destruct x as [[| | | |[]| | |]| | |]; reflexivity.
  - apply is_a_iff in Ha. apply is_a_iff in Hb. cbn [equal_eval]. rewrite Ha, Hb. reflexivity.
  - rewrite !a_value_iff in Hn. cbn [equal_eval]. destruct x as [n1|a|et1 l1|n1 t1]; try reflexivity.
    destruct (av_isinstance a c); [|reflexivity]. destruct y as [n2|b|et2 l2|n2 t2]; try reflexivity.
    destruct (av_isinstance b c); [|reflexivity]. destruct (Hn (conj eq_refl eq_refl)).
  - destruct args as [|x [|y [|z rest]]]; try reflexivity. destruct (Hl eq_refl).
  - cbn [match_eval]. rewrite (proj2 (is_a_iff a c) Ha), (proj2 (is_a_iff b c) Hb).
    destruct (av_eq_table a b) as [-> _]; [reflexivity|auto].
  - cbn [match_eval]. rewrite (proj2 (is_a_iff a c) Ha), (proj2 (is_a_iff b c) Hb).
    destruct (av_eq_table a b) as [_ ->]; [reflexivity|auto].
  - rewrite !a_value_iff in Hn. cbn [match_eval]. destruct x as [n1|a|et1 l1|n1 t1]; try reflexivity.
    destruct (av_isinstance a c); [|reflexivity]. destruct y as [n2|b|et2 l2|n2 t2]; try reflexivity.
    destruct (av_isinstance b c); [|reflexivity]. destruct (Hn (conj eq_refl eq_refl)).
  - destruct args as [|x [|y [|z rest]]]; try reflexivity. destruct (Hl eq_refl).
  - apply (bag_ok F c l). intros v Hv. apply is_a_iff, Hl, Hv.
  - apply (bag_bad F c args). exists x. split; [exact Hx|]. intros v ->. apply is_a_no.
    intros H. apply Hn. exists v. auto.
  - destruct Hb as (c' & -> & E). apply (one_and_only_ok F c c' a E).
  - cbn [one_and_only_eval]. destruct x as [n|a|et l|n t]; try reflexivity.
    destruct (opt_eqb class_eqb et (Some c)) eqn:E; [|reflexivity].
    destruct l as [|a [|b l]]; try reflexivity. exfalso. apply (Hn a), a_bag_iff. auto.
  - destruct args as [|x [|y rest]]; try reflexivity. destruct (Hl eq_refl).
  - destruct B1 as (c1 & -> & E1). destruct B2 as (c2 & -> & E2).
    destruct (at_least_one_ok F c c1 c2 l1 l2 E1 E2) as (t & Ht & Hi). cbn [fn_eval] in Ht. rewrite Ht.
    assert (t = true) as -> by (apply Hi; exists a, b; auto). reflexivity.
  - destruct B1 as (c1 & -> & E1). destruct B2 as (c2 & -> & E2).
    destruct (at_least_one_ok F c c1 c2 l1 l2 E1 E2) as (t & Ht & Hi). cbn [fn_eval] in Ht. rewrite Ht.
    destruct t; [|reflexivity]. destruct (proj1 Hi eq_refl) as (v1 & v2 & H1 & H2 & He).
    rewrite (Hn v1 v2 H1 H2) in He. discriminate.
  - cbn [at_least_one_eval]. destruct x as [n1|a|et1 l1|n1 t1]; try reflexivity.
    destruct (opt_eqb class_eqb et1 (Some c)) eqn:E1; [|reflexivity].
    destruct y as [n2|b|et2 l2|n2 t2]; try reflexivity.
    destruct (opt_eqb class_eqb et2 (Some c)) eqn:E2; [|reflexivity].
    exfalso. apply Hn. split; [exists l1|exists l2]; apply a_bag_iff; auto.
  - destruct args as [|x [|y [|z rest]]]; try reflexivity. destruct (Hl eq_refl).
  - cbn [regexp_eval]. rewrite (proj2 (is_a_iff a c) Ha), (proj2 (is_a_iff b c) Hb). unfold regexp_values.
    rewrite Hp, Hc, Hs. reflexivity.
  - cbn [regexp_eval]. rewrite (proj2 (is_a_iff a c) Ha), (proj2 (is_a_iff b c) Hb). unfold regexp_values.
    rewrite Hp, Hc. reflexivity.
  - cbn [regexp_eval]. rewrite (proj2 (is_a_iff a c) Ha), (proj2 (is_a_iff b c) Hb). unfold regexp_values.
    rewrite Hp, Hc. unfold text_of in Hn. destruct (av_value b); try reflexivity. destruct (Hn _ eq_refl).
  - cbn [regexp_eval]. rewrite (proj2 (is_a_iff a c) Ha), (proj2 (is_a_iff b c) Hb). unfold regexp_values.
    unfold text_of in Hn. destruct (av_value a); try reflexivity. destruct (Hn _ eq_refl).
  - rewrite !a_value_iff in Hn. cbn [regexp_eval]. destruct x as [n1|a|et1 l1|n1 t1]; try reflexivity.
    destruct (av_isinstance a c); [|reflexivity]. destruct y as [n2|b|et2 l2|n2 t2]; try reflexivity.
    destruct (av_isinstance b c); [|reflexivity]. destruct (Hn (conj eq_refl eq_refl)).
  - destruct args as [|x [|y [|z rest]]]; try reflexivity. destruct (Hl eq_refl).
  - assert (Hl : forall v, In v l -> is_a v StringAV).
    { clear -Hf. induction Hf as [|v t l ss [Hv _] _ IH]; [intros v []|]. intros w [<-|Hw]; auto. }
    assert (E : map av_value (a :: l) = map NStr (s :: ss)).
    { cbn [map]. f_equal; [exact Hs|]. clear -Hf. induction Hf as [|v t l ss [_ Hv] _ IH]; [reflexivity|].
      cbn [map]. rewrite IH. f_equal. exact Hv. }
    rewrite (concat_outcome c a l Ha Hne Hl), E, join_values_ok. cbn [bind]. rewrite av_new_text, Ht.
    cbn [bind concat_strings]. rewrite concat_strings_concat. reflexivity.
  - rewrite (concat_outcome c a l Ha Hne Hl). destruct (texts_or_not (a :: l)) as [(ss & Hss)|(v & Hv & Hm)].
    + rewrite Hss, join_values_ok. cbn [bind]. rewrite av_new_text. destruct Hn as [Hn|(v & Hv & Hm)].
      * destruct (ac_type c); try reflexivity. congruence.
      * exfalso. assert (Hi : In (av_value v) (map NStr ss)) by (rewrite <- Hss; apply in_map, Hv).
        apply in_map_iff in Hi. destruct Hi as (s & Es & _). apply (Hm s). symmetry. exact Es.
    + rewrite (join_values_bad (a :: l) v Hv Hm). reflexivity.
  - destruct Hn as [Hn|(z & Hz & Hn)].
    + rewrite a_value_iff in Hn. cbn [concat_eval]. destruct x as [n|a|et l|n t]; try reflexivity.
      destruct (av_isinstance a c); [destruct (Hn eq_refl)|reflexivity].
    + change (concat_eval c (x :: y :: rest)) with
        (match x with
         | PAttr a => if av_isinstance a c then
             let* l0 := concat_rest (y :: rest) in
             let* s := join_values (av_value a :: map av_value l0) in
             let* v := av_new c (NStr s) in Ok (PAttr v)
           else Raise EXacmlContextTypeError
         | _ => Raise EXacmlContextTypeError end).
      rewrite (concat_rest_no _ z Hz Hn). destruct x as [n|a|et l|n t]; try reflexivity.
      destruct (av_isinstance a c); reflexivity.
  - destruct args as [|x [|y rest]]; try reflexivity. cbn in Hl. lia.
Qed.
Lemma raised : forall f args e, fn_eval F f args = Raise e -> may_raise F f e.
Proof.
  intros f args e H. pose proof (fn_gives f args) as G. rewrite H in G. clear H.
  inversion G; subst; cbn [may_raise]; auto; try solve [right; eexists; eassumption].
  exists args. congruence.
Qed.
End Table.
