(** Lemmas about function class factories. *)
From Coq Require Import Lia.
From Verif Require Import FunFactory SpecFuncMap SpecFunFactory StringFacts StateFacts FuncMapFacts FuncMapFacts2.

Local Open Scope string_scope.

Lemma capital : forall w n, py_capitalize_first w = Ok n <-> capitalised w n.
Proof.
  intros [|c w] n; split.
  - discriminate.
  - intros (c & r & E & _). discriminate E.
  - cbn. intros H. injection H as <-. exists c, w. auto.
  - intros (c' & r & E & ->). injection E as -> ->. reflexivity.
Qed.

Lemma upper_dash : forall c, Ascii.eqb "-" (ascii_upper c) = Ascii.eqb "-" c.
Proof.
  intros c. apply Bool.eqb_prop.
  apply (check_chars (fun c => Bool.eqb (Ascii.eqb "-" (ascii_upper c)) (Ascii.eqb "-" c))).
  vm_compute. reflexivity.
Qed.

Lemma upper_twice : forall c, ascii_upper (ascii_upper c) = ascii_upper c.
Proof.
  intros c. apply Ascii.eqb_eq.
  apply (check_chars (fun c => Ascii.eqb (ascii_upper (ascii_upper c)) (ascii_upper c))).
  vm_compute. reflexivity.
Qed.

Lemma join_cons : forall x l, py_join "" (x :: l) = x ++ py_join "" l.
Proof. intros x [|y l]; [symmetry; apply app_empty_r|reflexivity]. Qed.

Lemma camel_cons : forall w rest n m, py_capitalize_first w = Ok n -> camel rest = Ok m ->
  camel (w :: rest) = Ok (n ++ m).
Proof.
  intros w rest n m H K. unfold camel in *. cbn [mapM]. rewrite H. cbn [bind].
  destruct (mapM py_capitalize_first rest) as [l|e]; cbn [bind] in *; [|discriminate].
  injection K as <-. rewrite join_cons. reflexivity.
Qed.

Lemma camel_cons_inv : forall w rest x, camel (w :: rest) = Ok x ->
  exists n m, py_capitalize_first w = Ok n /\ camel rest = Ok m /\ x = n ++ m.
Proof.
  intros w rest x H. unfold camel in *. cbn [mapM] in H.
  destruct (py_capitalize_first w) as [n|e]; cbn [bind] in H; [|discriminate].
  destruct (mapM py_capitalize_first rest) as [l|e]; cbn [bind] in H; [|discriminate].
  exists n, (py_join "" l). rewrite <- join_cons. split; [reflexivity|split; [reflexivity|congruence]].
Qed.

(** Splitting at hyphens and writing the parts with capitals. *)
Lemma camel_split : forall s n, camel (py_split "-" s) = Ok n <-> camel_case s n.
Proof.
  intros s. remember (String.length s) as k eqn:Hk.
  assert (Hle : String.length s <= k) by lia. clear Hk. revert s Hle.
  induction k as [|k IH]; intros s Hle n.
  - destruct s; [|simpl in Hle; lia]. cbn. split; [discriminate|].
    intros H. inversion H as [w n9 _ (c & r & E & _) E1|w n9 rest m _ (c & r & E & _) _ E1]; subst; discriminate.
  - destruct (has_char "-" s) eqn:E.
    + apply has_char_split in E. destruct E as (a & b & -> & Ha).
      rewrite split_char_app by exact Ha. rewrite app_length_s in Hle. cbn [String.length] in Hle.
      split.
      * intros H. apply camel_cons_inv in H. destruct H as (n1 & m & H1 & H2 & ->).
        change (String "-" b) with ("-" ++ b). apply camel_words; [exact Ha|apply capital, H1|].
        apply IH; [lia|exact H2].
      * intros H. remember (a ++ String "-" b) as ab eqn:Eab.
        destruct H as [w n1 Hw Hc|w n1 rest m Hw Hc Hr].
        { subst w. rewrite has_char_app in Hw. cbn in Hw. rewrite Bool.orb_true_r in Hw. discriminate. }
        assert (Es : py_split "-" (w ++ String "-" rest) = py_split "-" (a ++ String "-" b))
          by (f_equal; exact Eab).
        rewrite (split_char_app _ _ _ Hw), (split_char_app _ _ _ Ha) in Es.
        injection Es as -> _. apply app_inv_head_s in Eab. injection Eab as ->.
        apply camel_cons; [apply capital, Hc|]. apply IH; [lia|exact Hr].
    + rewrite split_char_none by exact E. split.
      * intros H. apply camel_cons_inv in H. destruct H as (n1 & m & H1 & H2 & ->).
        cbn in H2. injection H2 as <-. rewrite app_empty_r. apply camel_word; [exact E|apply capital, H1].
      * intros H. destruct H as [w n1 Hw Hc|w n1 rest m Hw Hc Hr].
        { apply capital in Hc. rewrite <- (app_empty_r n1). apply camel_cons; [exact Hc|reflexivity]. }
        rewrite has_char_app in E. cbn in E. rewrite Bool.orb_true_r in E. discriminate.
Qed.

(** Writing the first letter with a capital before that changes nothing. *)
Lemma camel_capital : forall s s' n, py_capitalize_first s = Ok s' -> (camel_case s' n <-> camel_case s n).
Proof.
  intros [|c s] s' n H; [discriminate|]. cbn in H. injection H as <-.
  assert (Hd : forall x r, has_char "-" (String (ascii_upper x) r) = has_char "-" (String x r)).
  { intros x r. cbn [has_char]. rewrite upper_dash. reflexivity. }
  split; intros H.
  - remember (String (ascii_upper c) s) as x eqn:Ex.
    destruct H as [w n1 Hw (c1 & r1 & -> & ->)|w n1 rest m Hw (c1 & r1 & -> & ->) Hr].
    + injection Ex as -> ->. rewrite Hd in Hw. apply camel_word; [exact Hw|].
      exists c, s. rewrite upper_twice. auto.
    + cbn [append] in Ex. injection Ex as -> <-.
      apply (camel_words (String c r1) (String (ascii_upper (ascii_upper c)) r1) rest m); [rewrite Hd in Hw; exact Hw| |exact Hr].
      exists c, r1. rewrite upper_twice. auto.
  - remember (String c s) as x eqn:Ex.
    destruct H as [w n1 Hw (c1 & r1 & -> & ->)|w n1 rest m Hw (c1 & r1 & -> & ->) Hr].
    + injection Ex as -> ->. apply camel_word; [rewrite Hd; exact Hw|].
      exists (ascii_upper c), s. rewrite upper_twice. auto.
    + cbn [append] in Ex. injection Ex as -> <-.
      apply (camel_words (String (ascii_upper c) r1) (String (ascii_upper c) r1) rest m); [rewrite Hd; exact Hw| |exact Hr].
      exists (ascii_upper c), r1. rewrite upper_twice. auto.
Qed.

(** The name of the type: as the code computes it. *)
Lemma type_name : forall t n,
  (let* n0 := py_capitalize_first t in
   if has_char "-" n0 then camel (py_split "-" n0) else Ok n0) = Ok n <-> camel_case t n.
Proof.
  intros t n. destruct (py_capitalize_first t) as [n0|e] eqn:E.
  - cbn [bind]. rewrite <- (camel_capital _ _ n E). rewrite <- camel_split.
    destruct (has_char "-" n0) eqn:D; [reflexivity|]. rewrite split_char_none by exact D.
    assert (C : camel [n0] = Ok n0).
    { rewrite <- (app_empty_r n0) at 2. apply camel_cons; [|reflexivity].
      destruct t as [|c t]; [discriminate|]. cbn in E. injection E as <-. cbn. rewrite upper_twice. reflexivity. }
    rewrite C. reflexivity.
  - cbn. split; [discriminate|]. intros H. exfalso.
    destruct t as [|c t]; [|discriminate].
    inversion H as [w n9 _ (c & r & E9 & _) E1|w n9 rest m _ (c & r & E9 & _) _ E1]; subst; discriminate.
Qed.

Lemma camel_case_fun : forall t n n', camel_case t n -> camel_case t n' -> n = n'.
Proof. intros t n n' H K. apply camel_split in H, K. congruence. Qed.

Lemma last_segment_py : forall id name, py_last (py_split ":" id) = Ok name <-> last_segment id name.
Proof.
  intros id name. destruct (last_split ":" "" id) as (n & Hn & Hs & Hno). split.
  - intros H. assert (name = n) by congruence. subst n. split; [apply no_sub_char, Hno|].
    destruct Hs as [->|[a ->]]; [left; reflexivity|right; exists a; reflexivity].
  - intros [Hc [->|[a ->]]].
    + apply last_split_none, Hc.
    + change (":" ++ name) with (String ":" name). rewrite last_split_char. apply last_split_none, Hc.
Qed.

Lemma before_suffix_py : forall x suf name t,
  py_first (py_split (String x suf) name) = Ok t <-> before_suffix (String x suf) name t.
Proof.
  intros x suf name t. destruct (split_first x suf name) as (f & rest & H & Hc). rewrite H. cbn [py_first].
  assert (F : before_suffix (String x suf) name f).
  { destruct Hc as [(-> & -> & Hno)|(u & -> & _ & Hmin)].
    - left. split; [reflexivity|]. intros a b E. exact (Hno a b E).
    - right. split; [exists u; reflexivity|]. intros a b E.
      destruct (Compare_dec.le_lt_dec (String.length f) (String.length a)) as [L|L]; [exact L|exfalso].
      assert (P : exists b', (f ++ String x suf)%string = (a ++ String x suf ++ b')%string).
      { rewrite <- !app_assoc_s in E.
        assert (Q : String.prefix (a ++ String x suf) (f ++ String x suf) = true).
        { assert (G : forall p q u v, p ++ u = q ++ v -> String.length p <= String.length q ->
                        String.prefix p q = true).
          { clear. induction p as [|c p IH]; intros [|d q] u v E L; cbn in *; try reflexivity; try lia.
            injection E as -> E. destruct (Ascii.ascii_dec d d); [|congruence]. apply (IH q u v E). lia. }
          apply (G _ _ b u); [symmetry; exact E|]. rewrite !app_length_s. lia. }
        apply prefix_true_iff in Q. destruct Q as [b' Q]. exists b'. rewrite Q. apply app_assoc_s. }
      destruct P as [b' P]. apply Hmin in P. subst a. lia. }
  split; [intros E; injection E as <-; exact F|]. intros K. f_equal.
  destruct F as [(-> & Hno)|((u & Eu) & Hmin)], K as [(-> & Hno')|((v & Ev) & Hmin')].
  - reflexivity.
  - exfalso. exact (Hno _ _ Ev).
  - exfalso. exact (Hno' _ _ Eu).
  - assert (L : String.length f = String.length t).
    { pose proof (Hmin _ _ Ev). pose proof (Hmin' _ _ Eu). lia. }
    rewrite Eu in Ev. destruct (app_inj_length _ _ _ _ Ev L) as [E _]. exact E.
Qed.

(** ** The type of an identifier *)
Lemma type_uri : forall n uri, dict_get n TYPE_URI_MAP = Some uri <-> exists nt, In (n, (uri, nt)) TYPE_TABLE.
Proof.
  intros n uri. split.
  - intros H. apply FuncMapFacts2.dict_get_in in H. unfold TYPE_URI_MAP in H. apply in_map_iff in H.
    destruct H as ((n' & u' & nt) & E & H). cbn in E. injection E as -> ->. exists nt. exact H.
  - intros [nt H].
    assert (G : forallb (fun p => match dict_get (fst p) TYPE_URI_MAP with
                                  | Some u => String.eqb u (fst (snd p)) | None => false end) TYPE_TABLE = true)
      by (vm_compute; reflexivity).
    rewrite forallb_forall in G. specialize (G _ H). cbn [fst snd] in G.
    destruct (dict_get n TYPE_URI_MAP) as [u|]; [|discriminate]. apply String.eqb_eq in G. subst u. reflexivity.
Qed.

Definition uri_step (n t : string) : res string :=
  match dict_get n TYPE_URI_MAP with
  | Some u => Ok u
  | None =>
      match dict_get t SPECIAL_TYPE_MAP with
      | Some n => match dict_get n TYPE_URI_MAP with
                  | Some u => Ok u
                  | None => Raise EKeyError
                  end
      | None => Raise ETypeError
      end
  end.

Lemma special_cases : forall t n, dict_get t SPECIAL_TYPE_MAP = Some n ->
  (t = "url-string" /\ n = "AnyURI") \/ (t = "xpath-node" /\ n = "String").
Proof.
  intros t n H. apply FuncMapFacts2.dict_get_in in H. cbn in H.
  destruct H as [H|[H|[]]]; injection H as <- <-; auto.
Qed.

Lemma uri_spec : forall t n uri, camel_case t n ->
  (uri_step n t = Ok uri <->
   ((exists nt, In (n, (uri, nt)) TYPE_TABLE) \/
    (t = "url-string" /\ uri = xs "anyURI") \/ (t = "xpath-node" /\ uri = xs "string"))).
Proof.
  intros t n uri C. rewrite <- type_uri. unfold uri_step. split.
  - destruct (dict_get n TYPE_URI_MAP) as [u|] eqn:E; [intros H; injection H as ->; auto|].
    destruct (dict_get t SPECIAL_TYPE_MAP) as [n'|] eqn:E'; [|discriminate].
    intros H. right. apply special_cases in E'.
    destruct E' as [[-> ->]|[-> ->]]; vm_compute in H; injection H as <-; auto.
  - intros [->|[[-> ->]|[-> ->]]]; [reflexivity| |]; apply camel_split in C; vm_compute in C;
      injection C as <-; reflexivity.
Qed.

Lemma uri_step_raises : forall n t e, uri_step n t = Raise e -> e = ETypeError.
Proof.
  intros n t e H. unfold uri_step in H. destruct (dict_get n TYPE_URI_MAP); [discriminate|].
  destruct (dict_get t SPECIAL_TYPE_MAP) as [n'|] eqn:E'; [|congruence].
  apply special_cases in E'. destruct E' as [[-> ->]|[-> ->]]; vm_compute in H; discriminate.
Qed.

Definition name_step (t : string) : res string :=
  let* n0 := py_capitalize_first t in
  if has_char "-" n0 then camel (py_split "-" n0) else Ok n0.

Lemma type_for_steps : forall types x suf id,
  type_for types (String x suf) id =
  let* name := py_last (py_split ":" id) in
  let* t := py_first (py_split (String x suf) name) in
  let* n := name_step t in
  let* uri := uri_step n t in
  match dict_get uri types with Some c => Ok (n, c) | None => Raise ETypeError end.
Proof.
  intros. unfold type_for, name_step, uri_step.
  destruct (py_last (py_split ":" id)) as [name|e]; [|reflexivity]. cbn [bind].
  destruct (py_first (py_split (String x suf) name)) as [t|e]; [|reflexivity]. cbn [bind].
  destruct (py_capitalize_first t) as [n0|e]; [|reflexivity]. cbn [bind].
  destruct (has_char "-" n0); reflexivity.
Qed.

Lemma type_for_spec : forall types suffix id n c, suffix <> "" ->
  (type_for types suffix id = Ok (n, c) <->
   exists uri, names_type suffix id n uri /\ dict_get uri types = Some c).
Proof.
  intros types [|x suf] id n c N; [congruence|]. rewrite type_for_steps. split.
  - destruct (py_last (py_split ":" id)) as [name|e] eqn:E1; cbn [bind]; [|discriminate].
    destruct (py_first (py_split (String x suf) name)) as [t|e] eqn:E2; cbn [bind]; [|discriminate].
    destruct (name_step t) as [n0|e] eqn:E3; cbn [bind]; [|discriminate].
    destruct (uri_step n0 t) as [uri|e] eqn:E4; cbn [bind]; [|discriminate].
    destruct (dict_get uri types) as [c'|] eqn:E5; [|discriminate].
    intros H. injection H as -> ->. apply type_name in E3.
    exists uri. split; [|exact E5]. exists name, t.
    split; [apply last_segment_py, E1|]. split; [apply before_suffix_py, E2|]. split; [exact E3|].
    apply uri_spec; assumption.
  - intros (uri & (name & t & H1 & H2 & H3 & H4) & H5).
    apply last_segment_py in H1. apply before_suffix_py in H2. apply (uri_spec _ _ _ H3) in H4.
    apply type_name in H3. fold (name_step t) in H3.
    rewrite H1. cbn [bind]. rewrite H2. cbn [bind]. rewrite H3. cbn [bind]. rewrite H4. cbn [bind].
    rewrite H5. reflexivity.
Qed.

Lemma mapM_cap_raises : forall l e, mapM py_capitalize_first l = Raise e -> e = EIndexError.
Proof.
  induction l as [|[|x w] l IH]; intros e H; cbn in H; [discriminate|congruence|].
  destruct (mapM py_capitalize_first l) as [l'|e'] eqn:E; cbn in H; [discriminate|].
  injection H as <-. exact (IH _ eq_refl).
Qed.

Lemma name_step_raises : forall t e, name_step t = Raise e -> e = EIndexError.
Proof.
  intros [|x t] e H; unfold name_step in H; cbn [py_capitalize_first bind] in H; [congruence|].
  destruct (has_char "-" _); [|discriminate]. unfold camel in H.
  destruct (mapM py_capitalize_first (py_split "-" (String (ascii_upper x) t))) as [l|e'] eqn:E;
    cbn [bind] in H; [discriminate|]. injection H as <-. exact (mapM_cap_raises _ _ E).
Qed.

Lemma type_for_raises : forall types suffix id e, type_for types suffix id = Raise e ->
  (suffix = "" /\ e = EValueError) \/ (suffix <> "" /\ (e = ETypeError \/ e = EIndexError)).
Proof.
  intros types [|x suf] id e H.
  - left. split; [reflexivity|]. unfold type_for in H.
    destruct (last_split ":" "" id) as (n & Hn & _). rewrite Hn in H. cbn [bind] in H. congruence.
  - right. split; [discriminate|]. rewrite type_for_steps in H.
    destruct (last_split ":" "" id) as (n & Hn & _). rewrite Hn in H. cbn [bind] in H.
    destruct (split_first x suf n) as (f & rest & Hf & _). rewrite Hf in H. cbn [py_first bind] in H.
    destruct (name_step f) as [n0|e0] eqn:E3; cbn [bind] in H;
      [|injection H as <-; right; exact (name_step_raises _ _ E3)].
    destruct (uri_step n0 f) as [u|e0] eqn:E4; cbn [bind] in H;
      [|injection H as <-; left; exact (uri_step_raises _ _ _ E4)].
    destruct (dict_get u types); [discriminate|]. left. congruence.
Qed.

Lemma type_for_empty : forall types id, type_for types "" id = Raise EValueError.
Proof.
  intros. destruct (type_for types "" id) as [[n c]|e] eqn:E.
  - unfold type_for in E. destruct (py_last (py_split ":" id)); discriminate.
  - apply type_for_raises in E. destruct E as [[_ ->]|[N _]]; [reflexivity|congruence].
Qed.

(** It agrees with the function of FuncMap.v. *)
Lemma type_for_function_type : forall types x suf id,
  function_type types (String x suf) id =
  match type_for types (String x suf) id with Ok (_, c) => Ok c | Raise e => Raise e end.
Proof.
  intros. unfold function_type, type_for.
  destruct (py_last (py_split ":" id)) as [name|e]; [|reflexivity]. cbn [bind].
  destruct (py_first (py_split (String x suf) name)) as [t|e]; [|reflexivity]. cbn [bind].
  destruct (py_capitalize_first t) as [n0|e]; [|reflexivity]. cbn [bind].
  destruct (if has_char "-" n0 then camel (py_split "-" n0) else Ok n0) as [n|e]; [|reflexivity]. cbn [bind].
  match goal with |- bind ?a _ = match bind ?b _ with _ => _ end => change b with a; destruct a end;
    cbn [bind]; [|reflexivity].
  destruct (dict_get _ types); reflexivity.
Qed.
