(** Lemmas about pretty printing. *)
From Coq Require Import Lia DecimalString DecimalNat.
From Verif Require Import PrettyPrint SpecText SpecPretty StringFacts TextFacts.
Local Open Scope string_scope.

(** ** Characters *)
Definition stops (f : ascii -> bool) (s : string) : Prop :=
  match s with EmptyString => True | String c _ => f c = false end.

Lemma span_app : forall f a b, all_chars f a = true -> stops f b -> span f (a ++ b) = (a, b).
Proof.
  induction a as [|c a IH]; intros b Ha Hb.
  - cbn [append]. destruct b as [|d b]; [reflexivity|]. cbn [span]. cbn [stops] in Hb. rewrite Hb. reflexivity.
  - cbn [all_chars] in Ha. apply andb_true_iff in Ha. destruct Ha as [Hc Ha].
    cbn [append span]. rewrite Hc, (IH b Ha Hb). reflexivity.
Qed.

Lemma skip_app : forall p s, skip p (p ++ s) = Some s.
Proof. intros p s. unfold skip. rewrite prefix_app, str_drop_app. reflexivity. Qed.
Lemma skip_other : forall c p d s, c <> d -> skip (String c p) (String d s) = None.
Proof.
  intros c p d s H. unfold skip. cbn [String.prefix]. destruct (ascii_dec c d); [contradiction|reflexivity].
Qed.

Lemma skip_other_app : forall c p d q s, c <> d -> skip (String c p) (String d q ++ s) = None.
Proof. intros c p d q s H. apply skip_other, H. Qed.

Lemma all_chars_app : forall f a b, all_chars f (a ++ b) = all_chars f a && all_chars f b.
Proof.
  induction a as [|c a IH]; intros b; cbn [append all_chars]; [reflexivity|]. rewrite IH. apply andb_assoc.
Qed.
Lemma all_chars_impl : forall (f g : ascii -> bool) s, (forall c, f c = true -> g c = true) ->
  all_chars f s = true -> all_chars g s = true.
Proof.
  induction s as [|c s IH]; intros H; cbn [all_chars]; [reflexivity|].
  intros K. apply andb_true_iff in K. destruct K as [K1 K2]. rewrite (H c K1), IH by assumption. reflexivity.
Qed.
Lemma all_chars_no : forall f s c, all_chars f s = true -> f c = false -> has_char c s = false.
Proof.
  induction s as [|d s IH]; intros c H Hc; cbn [has_char all_chars] in *; [reflexivity|].
  apply andb_true_iff in H. destruct H as [H1 H2]. rewrite (IH c H2 Hc), orb_false_r.
  destruct (Ascii.eqb c d) eqn:E; [|reflexivity]. apply Ascii.eqb_eq in E. congruence.
Qed.

(** ** Names and attributes read back *)
Definition xname_ok (n : xname) : Prop :=
  match n with (None, l) => name_ok l | (Some p, l) => name_ok p /\ name_ok l end.

Lemma read_name_app : forall n rest, name_ok n -> stops name_char rest ->
  read_name (n ++ rest) = Some (n, rest).
Proof.
  intros n rest [H1 H2] Hr. unfold read_name. rewrite (span_app name_char n rest H2 Hr).
  destruct (String.eqb n "") eqn:E; [|reflexivity]. apply String.eqb_eq in E. contradiction.
Qed.

Lemma read_xname_app : forall n c rest, xname_ok n -> name_char c = false -> c <> ":"%char ->
  read_xname (xname_text n ++ String c rest) = Some (n, String c rest).
Proof.
  intros [[p|] l] c rest Hn Hc Hcol; unfold read_xname; cbn [xname_text].
  - destruct Hn as [Hp Hl]. rewrite !app_assoc_s. rewrite read_name_app by (exact Hp || reflexivity).
    rewrite skip_app. rewrite read_name_app by (exact Hl || exact Hc). reflexivity.
  - rewrite read_name_app by (exact Hn || exact Hc). rewrite skip_other by congruence. reflexivity.
Qed.

Fixpoint render (raw : list (xname * string)) : string :=
  match raw with
  | [] => ""
  | (n, v) :: rest => " " ++ xname_text n ++ "=" ++ quote ++ v ++ quote ++ render rest
  end.
Definition raw_ok (a : xname * string) : Prop := xname_ok (fst a) /\ all_chars attr_char (snd a) = true.

Lemma render_app : forall a b, render (a ++ b)%list = render a ++ render b.
Proof.
  induction a as [|[n v] a IH]; intros b; [reflexivity|]. cbn [render List.app]. rewrite IH, !app_assoc_s. reflexivity.
Qed.
Lemma render_length : forall raw, length raw <= String.length (render raw).
Proof.
  induction raw as [|[n v] raw IH]; [cbn; lia|]. cbn [render length]. rewrite !app_length_s. cbn [String.length]. lia.
Qed.

Lemma read_attrs_render : forall raw rest fuel, Forall raw_ok raw -> length raw < fuel ->
  read_attrs fuel (render raw ++ ">" ++ rest) = Some (raw, rest).
Proof.
  induction raw as [|[n v] raw IH]; intros rest fuel H Hf; (destruct fuel as [|fuel]; [cbn in Hf; lia|]).
  - cbn [render read_attrs]. change ("" ++ ">" ++ rest) with (">" ++ rest). rewrite skip_app. reflexivity.
  - inversion H as [|x y [Hn Hv] Hr]; subst. cbn [fst snd] in *. cbn [render read_attrs].
    rewrite !app_assoc_s. rewrite (skip_other_app ">"%char "") by discriminate. rewrite skip_app.
    change ("=" ++ ?x) with (String "="%char x) at 1.
    rewrite (read_xname_app n "="%char) by (exact Hn || reflexivity || discriminate).
    change (String "="%char (quote ++ ?x)) with (("=" ++ quote) ++ x). rewrite skip_app.
    rewrite span_app by (exact Hv || reflexivity). rewrite skip_app.
    rewrite IH by (assumption || (cbn in Hf; lia)). reflexivity.
Qed.

(** ** The state of printing *)
Fixpoint pnode_ind' (P : pnode -> Prop)
  (HE : forall tag attrs ns text tail kids, Forall P kids -> P (PElem tag attrs ns text tail kids))
  (HC : forall text tail, P (PComment text tail)) (e : pnode) : P e :=
  match e with
  | PElem tag attrs ns text tail kids =>
      HE tag attrs ns text tail kids
        ((fix go l : Forall P l :=
            match l with [] => Forall_nil P | k :: l' => Forall_cons k (pnode_ind' P HE HC k) (go l') end) kids)
  | PComment text tail => HC text tail
  end.

Definition grows (st st' : pstate) : Prop :=
  forall u p, dict_get u (ps_map st) = Some p -> dict_get u (ps_map st') = Some p.

Lemma get_set_same : forall k (v : string) d, dict_get k (dict_set k v d) = Some v.
Proof.
  induction d as [|[k' v'] d IH]; cbn [dict_set dict_get]; [rewrite String.eqb_refl; reflexivity|].
  destruct (String.eqb k k') eqn:E; cbn [dict_get]; rewrite E; auto.
Qed.
Lemma get_set_other : forall k k' (v : string) d, k <> k' -> dict_get k (dict_set k' v d) = dict_get k d.
Proof.
  induction d as [|[k2 v2] d IH]; intros H; cbn [dict_set dict_get].
  - apply String.eqb_neq in H. rewrite H. reflexivity.
  - destruct (String.eqb k' k2) eqn:E; cbn [dict_get].
    + destruct (String.eqb k k2) eqn:E2; [|reflexivity].
      apply String.eqb_eq in E, E2. congruence.
    + rewrite IH by exact H. reflexivity.
Qed.
Lemma str_in_iff : forall k l, str_in k l = true <-> In k l.
Proof.
  intros k l. unfold str_in. rewrite existsb_exists. split.
  - intros (x & H & E). apply String.eqb_eq in E. congruence.
  - intros H. exists k. split; [exact H|apply String.eqb_refl].
Qed.

(** Every prefix in the map is in use, and the map is usable. *)
Definition sane (st : pstate) : Prop :=
  usable_map (ps_map st) /\ (forall u p, dict_get u (ps_map st) = Some p -> In p (ps_mapped st)).

Lemma ns_name_inj : forall i j, ns_name i = ns_name j -> i = j.
Proof.
  intros i j H. unfold ns_name in H. apply app_inv_head_s in H.
  assert (K := f_equal NilEmpty.uint_of_string H). rewrite !NilEmpty.usu in K. injection K as K.
  apply Unsigned.to_uint_inj, K.
Qed.

Lemma uint_chars : forall d, all_chars name_char (NilEmpty.string_of_uint d) = true.
Proof. induction d; cbn [NilEmpty.string_of_uint all_chars]; auto; rewrite IHd; reflexivity. Qed.
Lemma ns_name_ok : forall i, name_ok (ns_name i) /\ ns_name i <> "xmlns".
Proof.
  intros i. unfold ns_name. split; [split|].
  - discriminate.
  - rewrite all_chars_app, uint_chars. reflexivity.
  - discriminate.
Qed.

Definition steps {A} (x : PP A) : Prop :=
  forall st, (sane st -> sane (snd (x st))) /\ grows st (snd (x st)).

Lemma grows_refl : forall st, grows st st.
Proof. intros st u p H. exact H. Qed.
Lemma grows_trans : forall a b c, grows a b -> grows b c -> grows a c.
Proof. intros a b c H K u p E. apply K, H, E. Qed.

Lemma steps_bind : forall A B (x : PP A) (f : A -> PP B), steps x -> (forall a, steps (f a)) ->
  steps (bind_p x f).
Proof.
  intros A B x f Hx Hf st. unfold bind_p. destruct (Hx st) as [H1 H2].
  destruct (x st) as [[a|e] st1]; cbn [snd] in *; [|split; assumption].
  destruct (Hf a st1) as [H3 H4]. split; [auto|]. eapply grows_trans; eauto.
Qed.
Lemma steps_ret : forall A (a : A), steps (ret_p a).
Proof. intros A a st. split; [auto|apply grows_refl]. Qed.
Lemma steps_raise : forall A e, steps (@raise_p A e).
Proof. intros A e st. split; [auto|apply grows_refl]. Qed.

Lemma alloc_steps : forall ns, steps (alloc_prefix ns).
Proof.
  intros ns st. unfold alloc_prefix.
  destruct (dict_get ns (ps_map st)) as [p|] eqn:E; [split; [auto|apply grows_refl]|].
  destruct (find _ _) as [p|] eqn:F; [|split; [auto|apply grows_refl]]. cbn [snd].
  apply find_some in F. destruct F as [F1 F2]. apply in_map_iff in F1. destruct F1 as (i & <- & _).
  assert (N : ~ In (ns_name i) (ps_mapped st)).
  { intros K. apply str_in_iff in K. rewrite K in F2. discriminate. }
  assert (G : grows st (mkPstate (dict_set ns (ns_name i) (ps_map st)) (ns_name i :: ps_mapped st))).
  { intros u p H. cbn [ps_map]. rewrite get_set_other; [exact H|]. congruence. }
  split; [|exact G]. intros [[Hinj Hok] Hin].
  assert (C : forall u p, dict_get u (dict_set ns (ns_name i) (ps_map st)) = Some p ->
              (u = ns /\ p = ns_name i) \/ (u <> ns /\ dict_get u (ps_map st) = Some p)).
  { intros u p H. destruct (string_dec u ns) as [->|Hne].
    - rewrite get_set_same in H. left. split; congruence.
    - rewrite get_set_other in H by exact Hne. right. auto. }
  split; [split|]; cbn [ps_map ps_mapped].
  - intros u u' p H H'. destruct (C _ _ H) as [[-> ->]|[H1 H2]], (C _ _ H') as [[-> K]|[H3 H4]]; subst; auto.
    + exfalso. apply N. eapply Hin; eauto.
    + exfalso. apply N. eapply Hin; eauto.
    + eapply Hinj; eauto.
  - intros u p H. destruct (C _ _ H) as [[-> ->]|[H1 H2]]; [apply ns_name_ok|eapply Hok; eauto].
  - intros u p H. destruct (C _ _ H) as [[-> ->]|[H1 H2]]; [left; reflexivity|right; eapply Hin; eauto].
Qed.

Lemma prefix_steps : forall lxml ns u, steps (get_prefix lxml ns u).
Proof.
  intros [] ns u; unfold get_prefix; [|apply alloc_steps].
  destruct (find _ ns) as [[[p|] q]|]; [apply steps_ret|apply steps_ret|apply steps_raise].
Qed.

Lemma attrs_steps : forall lxml ns attrs declared, steps (print_attrs lxml ns declared attrs).
Proof.
  induction attrs as [|[a v] attrs IH]; intros declared; cbn [print_attrs]; [apply steps_ret|].
  apply steps_bind.
  - destruct (String.eqb (get_ns a) ""); [apply steps_ret|].
    apply steps_bind; [apply prefix_steps|]. intros p. destruct (str_in (get_ns a) declared); apply steps_ret.
  - intros [[decl name] declared1]. apply steps_bind; [apply IH|]. intros [t d]. apply steps_ret.
Qed.

Lemma elem_steps : forall lxml e indent space declared, steps (print_elem lxml indent space declared e).
Proof.
  intros lxml e. induction e as [tag attrs ns text tail kids IH|text tail] using pnode_ind';
    intros indent space declared; cbn [print_elem]; [|apply steps_raise].
  apply steps_bind; [apply attrs_steps|]. intros [sa d1]. apply steps_bind; [apply prefix_steps|]. intros p.
  assert (K : forall ind sp d indent tag last,
    steps (print_children (print_elem lxml ind sp d) indent tag last kids)).
  { clear -IH. induction IH as [|k kids Hk IH IH2]; intros ind sp d indent tag last;
      cbn [print_children]; [apply steps_ret|].
    apply steps_bind; [apply Hk|]. intros t. apply steps_bind; [apply IH2|]. intros t2. apply steps_ret. }
  destruct kids; [apply steps_ret|]. apply steps_bind; [apply K|]. intros t. apply steps_ret.
Qed.

(** ** Reading back *)
Lemma bind_ok : forall A B (x : PP A) (f : A -> PP B) st b st', bind_p x f st = (Ok b, st') ->
  exists a st1, x st = (Ok a, st1) /\ f a st1 = (Ok b, st').
Proof.
  intros A B x f st b st' H. unfold bind_p in H. destruct (x st) as [[a|e] st1]; [eauto|discriminate].
Qed.

Lemma ret_ok : forall A (a b : A) st st', ret_p a st = (Ok b, st') -> b = a /\ st' = st.
Proof. intros A a b st st' H. injection H; auto. Qed.

Lemma attr_char_newline : forall u, all_chars attr_char u = true -> has_char newline u = false.
Proof. intros u H. apply (all_chars_no attr_char); [exact H|reflexivity]. Qed.
Lemma name_no_brace : forall l, name_ok l -> has_char close_brace l = false.
Proof. intros l [_ H]. apply (all_chars_no name_char); [exact H|reflexivity]. Qed.

Lemma ns_expanded : forall u l, uri_ok u -> name_ok l -> get_ns (expanded u l) = u.
Proof.
  intros u l (_ & H & _) Hl. unfold expanded. apply get_ns_of; [apply attr_char_newline, H|apply name_no_brace, Hl].
Qed.
Lemma local_expanded : forall u l, name_ok l -> get_local_part (expanded u l) = l.
Proof.
  intros u l Hl. unfold get_local_part, expanded.
  change ("{" ++ u ++ "}" ++ l) with (("{" ++ u) ++ String close_brace l).
  rewrite after_app by (apply name_no_brace, Hl). reflexivity.
Qed.
Lemma ns_plain : forall n, name_ok n -> get_ns n = "".
Proof. intros n H. unfold get_ns. rewrite (search_none n (name_no_brace n H)). reflexivity. Qed.

Lemma distinct_iff : forall l, NoDup l -> distinct l = true.
Proof.
  induction 1 as [|x l Hx H IH]; [reflexivity|]. cbn [distinct]. rewrite IH, andb_true_r.
  destruct (str_in x l) eqn:E; [apply str_in_iff in E; contradiction|reflexivity].
Qed.

Lemma white_blank : forall s, white s -> all_blank s.
Proof.
  unfold white. induction s as [|c s IH]; [constructor|]. cbn [all_chars all_blank]. intros H.
  apply andb_true_iff in H. destruct H as [H1 H2]. split; [|apply IH, H2].
  unfold is_space. apply orb_true_iff in H1. destruct H1 as [H1|H1]; [apply orb_true_iff in H1; destruct H1 as [H1|H1]|];
    apply N.eqb_eq in H1; rewrite H1; reflexivity.
Qed.
Lemma white_text : forall s, white s -> all_chars text_char s = true.
Proof.
  intros s. apply all_chars_impl. intros c H.
  assert (K : (N_of_ascii c = 32 \/ N_of_ascii c = 9 \/ N_of_ascii c = 10)%N).
  { apply orb_true_iff in H. destruct H as [H|H]; [apply orb_true_iff in H; destruct H as [H|H]|];
      apply N.eqb_eq in H; auto. }
  rewrite <- (ascii_N_embedding c). destruct K as [-> | [-> | ->]]; reflexivity.
Qed.
Lemma white_app : forall a b, white a -> white b -> white (a ++ b).
Proof. unfold white. intros a b Ha Hb. rewrite all_chars_app, Ha, Hb. reflexivity. Qed.
Lemma blank_app : forall a b, all_blank a -> all_blank b -> all_blank (a ++ b).
Proof. induction a as [|c a IH]; [auto|]. cbn. intros b [H1 H2] Hb. auto. Qed.

Lemma strip_around : forall l s r, all_blank l -> all_blank r -> py_strip (l ++ py_strip s ++ r) = py_strip s.
Proof.
  intros l s r Hl Hr. apply trimmed_strip. destruct (strip_trimmed s) as (a & b & _ & _ & _ & H1 & H2).
  exists l, r. auto.
Qed.
Lemma strip_before : forall l s, all_blank l -> py_strip (l ++ py_strip s) = py_strip s.
Proof. intros l s H. rewrite <- (strip_around l s "" H I) at 2. rewrite app_empty_r. reflexivity. Qed.
Lemma strip_after : forall s r, all_blank r -> py_strip (py_strip s ++ r) = py_strip s.
Proof. intros s r H. apply (strip_around "" s r I H). Qed.
Lemma strip_blank : forall s, all_blank s -> py_strip s = "".
Proof. intros s H. rewrite <- (app_empty_r s). change "" with (py_strip "") at 1. rewrite strip_before by exact H. reflexivity. Qed.
Lemma strip_chars : forall f s, all_chars f s = true -> all_chars f (py_strip s) = true.
Proof.
  intros f s H. destruct (strip_trimmed s) as (a & b & E & _). rewrite E in H at 1.
  rewrite !all_chars_app in H. apply andb_true_iff in H. destruct H as [_ H]. apply andb_true_iff in H. apply H.
Qed.
Lemma estrip_text : forall t, text_ok t -> all_chars text_char (estrip t) = true.
Proof. intros [s|] H; [apply strip_chars, H|reflexivity]. Qed.
Lemma estrip_opt : forall t, estrip (text_opt t) = py_strip t.
Proof. intros t. unfold text_opt. destruct (String.eqb t "") eqn:E; [apply String.eqb_eq in E; subst; reflexivity|reflexivity]. Qed.
Lemma estrip_before : forall l t, all_blank l -> py_strip (l ++ estrip t) = estrip t.
Proof. intros l [s|] H; [apply strip_before, H|cbn [estrip]; rewrite app_empty_r; apply strip_blank, H]. Qed.
Lemma estrip_after : forall t r, all_blank r -> py_strip (estrip t ++ r) = estrip t.
Proof. intros [s|] r H; [apply strip_after, H|apply strip_blank, H]. Qed.

Lemma same_text_iff : forall t t', same_text t t' <-> estrip t = estrip t'.
Proof.
  assert (E : forall t, estrip t = py_strip (chars t)) by (intros [s|]; reflexivity).
  intros t t'. rewrite !E. split.
  - intros (s & H & H'). apply trimmed_strip in H, H'. congruence.
  - intros H. exists (py_strip (chars t)). split; [apply strip_trimmed|]. rewrite H. apply strip_trimmed.
Qed.
Lemma blank_estrip : forall t, all_blank (chars t) -> estrip t = "".
Proof. intros [s|] H; [apply strip_blank, H|reflexivity]. Qed.

Lemma alike_set_tail : forall e e' t, alike e e' -> alike e (set_tail e' t).
Proof. intros e e' t H. inversion H; subst. constructor; assumption. Qed.
Lemma tail_set_tail : forall e t, p_tail (set_tail e t) = text_opt t.
Proof. intros [] t; reflexivity. Qed.

Section Faithful.
  Variable lxml : bool.
  Variable pfx : string -> option string.
  Hypothesis pfx_inj : forall u u' p, pfx u = Some p -> pfx u' = Some p -> u = u'.
  Hypothesis pfx_ok : forall u p, pfx u = Some p -> name_ok p /\ p <> "xmlns".

  Definition mode (st : pstate) (ns : list (option string * string)) : Prop :=
    if lxml then
      forall u p q, find (fun e => String.eqb (snd e) u) ns = Some (p, q) ->
        pfx u = Some (match p with Some p => p | None => "None" end)
    else forall u p, dict_get u (ps_map st) = Some p -> pfx u = Some p.

  Lemma mode_before : forall st st' ns, grows st st' -> mode st' ns -> mode st ns.
  Proof. intros st st' ns H. unfold mode. destruct lxml; [auto|]. intros K u p E. apply K, H, E. Qed.

  Lemma prefix_known : forall ns u st p st', get_prefix lxml ns u st = (Ok p, st') -> mode st' ns ->
    pfx u = Some p.
  Proof.
    intros ns u st p st' H Hm. unfold get_prefix, mode in *. destruct lxml.
    - destruct (find _ ns) as [[[q|] r]|] eqn:E; cbn in H; [| |discriminate];
        injection H as <- _; exact (Hm _ _ _ E).
    - unfold alloc_prefix in H. destruct (dict_get u (ps_map st)) as [q|] eqn:E.
      + injection H as <- <-. apply Hm, E.
      + destruct (find _ _) as [q|]; [|discriminate]. injection H as <- <-. apply Hm. cbn [ps_map].
        apply get_set_same.
  Qed.

  Definition agree (scope : list (string * string)) (declared : list string) : Prop :=
    forall u, In u declared -> exists p, pfx u = Some p /\ dict_get p scope = Some u.

  Definition pf (u : string) : string := match pfx u with Some p => p | None => "" end.
  Definition decls_of (new : list string) : list (string * string) := map (fun u => (pf u, u)) new.

  Lemma agree_extend : forall scope declared new d',
    agree scope declared -> NoDup new -> (forall u, In u new -> ~ In u declared /\ pfx u <> None) ->
    (forall u, In u d' -> In u declared \/ In u new) ->
    agree (decls_of new ++ scope)%list d'.
  Proof.
    intros scope declared new d' Ha Hn Hd Hd' u Hu.
    assert (L : forall new' sc p, pfx u = Some p -> (forall v, In v new' -> pfx v <> None) ->
      (~ In u new' -> dict_get p (decls_of new' ++ sc)%list = dict_get p sc) /\
      (In u new' -> dict_get p (decls_of new' ++ sc)%list = Some u)).
    { clear -pfx_inj. induction new' as [|v new' IH]; intros sc p Hp Hv; [split; [reflexivity|intros []]|].
      destruct (IH sc p Hp (fun w Hw => Hv w (or_intror Hw))) as [I1 I2].
      assert (Hvn := Hv v (or_introl eq_refl)).
      unfold decls_of. cbn [map List.app dict_get]. fold (decls_of new').
      unfold pf. destruct (pfx v) as [q|] eqn:Eq; [|congruence]. destruct (String.eqb p q) eqn:E.
      - apply String.eqb_eq in E. subst q. assert (v = u) by (eapply pfx_inj; eauto). subst v. split.
        + intros K. exfalso. apply K. left; reflexivity.
        + reflexivity.
      - split.
        + intros K. apply I1. intros K'. apply K. right; exact K'.
        + intros [->|K]; [|apply I2, K]. rewrite Hp in Eq. injection Eq as ->.
          rewrite String.eqb_refl in E. discriminate. }
    destruct (in_dec string_dec u new) as [Hin|Hout].
    - destruct (Hd u Hin) as [_ Hp]. destruct (pfx u) as [p|] eqn:E; [|congruence].
      exists p. split; [reflexivity|]. apply (L new scope p eq_refl); [|exact Hin].
      intros v Hv. apply Hd, Hv.
    - destruct (Hd' u Hu) as [Hold|Hnew]; [|contradiction].
      destruct (Ha u Hold) as (p & Hp & Hg). exists p. split; [exact Hp|].
      destruct (L new scope p Hp) as [L1 _]; [intros v Hv; apply Hd, Hv|]. rewrite L1; assumption.
  Qed.

  Lemma attrs_back : forall ns attrs declared st text declared' st',
    print_attrs lxml ns declared attrs st = (Ok (text, declared'), st') -> mode st' ns ->
    Forall attr_ok attrs ->
    exists raw new, text = render raw /\ declared' = (declared ++ new)%list /\ Forall raw_ok raw /\
      NoDup new /\ (forall u, In u new -> ~ In u declared /\ uri_ok u /\ pfx u <> None) /\
      declarations raw = decls_of new /\
      (forall scope, agree scope declared' -> resolve_all scope (others raw) = Some attrs).
  Proof.
    induction attrs as [|[a v] attrs IH]; intros declared st text declared' st' H Hm Hok; cbn [print_attrs] in H.
    - injection H as <- <- <-. exists [], []. rewrite app_nil_r.
      split; [reflexivity|]. split; [reflexivity|]. split; [constructor|]. split; [constructor|].
      split; [intros u []|]. split; reflexivity.
    - apply bind_ok in H. destruct H as ([[decl name] declared1] & st1 & H1 & H).
      apply bind_ok in H. destruct H as ([text2 declared2] & st2 & H2 & H). injection H as <- <- <-.
      inversion Hok as [|x y [Hn Hv] Hok']; subst. cbn [fst snd] in Hn, Hv.
      destruct (IH _ _ _ _ _ H2 Hm Hok') as (raw & new & -> & -> & Hr & Hnd & Hnew & Hdecl & Hres).
      assert (G := proj2 (attrs_steps lxml ns attrs declared1 st1)). rewrite H2 in G. cbn [snd] in G.
      assert (Hm1 := mode_before _ _ ns G Hm).
      destruct Hn as [[Hn Hx]|(u & l & -> & Hu & Hl)].
      + rewrite (ns_plain a Hn) in H1. cbn in H1. injection H1 as <- <- <- <-.
        exists (((None, a), v) :: raw), new. cbn [render xname_text declarations others].
        split; [reflexivity|]. split; [reflexivity|]. split; [constructor; [split; assumption|exact Hr]|].
        split; [exact Hnd|]. split; [exact Hnew|]. split; [exact Hdecl|].
        intros scope Hs. cbn [resolve_all resolve]. apply String.eqb_neq in Hx. rewrite Hx, (Hres scope Hs).
        reflexivity.
      + rewrite (ns_expanded u l Hu Hl) in H1.
        destruct (String.eqb u "") eqn:E0; [apply String.eqb_eq in E0; destruct Hu; contradiction|].
        apply bind_ok in H1. destruct H1 as (p & st3 & H3 & H1).
        rewrite (local_expanded u l Hl) in H1.
        assert (Hp : pfx u = Some p).
        { apply (prefix_known _ _ _ _ _ H3). destruct (str_in u declared); injection H1; intros; subst; exact Hm1. }
        destruct (pfx_ok _ _ Hp) as [Hpn Hpx]. assert (Hpx' := Hpx). apply String.eqb_neq in Hpx'.
        assert (R : forall scope d, agree scope (d ++ new)%list -> In u (d ++ new)%list ->
                    resolve scope (Some p, l) = Some (expanded u l)).
        { intros scope d Hs Hin. destruct (Hs u Hin) as (q & Hq & Hg). cbn [resolve].
          replace p with q by congruence. rewrite Hg. reflexivity. }
        destruct (str_in u declared) eqn:Ed.
        * apply str_in_iff in Ed. injection H1 as <- <- <- <-.
          exists (((Some p, l), v) :: raw), new. cbn [render xname_text declarations others]. rewrite Hpx'.
          split; [rewrite !app_assoc_s; reflexivity|]. split; [reflexivity|].
          split; [constructor; [repeat split; try apply Hpn; try apply Hl; exact Hv|exact Hr]|].
          split; [exact Hnd|]. split; [exact Hnew|]. split; [exact Hdecl|].
          intros scope Hs. cbn [resolve_all].
          rewrite (R scope declared Hs) by (apply in_app_iff; left; exact Ed). rewrite (Hres scope Hs). reflexivity.
        * assert (Ed' : ~ In u declared) by (intros K; apply str_in_iff in K; congruence).
          injection H1 as <- <- <- <-.
          exists (((Some "xmlns", p), u) :: ((Some p, l), v) :: raw), (u :: new).
          cbn [render xname_text declarations others]. rewrite Hpx'. cbn [String.eqb Ascii.eqb Bool.eqb].
          split. { unfold declaration. rewrite !app_assoc_s. reflexivity. }
          split. { rewrite <- app_assoc. reflexivity. }
          split.
          { constructor; [|constructor; [|exact Hr]].
            - split; [split; [split; [discriminate|reflexivity]|exact Hpn]|apply Hu].
            - split; [split; assumption|exact Hv]. }
          split.
          { constructor; [|exact Hnd]. intros K. destruct (Hnew u K) as [K1 _]. apply K1.
            apply in_app_iff; right; left; reflexivity. }
          split.
          { intros w [<-|Hw]; [split; [exact Ed'|split; [exact Hu|congruence]]|].
            destruct (Hnew w Hw) as (K1 & K2 & K3). split; [|split; assumption].
            intros K. apply K1, in_app_iff. left; exact K. }
          split. { unfold decls_of. cbn [map]. unfold pf at 1. rewrite Hp, Hdecl. reflexivity. }
          intros scope Hs. cbn [resolve_all].
          rewrite (R scope (declared ++ [u])%list Hs)
            by (apply in_app_iff; left; apply in_app_iff; right; left; reflexivity).
          rewrite (Hres scope Hs). reflexivity.
  Qed.

  Inductive modes (st : pstate) : pnode -> Prop :=
  | ModesElem : forall tag attrs ns text tail kids, mode st ns -> (forall k, In k kids -> modes st k) ->
      modes st (PElem tag attrs ns text tail kids)
  | ModesComment : forall text tail, modes st (PComment text tail).
  Lemma modes_before : forall st st' e, grows st st' -> modes st' e -> modes st e.
  Proof.
    intros st st' e G. induction e as [tag attrs ns text tail kids IH|] using pnode_ind'; intros H; [|constructor].
    inversion H as [? ? ? ? ? ? H1 H2|]; subst. constructor; [exact (mode_before _ _ _ G H1)|].
    rewrite Forall_forall in IH. auto.
  Qed.

  (** [out] is [indent] and then the text of an element like [e]. *)
  Definition backs (scope : list (string * string)) (indent : string) (e : pnode) (out : string) : Prop :=
    exists c tl e', out = (indent ++ "<" ++ String c tl)%string /\ name_char c = true /\ alike e e' /\
      forall fuel rest, String.length tl < fuel ->
        read_elem fuel scope ("<" ++ String c tl ++ rest) = Some (e', rest).

  Lemma lf_white : white lf.
  Proof. reflexivity. Qed.

  Lemma children_back : forall pr ind indk tag scope kids,
    (forall k, steps (pr k)) -> white ind -> white indk ->
    (forall k, In k kids -> text_ok (p_tail k) /\
       forall st out st', pr k st = (Ok out, st') -> modes st' k -> backs scope indk k out) ->
    (forall a k k' b, kids = (a ++ k :: k' :: b)%list -> all_blank (chars (p_tail k))) ->
    forall last st body st', print_children pr ind tag last kids st = (Ok body, st') ->
    (forall k, In k kids -> modes st' k) -> text_ok last ->
    exists items text' kids', body = (items ++ "</" ++ tag ++ ">")%string /\
      (kids = [] -> py_strip text' = estrip last) /\ (kids <> [] -> all_blank text') /\
      Forall2 (fun k k' => alike k k' /\ same_text (p_tail k) (p_tail k')) kids kids' /\
      forall pre fuel rest, all_chars text_char pre = true -> String.length items < fuel ->
        read_items fuel scope (pre ++ items ++ "</" ++ rest) = Some ((pre ++ text')%string, kids', ("</" ++ rest)%string).
  Proof.
    intros pr ind indk tag scope kids Hs Hi Hik. induction kids as [|k kids IH]; intros Hk Hmix last st body st' H Hm Hl.
    - cbn [print_children] in H. injection H as <- <-.
      exists (lf ++ ind ++ estrip last)%string, (lf ++ ind ++ estrip last)%string, [].
      split; [rewrite !app_assoc_s; reflexivity|].
      assert (B : all_blank (lf ++ ind)) by (apply blank_app; apply white_blank; [apply lf_white|exact Hi]).
      split. { intros _. rewrite <- app_assoc_s. apply estrip_before, B. }
      split; [congruence|]. split; [constructor|].
      intros pre fuel rest Hpre Hf. destruct fuel as [|fuel]; [lia|]. cbn [read_items].
      rewrite <- app_assoc_s. rewrite span_app.
      + rewrite skip_app. reflexivity.
      + rewrite !all_chars_app, Hpre, (white_text _ lf_white), (white_text _ Hi), (estrip_text _ Hl). reflexivity.
      + reflexivity.
    - cbn [print_children] in H. apply bind_ok in H. destruct H as (t & st1 & H1 & H).
      apply bind_ok in H. destruct H as (u & st2 & H2 & H). injection H as <- <-.
      change (print_children pr ind tag (p_tail k) kids st1 = (Ok u, st2)) in H2.
      assert (G : grows st1 st2).
      { assert (K : steps (print_children pr ind tag (p_tail k) kids)).
        { clear -Hs. generalize (p_tail k). induction kids as [|x kids IH]; intros last; cbn [print_children].
          - apply steps_ret.
          - apply steps_bind; [apply Hs|intros a]. apply steps_bind; [apply IH|intros b; apply steps_ret]. }
        destruct (K st1) as [_ K2]. rewrite H2 in K2. exact K2. }
      destruct (Hk k (or_introl eq_refl)) as [Hkt Hkb].
      destruct (Hkb _ _ _ H1 (modes_before _ _ _ G (Hm k (or_introl eq_refl)))) as (c & tl & e' & -> & Hc & Ha & Hr).
      destruct (IH (fun x Hx => Hk x (or_intror Hx))
                  (fun a x y b E => Hmix (k :: a) x y b (f_equal (cons k) E))
                  _ _ _ _ H2 (fun x Hx => Hm x (or_intror Hx)) Hkt)
        as (items & text' & kids' & -> & T1 & T2 & F & R).
      exists (lf ++ indk ++ "<" ++ String c tl ++ items)%string, (lf ++ indk)%string, (set_tail e' text' :: kids').
      split; [rewrite !app_assoc_s; reflexivity|]. split; [congruence|].
      split. { intros _. apply blank_app; apply white_blank; [apply lf_white|exact Hik]. }
      split.
      { constructor; [|exact F]. split; [apply alike_set_tail, Ha|]. apply same_text_iff. rewrite tail_set_tail, estrip_opt.
        destruct kids as [|k2 kids]; [symmetry; apply T1; reflexivity|].
        rewrite (blank_estrip _ (Hmix [] k k2 kids eq_refl)). symmetry. apply strip_blank, T2. discriminate. }
      intros pre fuel rest Hpre Hf. destruct fuel as [|fuel]; [lia|]. cbn [read_items].
      rewrite !app_assoc_s. rewrite <- (app_assoc_s pre), <- (app_assoc_s (pre ++ lf)).
      rewrite span_app;
        [|rewrite !all_chars_app, Hpre, (white_text _ lf_white), (white_text _ Hik); reflexivity|reflexivity].
      assert (S0 : forall x, skip "</" ("<" ++ String c tl ++ x) = None).
      { intros x. unfold skip. cbn [String.append String.prefix].
        destruct (ascii_dec "<" "<"); [|congruence]. destruct (ascii_dec "/" c) as [<-|]; [discriminate Hc|reflexivity]. }
      rewrite S0. rewrite !app_length_s in Hf. cbn [String.length] in Hf.
      rewrite Hr by lia.
      change (items ++ "</" ++ rest)%string with ("" ++ items ++ "</" ++ rest)%string.
      rewrite (R "" fuel rest eq_refl) by lia. rewrite !app_assoc_s. reflexivity.
  Qed.

  Lemma render_head : forall raw r, exists c s, (render raw ++ ">" ++ r)%string = String c s /\
    name_char c = false /\ c <> ":"%char.
  Proof.
    intros [|[n v] raw] r; cbn [render]; [exists ">"%char, r|exists " "%char; eexists];
      (split; [reflexivity|split; [reflexivity|discriminate]]).
  Qed.

  Lemma elem_back : forall e indent space declared st out st' scope,
    print_elem lxml indent space declared e st = (Ok out, st') -> modes st' e -> printable e ->
    white indent -> white space -> agree scope declared ->
    backs scope indent e out.
  Proof.
    induction e as [tag attrs ns text tail kids IH|text tail] using pnode_ind';
      intros indent space declared st out st' scope H Hm Hp Hi Hsp Hag; [|discriminate H].
    inversion Hp as [u l attrs0 ns0 text0 tail0 kids0 Hu Hl Hat Hnd Htx Hkids Hmix]; subst.
    inversion Hm as [? ? ? ? ? ? Hm1 Hm2|]; subst.
    cbn [print_elem] in H. rewrite (ns_expanded u l Hu Hl), (local_expanded u l Hl) in H.
    apply bind_ok in H. destruct H as ([strA declared1] & st1 & H1 & H).
    apply bind_ok in H. destruct H as (p & st2 & H2 & H).
    set (known := str_in u declared1) in *.
    set (declared2 := if known then declared1 else (declared1 ++ [u])%list) in *.
    set (indk := (indent ++ space)%string) in *.
    assert (Hik : white indk) by (apply white_app; assumption).
    assert (G2 : grows st2 st').
    { destruct kids as [|k kids]; [injection H as _ <-; apply grows_refl|].
      apply bind_ok in H. destruct H as (body & st3 & H3 & H). injection H as _ <-.
      assert (K : forall ks last, steps (print_children (print_elem lxml indk SPACE declared2) indent (p ++ ":" ++ l) last ks)).
      { induction ks as [|x ks IHk]; intros last; cbn [print_children]; [apply steps_ret|].
        apply steps_bind; [apply elem_steps|intros a]. apply steps_bind; [apply IHk|intros b; apply steps_ret]. }
      destruct (K (k :: kids) None st2) as [_ K2]. rewrite H3 in K2. exact K2. }
    assert (Hmode2 := mode_before _ _ _ G2 Hm1).
    assert (G1 : grows st1 st2). { destruct (prefix_steps lxml ns u st1) as [_ K]. rewrite H2 in K. exact K. }
    assert (Hpx := prefix_known _ _ _ _ _ H2 Hmode2).
    destruct (pfx_ok _ _ Hpx) as [Hpn Hpx1].
    destruct (attrs_back _ _ _ _ _ _ _ H1 (mode_before _ _ _ G1 Hmode2) Hat)
      as (raw & new & -> & Ed & Hraw & Hnew & Hfresh & Hdecl & Hres).
    (* all declarations of the element *)
    set (raw2 := if known then raw else (((Some "xmlns", p), u) :: raw)).
    set (new2 := if known then new else (u :: new)).
    assert (Er : ((if known then "" else declaration p u) ++ render raw)%string = render raw2).
    { unfold raw2. destruct known; [reflexivity|]. cbn [render xname_text]. unfold declaration.
      rewrite !app_assoc_s. reflexivity. }
    assert (Hraw2 : Forall raw_ok raw2).
    { unfold raw2. destruct known; [exact Hraw|]. constructor; [|exact Hraw].
      split; [split; [split; [discriminate|reflexivity]|exact Hpn]|apply Hu]. }
    assert (Hk : known = false -> ~ In u declared1) by (intros K1 K2; apply str_in_iff in K2; unfold known in K1; congruence).
    assert (Hnew2 : NoDup new2).
    { unfold new2. destruct known eqn:E; [exact Hnew|]. constructor; [|exact Hnew].
      intros K. apply (Hk eq_refl). rewrite Ed. apply in_app_iff. right; exact K. }
    assert (Hfresh2 : forall w, In w new2 -> ~ In w declared /\ pfx w <> None).
    { unfold new2. intros w Hw. destruct known eqn:E; [split; apply Hfresh, Hw|].
      destruct Hw as [<-|Hw]; [|split; apply Hfresh, Hw]. split; [|congruence].
      intros K. apply (Hk eq_refl). rewrite Ed. apply in_app_iff. left; exact K. }
    assert (Huri2 : forall w, In w new2 -> w <> "").
    { unfold new2. intros w Hw. destruct known; [apply (Hfresh w Hw)|].
      destruct Hw as [<-|Hw]; [apply Hu|apply (Hfresh w Hw)]. }
    assert (Hdecl2 : declarations raw2 = decls_of new2).
    { unfold raw2, new2. destruct known; [exact Hdecl|]. cbn [declarations String.eqb Ascii.eqb Bool.eqb].
      unfold decls_of. cbn [map]. unfold pf at 1. rewrite Hpx, Hdecl. reflexivity. }
    assert (Hoth : others raw2 = others raw) by (unfold raw2; destruct known; reflexivity).
    assert (Hag2 : agree (decls_of new2 ++ scope)%list declared2).
    { apply (agree_extend scope declared new2 declared2 Hag Hnew2 Hfresh2).
      intros w Hw. unfold declared2, new2 in *. destruct known.
      - rewrite Ed in Hw. apply in_app_iff, Hw.
      - apply in_app_iff in Hw. destruct Hw as [Hw|[<-|[]]]; [|right; left; reflexivity].
        rewrite Ed in Hw. apply in_app_iff in Hw. destruct Hw; [left|right; right]; assumption. }
    assert (Hag1 : agree (decls_of new2 ++ scope)%list declared1).
    { intros w Hw. apply Hag2. unfold declared2. destruct known; [exact Hw|apply in_app_iff; left; exact Hw]. }
    assert (Hin2 : In u declared2).
    { unfold declared2. destruct known eqn:E; [apply str_in_iff; exact E|apply in_app_iff; right; left; reflexivity]. }
    (* content *)
    assert (C : exists items text' kids', out = (indent ++ "<" ++ (p ++ ":" ++ l) ++ render raw2 ++ ">" ++ estrip text ++ items ++ "</" ++ (p ++ ":" ++ l) ++ ">")%string /\
      py_strip text' = estrip text /\
      Forall2 (fun k k' => alike k k' /\ same_text (p_tail k) (p_tail k')) kids kids' /\
      forall fuel rest, String.length items < fuel ->
        read_items fuel (decls_of new2 ++ scope)%list (estrip text ++ items ++ "</" ++ rest) = Some (text', kids', ("</" ++ rest)%string)).
    { destruct kids as [|k kids].
      - apply ret_ok in H. destruct H as [-> ->]. exists "", (estrip text), [].
        split; [rewrite <- Er, !app_assoc_s; reflexivity|].
        split; [rewrite <- (app_empty_r (estrip text)) at 1; apply estrip_after; constructor|]. split; [constructor|].
        intros fuel rest Hf. destruct fuel as [|fuel]; [lia|]. cbn [read_items].
        change ("" ++ "</" ++ rest)%string with ("</" ++ rest)%string.
        rewrite span_app by (apply estrip_text, Htx || reflexivity). rewrite skip_app. reflexivity.
      - apply bind_ok in H. destruct H as (body & st3 & H3 & H). apply ret_ok in H. destruct H as [-> ->].
        destruct (children_back (print_elem lxml indk SPACE declared2) indent indk (p ++ ":" ++ l)
                    (decls_of new2 ++ scope)%list (k :: kids)) with (last := @None string) (st := st2) (body := body) (st' := st3)
          as (items & text' & kids' & -> & _ & T2 & F & R); auto.
        + intros x. apply elem_steps.
        + intros x Hx. split; [apply (Hkids x Hx)|]. intros sa o sb Hpr Hmx.
          rewrite Forall_forall in IH.
          apply (IH x Hx indk SPACE declared2 sa o sb _ Hpr Hmx); [apply (Hkids x Hx)|exact Hik|reflexivity|exact Hag2].
        + exact I.
        + exists items, (estrip text ++ text')%string, kids'.
          split; [rewrite <- Er, !app_assoc_s; reflexivity|].
          split; [apply estrip_after, T2; discriminate|]. split; [exact F|].
          intros fuel rest Hf. apply R; [apply estrip_text, Htx|exact Hf]. }
    destruct C as (items & text' & kids' & -> & Hte & HF & HR).
    destruct p as [|c p']; [destruct Hpn as [K _]; congruence|].
    exists c, (p' ++ ":" ++ l ++ render raw2 ++ ">" ++ estrip text ++ items ++ "</" ++ (String c p' ++ ":" ++ l) ++ ">")%string,
      (PElem (expanded u l) attrs [] (text_opt text') None kids').
    split. { rewrite !app_assoc_s. reflexivity. }
    split. { destruct Hpn as [_ K]. cbn [all_chars] in K. apply andb_true_iff in K. apply K. }
    split. { constructor; [apply same_text_iff; rewrite estrip_opt; symmetry; exact Hte|exact HF]. }
    intros fuel rest Hf. destruct fuel as [|fuel]; [lia|]. cbn [read_elem]. rewrite skip_app.
    set (more := (estrip text ++ items ++ "</" ++ (xname_text (Some (String c p'), l) ++ ">") ++ rest)%string).
    assert (Eb : (String c (p' ++ ":" ++ l ++ render raw2 ++ ">" ++ estrip text ++ items ++ "</" ++ (String c p' ++ ":" ++ l) ++ ">") ++ rest)%string
      = (xname_text (Some (String c p'), l) ++ render raw2 ++ ">" ++ more)%string).
    { unfold more; cbn [xname_text].
      change (String c ?x) with (String c "" ++ x)%string. rewrite !app_assoc_s. reflexivity. }
    rewrite Eb.
    destruct (render_head raw2 more) as (c0 & s0 & E0 & Hc0 & Hc1). rewrite E0.
    rewrite (read_xname_app (Some (String c p'), l) c0 s0) by (try split; assumption). rewrite <- E0.
    rewrite read_attrs_render;
      [|exact Hraw2|rewrite app_length_s; pose proof (render_length raw2); lia].
    cbv zeta. rewrite Hdecl2, Hoth.
    assert (D1 : distinct (map fst (decls_of new2)) = true).
    { apply distinct_iff. unfold decls_of. rewrite map_map. cbn [fst].
      clear -Hnew2 Hfresh2 pfx_inj. induction new2 as [|w new2 IHn]; [constructor|]. cbn [map].
      inversion Hnew2 as [|? ? Hw Hn]; subst. constructor; [|apply IHn; [exact Hn|intros v Hv; apply Hfresh2; right; exact Hv]].
      intros K. apply in_map_iff in K. destruct K as (v & Ev & Hv).
      destruct (Hfresh2 w (or_introl eq_refl)) as [_ K1]. destruct (Hfresh2 v (or_intror Hv)) as [_ K2].
      unfold pf in Ev. destruct (pfx w) as [a|] eqn:Ea; [|congruence]. destruct (pfx v) as [b|] eqn:Eb; [|congruence].
      subst b. assert (v = w) by (eapply pfx_inj; eauto). subst v. contradiction. }
    assert (D2 : forallb (fun d => negb (String.eqb (snd d) "")) (decls_of new2) = true).
    { apply forallb_forall. intros d Hd. unfold decls_of in Hd. apply in_map_iff in Hd.
      destruct Hd as (w & <- & Hw). cbn [snd]. apply negb_true_iff, String.eqb_neq, Huri2, Hw. }
    rewrite D1, D2. cbn [andb].
    destruct (Hag2 u Hin2) as (q & Hq & Hg). assert (q = String c p') by congruence. subst q.
    cbn [resolve]. rewrite Hg. rewrite (Hres _ Hag1).
    rewrite (distinct_iff _ Hnd). unfold more. rewrite HR.
    - match goal with |- context [skip ?a ?b] => replace b with (a ++ rest)%string by (rewrite !app_assoc_s; reflexivity) end.
      rewrite skip_app. reflexivity.
    - rewrite !app_length_s in Hf. cbn [String.length] in Hf. lia.
  Qed.
End Faithful.

Lemma body_read : forall indent e out, white indent -> backs [] indent e out ->
  exists e', xml_read out = Some e' /\ alike e e'.
Proof.
  intros indent e out Hi (c & tl & e' & -> & Hc & Ha & Hr). exists e'. split; [|exact Ha].
  unfold xml_read. rewrite lstrip_blank by (apply white_blank, Hi).
  change (lstrip ("<" ++ String c tl)) with ("<" ++ String c tl)%string.
  specialize (Hr (S (String.length (indent ++ "<" ++ String c tl))) ""). rewrite app_empty_r in Hr.
  rewrite Hr; [reflexivity|]. rewrite !app_length_s. cbn [String.length]. lia.
Qed.

Lemma modes_etree : forall pfx st e, (forall u p, dict_get u (ps_map st) = Some p -> pfx u = Some p) ->
  modes false pfx st e.
Proof.
  intros pfx st e H. induction e as [tag attrs ns text tail kids IH|] using pnode_ind'; [|constructor].
  constructor; [exact H|]. rewrite Forall_forall in IH. exact IH.
Qed.

Lemma get_snd : forall (m : list (string * string)) u p, dict_get u m = Some p -> In p (map snd m).
Proof.
  induction m as [|[u' p'] m IH]; intros u p H; [discriminate|]. cbn [dict_get] in H. cbn [map snd].
  destruct (String.eqb u u'); [left; congruence|right; eapply IH; eauto].
Qed.

Lemma pretty_ok : forall lxml ns_map indent space e text m,
  pretty_print lxml ns_map indent space e = (Ok text, m) ->
  m = ns_map /\ exists st', print_elem lxml indent space [] e
    (mkPstate ns_map (if lxml then [] else map snd ns_map)) = (Ok text, st').
Proof.
  intros lxml ns_map indent space e text m H. unfold pretty_print in H.
  destruct (print_elem _ _ _ _ _ _) as [[t|x] st]; [|discriminate]. injection H as -> <-. eauto.
Qed.

Lemma pretty_back_etree : forall ns_map indent space e text m,
  usable_map ns_map -> printable e -> white indent -> white space ->
  pretty_print false ns_map indent space e = (Ok text, m) ->
  exists e', xml_read text = Some e' /\ alike e e'.
Proof.
  intros ns_map indent space e text m Hu Hp Hi Hs H. apply pretty_ok in H. destruct H as (_ & st' & H).
  apply (body_read indent); [exact Hi|].
  assert (S : sane st').
  { destruct (elem_steps false e indent space [] (mkPstate ns_map (map snd ns_map))) as [K _].
    rewrite H in K. apply K. split; [exact Hu|]. intros u p. cbn [ps_map ps_mapped]. apply get_snd. }
  destruct S as [[S1 S2] _].
  eapply (elem_back false (fun u => dict_get u (ps_map st')) S1 S2); eauto.
  - apply modes_etree. auto.
  - intros u [].
Qed.

Lemma pretty_back_lxml : forall prefixes ns_map indent space e text m,
  usable_map prefixes -> prefixes_agree prefixes e -> printable e -> white indent -> white space ->
  pretty_print true ns_map indent space e = (Ok text, m) ->
  exists e', xml_read text = Some e' /\ alike e e'.
Proof.
  intros prefixes ns_map indent space e text m [S1 S2] Ha Hp Hi Hs H. apply pretty_ok in H. destruct H as (_ & st' & H).
  apply (body_read indent); [exact Hi|].
  eapply (elem_back true (fun u => dict_get u prefixes) S1 S2); eauto.
  - clear -Ha. induction e as [tag attrs ns t tail kids IH|] using pnode_ind'; [|constructor].
    inversion Ha as [? ? ? ? ? ? H1 H2|]; subst. constructor; [exact H1|].
    rewrite Forall_forall in IH. auto.
  - intros u [].
Qed.

(** ** Success *)
(** The map is a dictionary with keys in [L], and no more prefixes are in use than
    it has entries. *)
Definition within (L : list string) (st : pstate) : Prop :=
  NoDup (map fst (ps_map st)) /\ incl (map fst (ps_map st)) L /\ length (ps_mapped st) = length (ps_map st).

Lemma keys_set : forall u (p : string) m, dict_get u m = None ->
  map fst (dict_set u p m) = (map fst m ++ [u])%list /\ length (dict_set u p m) = S (length m).
Proof.
  induction m as [|[k v] m IH]; intros H; cbn [dict_set dict_get map fst length] in *; [auto|].
  destruct (String.eqb u k); [discriminate|]. cbn [map fst length]. destruct (IH H) as [-> ->]. auto.
Qed.
Lemma get_none_in : forall u (m : list (string * string)), dict_get u m = None -> ~ In u (map fst m).
Proof.
  induction m as [|[k v] m IH]; intros H; cbn [dict_get map fst] in *; [auto|].
  destruct (String.eqb u k) eqn:E; [discriminate|]. apply String.eqb_neq in E. intros [->|K]; [congruence|].
  apply IH; assumption.
Qed.

Lemma alloc_within : forall L u st, length L <= 256 -> In u L -> within L st ->
  exists p st', alloc_prefix u st = (Ok p, st') /\ within L st'.
Proof.
  intros L u st HL Hu (W1 & W2 & W3). unfold alloc_prefix.
  destruct (dict_get u (ps_map st)) as [p|] eqn:E; [exists p, st; repeat split; assumption|].
  assert (Hn := get_none_in _ _ E).
  assert (Hlt : length (ps_map st) < 256).
  { assert (K : length (u :: map fst (ps_map st)) <= length L).
    { apply NoDup_incl_length; [constructor; assumption|]. intros x [<-|Hx]; auto. }
    cbn [length] in K. rewrite map_length in K. lia. }
  destruct (find _ _) as [p|] eqn:F.
  - eexists _, _. split; [reflexivity|]. unfold within. cbn [ps_map ps_mapped length].
    destruct (keys_set u p (ps_map st) E) as [-> ->]. split; [|split].
    + apply NoDup_rev in W1. rewrite <- (rev_involutive (_ ++ _)). apply NoDup_rev. rewrite rev_app_distr.
      cbn [rev List.app]. constructor; [|exact W1]. rewrite <- in_rev. exact Hn.
    + intros x Hx. apply in_app_iff in Hx. destruct Hx as [Hx|[<-|[]]]; auto.
    + lia.
  - exfalso. assert (K : length (map ns_name (seq 0 MAX_NS_TRIES)) <= length (ps_mapped st)).
    { apply NoDup_incl_length.
      - apply FinFun.Injective_map_NoDup; [intros i j; apply ns_name_inj|apply seq_NoDup].
      - intros x Hx. assert (K := find_none _ _ F x Hx). cbn beta in K.
        apply negb_false_iff in K. apply str_in_iff, K. }
    rewrite map_length, seq_length in K. unfold MAX_NS_TRIES in K. lia.
Qed.

(** [x] succeeds in every state that satisfies [W], which holds again afterwards. *)
Definition fine (W : pstate -> Prop) {A} (x : PP A) : Prop :=
  forall st, W st -> exists a st', x st = (Ok a, st') /\ W st'.
Lemma fine_bind : forall W A B (x : PP A) (f : A -> PP B), fine W x -> (forall a, fine W (f a)) -> fine W (bind_p x f).
Proof.
  intros W A B x f Hx Hf st H. destruct (Hx st H) as (a & st1 & E & H1). unfold bind_p. rewrite E. apply Hf, H1.
Qed.
Lemma fine_ret : forall W A (a : A), fine W (ret_p a).
Proof. intros W A a st H. exists a, st. split; [reflexivity|exact H]. Qed.

Lemma attrs_fine : forall (W : pstate -> Prop) lxml ns attrs declared,
  (forall u, In u (map (fun a => get_ns (fst a)) attrs) -> u <> "" -> fine W (get_prefix lxml ns u)) ->
  fine W (print_attrs lxml ns declared attrs).
Proof.
  induction attrs as [|[a v] attrs IH]; intros declared H; cbn [print_attrs]; [apply fine_ret|].
  apply fine_bind.
  - destruct (String.eqb (get_ns a) "") eqn:E; [apply fine_ret|]. apply String.eqb_neq in E.
    apply fine_bind; [apply H; [left; reflexivity|exact E]|].
    intros p. destruct (str_in (get_ns a) declared); apply fine_ret.
  - intros [[decl name] declared1]. apply fine_bind; [apply IH; intros u Hu; apply H; right; exact Hu|].
    intros [t d]. apply fine_ret.
Qed.

Lemma children_fine : forall (W : pstate -> Prop) pr indent tag kids,
  (forall k, In k kids -> fine W (pr k)) -> forall last, fine W (print_children pr indent tag last kids).
Proof.
  induction kids as [|k kids IH]; intros H last; cbn [print_children]; [apply fine_ret|].
  apply fine_bind; [apply H; left; reflexivity|]. intros t.
  apply fine_bind; [apply IH; intros x Hx; apply H; right; exact Hx|]. intros u. apply fine_ret.
Qed.

Lemma elem_fine_etree : forall L e indent space declared,
  length L <= 256 -> no_comments e -> incl (namespaces e) L ->
  fine (within L) (print_elem false indent space declared e).
Proof.
  intros L e. induction e as [tag attrs ns text tail kids IH|text tail] using pnode_ind';
    intros indent space declared HL Hn Hi; [|inversion Hn].
  inversion Hn as [? ? ? ? ? ? Hk]; subst. cbn [namespaces] in Hi.
  assert (A : forall u, In u L -> fine (within L) (get_prefix false ns u)).
  { intros u Hu st Hst. apply alloc_within; assumption. }
  cbn [print_elem]. apply fine_bind.
  { apply attrs_fine. intros u Hu H0. apply A, Hi. right. apply in_app_iff. left. apply filter_In.
    split; [exact Hu|]. apply negb_true_iff, String.eqb_neq, H0. }
  intros [sa d1]. apply fine_bind; [apply A, Hi; left; reflexivity|]. intros p.
  destruct kids as [|k kids]; [apply fine_ret|]. apply fine_bind; [|intros b; apply fine_ret].
  apply children_fine. intros x Hx. rewrite Forall_forall in IH. apply IH; auto.
  intros u Hu. apply Hi. right. apply in_app_iff. right. apply in_flat_map. eauto.
Qed.

Lemma elem_fine_lxml : forall e indent space declared,
  no_comments e -> knows_namespaces e ->
  fine (fun _ => True) (print_elem true indent space declared e).
Proof.
  intros e. induction e as [tag attrs ns text tail kids IH|text tail] using pnode_ind';
    intros indent space declared Hn Hi; [|inversion Hn].
  inversion Hn as [? ? ? ? ? ? Hk]; subst. inversion Hi as [? ? ? ? ? ? H1 H2]; subst.
  assert (A : forall u, (exists p, In (p, u) ns) -> fine (fun _ => True) (get_prefix true ns u)).
  { intros u (p & Hp) st _. unfold get_prefix. destruct (find _ ns) as [[[q|] r]|] eqn:E.
    - exists q, st. auto.
    - exists "None", st. auto.
    - exfalso. apply (find_none _ _ E) in Hp. cbn [snd] in Hp. rewrite String.eqb_refl in Hp. discriminate. }
  cbn [print_elem]. apply fine_bind.
  { apply attrs_fine. intros u Hu H0. apply A, H1. right. auto. }
  intros [sa d1]. apply fine_bind; [apply A, H1; left; reflexivity|]. intros p.
  destruct kids as [|k kids]; [apply fine_ret|]. apply fine_bind; [|intros b; apply fine_ret].
  apply children_fine. intros x Hx. rewrite Forall_forall in IH. apply IH; auto.
Qed.

(** ** Failure *)
Definition fails_with (P : exn -> Prop) {A} (x : PP A) : Prop :=
  forall st e st', x st = (Raise e, st') -> P e.
Lemma fails_bind : forall P A B (x : PP A) (f : A -> PP B), fails_with P x -> (forall a, fails_with P (f a)) ->
  fails_with P (bind_p x f).
Proof.
  intros P A B x f Hx Hf st e st' H. unfold bind_p in H. destruct (x st) as [[a|y] st1] eqn:E.
  - eapply Hf; eauto.
  - injection H as <- <-. eapply Hx; eauto.
Qed.
Lemma fails_ret : forall P A (a : A), fails_with P (ret_p a).
Proof. intros P A a st e st' H. discriminate. Qed.

Lemma prefix_fails : forall lxml ns u, fails_with (fun x => x = EKeyError) (get_prefix lxml ns u).
Proof.
  intros [] ns u st e st'; unfold get_prefix, alloc_prefix.
  - destruct (find _ ns) as [[[q|] r]|]; unfold ret_p, raise_p; congruence.
  - destruct (dict_get u (ps_map st)); [discriminate|]. destruct (find _ _); congruence.
Qed.

Lemma elem_fails : forall lxml e indent space declared,
  fails_with (fun x => (x = ETypeError /\ ~ no_comments e) \/ x = EKeyError) (print_elem lxml indent space declared e).
Proof.
  intros lxml e. induction e as [tag attrs ns text tail kids IH|text tail] using pnode_ind';
    intros indent space declared; cbn [print_elem].
  2:{ intros st x st' H. injection H as <- _. left. split; [reflexivity|]. intros K. inversion K. }
  apply fails_bind.
  { generalize declared. induction attrs as [|[a v] attrs IHa]; intros d; cbn [print_attrs]; [apply fails_ret|].
    apply fails_bind.
    - destruct (String.eqb (get_ns a) ""); [apply fails_ret|].
      apply fails_bind; [intros st x st' H; right; eapply prefix_fails; eauto|].
      intros p. destruct (str_in (get_ns a) d); apply fails_ret.
    - intros [[dd name] d1]. apply fails_bind; [|intros [t2 d2]; apply fails_ret].
      intros st x st' H. destruct (IHa d1 st x st' H) as [[H1 H2]|H1]; [left|right; exact H1].
      split; [exact H1|]. intros K. inversion K; subst. apply H2. constructor. assumption. }
  intros [sa d1]. apply fails_bind; [intros st x st' H; right; eapply prefix_fails; eauto|]. intros p.
  destruct kids as [|k kids]; [apply fails_ret|]. apply fails_bind; [|intros b; apply fails_ret].
  assert (K : forall ks, incl ks (k :: kids) -> forall ind sp d i tg last,
    fails_with (fun x => (x = ETypeError /\ ~ no_comments (PElem tag attrs ns text tail (k :: kids))) \/ x = EKeyError)
      (print_children (print_elem lxml ind sp d) i tg last ks)).
  { rewrite Forall_forall in IH. induction ks as [|y ks IHk]; intros Hi ind sp d i tg last; cbn [print_children]; [apply fails_ret|].
    apply fails_bind.
    - intros st x st' H. destruct (IH y (Hi y (or_introl eq_refl)) ind sp d st x st' H) as [[H1 H2]|H1]; [left|right; exact H1].
      split; [exact H1|]. intros K. inversion K; subst. apply H2. auto using in_eq.
    - intros t. apply fails_bind; [apply IHk; intros z Hz; apply Hi; right; exact Hz|]. intros u. apply fails_ret. }
  apply K. intros x Hx. exact Hx.
Qed.

(** ** Trees that are alike print alike (xml.etree) *)
Lemma bind_ext : forall A B (x y : PP A) (f g : A -> PP B) st, (forall st, x st = y st) ->
  (forall a st, f a st = g a st) -> bind_p x f st = bind_p y g st.
Proof. intros A B x y f g st H K. unfold bind_p. rewrite H. destruct (y st) as [[a|e] st1]; auto. Qed.

Lemma attrs_ns : forall ns ns' attrs declared st,
  print_attrs false ns declared attrs st = print_attrs false ns' declared attrs st.
Proof.
  induction attrs as [|[a v] attrs IH]; intros declared st; [reflexivity|]. cbn [print_attrs].
  apply bind_ext; [reflexivity|]. intros [[decl name] d1] st1.
  apply bind_ext; [apply IH|reflexivity].
Qed.

Lemma children_alike : forall pr indent tag kids kids',
  Forall2 (fun k k' => (forall st, pr k st = pr k' st) /\ estrip (p_tail k) = estrip (p_tail k')) kids kids' ->
  forall last last' st, estrip last = estrip last' ->
  print_children pr indent tag last kids st = print_children pr indent tag last' kids' st.
Proof.
  intros pr indent tag kids kids' H. induction H as [|k k' kids kids' [H1 H2] H IH]; intros last last' st E.
  - cbn [print_children]. rewrite E. reflexivity.
  - cbn [print_children]. apply bind_ext; [exact H1|]. intros t st1.
    apply bind_ext; [intros st2; apply IH, H2|reflexivity].
Qed.

Lemma elem_alike : forall e e' indent space declared st, alike e e' ->
  print_elem false indent space declared e st = print_elem false indent space declared e' st.
Proof.
  induction e as [tag attrs ns text tail kids IH|text tail] using pnode_ind'; intros e' indent space declared st H;
    [|inversion H].
  inversion H as [? ? ? ns' ? text' ? tail' ? kids' Ht Hk]; subst. cbn [print_elem].
  apply bind_ext; [apply attrs_ns|]. intros [sa d1] st1. apply bind_ext; [reflexivity|]. intros p st2.
  apply same_text_iff in Ht. rewrite Ht. destruct Hk as [|k k' kids kids' [Hk1 Hk2] Hk]; [reflexivity|].
  apply bind_ext; [|reflexivity]. intros st3. apply children_alike; [|reflexivity].
  inversion IH as [|? ? IH1 IH2]; subst. constructor; [split; [auto|apply same_text_iff; assumption]|].
  clear -IH2 Hk. induction Hk as [|x x' kids kids' [H1 H2] Hk IHk]; [constructor|].
  inversion IH2; subst. constructor; [split; [auto|apply same_text_iff; assumption]|auto].
Qed.

Lemma pretty_alike : forall ns_map indent space e e', alike e e' ->
  pretty_print false ns_map indent space e = pretty_print false ns_map indent space e'.
Proof. intros. unfold pretty_print. rewrite (elem_alike e e') by assumption. reflexivity. Qed.

(** A list of pairs with different prefixes that are names is usable. *)
Lemma usable_list : forall m, NoDup (map snd m) -> Forall (fun e => name_ok (snd e) /\ snd e <> "xmlns") m ->
  usable_map m.
Proof.
  intros m Hn Hf. rewrite Forall_forall in Hf.
  assert (G : forall (l : list (string * string)) u p, dict_get u l = Some p -> In (u, p) l).
  { induction l as [|[k v] l IH]; intros u p H; [discriminate|]. cbn [dict_get] in H.
    destruct (String.eqb u k) eqn:E; [apply String.eqb_eq in E; left; congruence|right; auto]. }
  split.
  - intros u u' p H H'. apply G in H, H'. clear -Hn H H'.
    induction m as [|[k v] m IH]; [destruct H|]. cbn [map snd] in Hn. inversion Hn as [|? ? H1 H2]; subst.
    destruct H as [H|H], H' as [H'|H'].
    + congruence.
    + injection H as <- <-. exfalso. apply H1, in_map_iff. exists (u', v). auto.
    + injection H' as <- <-. exfalso. apply H1, in_map_iff. exists (u, v). auto.
    + auto.
  - intros u p H. apply G in H. apply (Hf _ H).
Qed.
